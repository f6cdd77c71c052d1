(** Property theorems C29: a client applies the edits of a rename. *)
From Verif Require Import Text Rope Chumsky Tokenizer Parser Numbers Index SemTok Diag Rename Cfg Backtrace Server SpecText SpecIndex SpecDiag SpecBacktrace SpecNumbers SpecCfg SpecView SpecRename SpecPatch
  PRelex ExamplesIndex ExamplesCfg ExamplesView ExamplesRename ExamplesPatch ExamplesLabel.

(** C29: after renaming to a name that does not end in a colon the document has the same tokens but for the renamed ones; for a label the name must not be reserved or start with a colon, and the document must lex without errors *)
Theorem C29_rename : forall e s uri src d p, plain_document src -> opened e s uri src d -> p <= length src ->
  exists pr, parse_from_str (e_u e) src = Val pr /\ pr_stmts pr = doc_stmts d /\
  ((forall o, In o (recorded (pr_stmts pr) (pr_tokens pr)) -> ~ covers (o_span o) p) \/
   exists o errs, In o (recorded (pr_stmts pr) (pr_tokens pr)) /\ covers (o_span o) p /\ tokenize (e_u e) src = Val (Some (pr_tokens pr), errs) /\
     (forall new final, accepted (e_u e) (o_kind o) new final -> (forall b, final <> b ++ [ch ":"]) -> (o_kind o = KLabel -> errs = [] /\ free_word final) ->
       exists edits toks' errs', rename e s uri (lsp_position src p) new = Val (Reply edits) /\ tokenize (e_u e) (patched src edits) = Val (Some toks', errs') /\
         retold (renamed o final) (recorded (pr_stmts pr) (pr_tokens pr)) (pr_tokens pr) toks' /\ (errs = [] -> errs' = []))).
Proof. exact rename_tokens. Qed.
Print Assumptions C29_rename.
Example C29_ex : plain_document doc10 /\ opened env8 s10 (str "f") doc10 d10 /\ 30 <= length doc10 /\
  (In o10 occs10 /\ covers (o_span o10) 30 /\ o_kind o10 = KLocalVar) /\
  (accepted (e_u env8) KLocalVar (str "a_1") (str "%a_1") /\ forall b, str "%a_1" <> b ++ [ch ":"]) /\
  patched doc10 (edits_of (rename env8 s10 (str "f") (lsp_position doc10 30) (str "a_1"))) = doc10_renamed.
Proof.
  split; [apply opened10|]. split; [apply opened10|]. split; [vm_compute; lia|]. split; [split; [apply o10_ok|split; [apply o10_ok|reflexivity]]|]. split; [exact accepted10|apply patched10].
Qed.
Example C29_label_ex : plain_document doc12 /\ opened env8 s12 (str "f") doc12 d12 /\ 48 <= length doc12 /\
  (In o12 occs12 /\ covers (o_span o12) 48 /\ o_kind o12 = KLabel) /\ tokenize (e_u env8) doc12 = Val (Some (pr_tokens (pr_of doc12)), []) /\
  (accepted (e_u env8) KLabel (str "loop") (str "loop") /\ (forall b, str "loop" <> b ++ [ch ":"]) /\ free_word (str "loop")) /\
  patched doc12 (edits_of (rename env8 s12 (str "f") (lsp_position doc12 48) (str "loop"))) = doc12_renamed.
Proof.
  split; [apply opened12|]. split; [apply opened12|]. split; [vm_compute; lia|]. split; [exact o12_at|]. split; [exact clean12|].
  split; [split; [apply accepted12|split; apply accepted12]|apply patched12].
Qed.

(** the same when numbers are moved *)
Theorem C29_shift : forall e s uri src d p, plain_document src -> visits_all (e_ord e) -> opened e s uri src d -> p <= length src ->
  exists pr, parse_from_str (e_u e) src = Val pr /\ pr_stmts pr = doc_stmts d /\
  ((forall o, In o (recorded (pr_stmts pr) (pr_tokens pr)) -> ~ covers (o_span o) p) \/
   exists o errs, In o (recorded (pr_stmts pr) (pr_tokens pr)) /\ covers (o_span o) p /\ tokenize (e_u e) src = Val (Some (pr_tokens pr), errs) /\
     (forall new z n, asks_shift new z -> has_number (o_name o) n -> no_overflow (recorded (pr_stmts pr) (pr_tokens pr)) o n z ->
       (o_kind o = KLabel -> errs = [] /\ forall x y, In x (recorded (pr_stmts pr) (pr_tokens pr)) -> moved o n z x y -> free_word y) ->
       exists edits toks' errs', rename e s uri (lsp_position src p) new = Val (Reply edits) /\ tokenize (e_u e) (patched src edits) = Val (Some toks', errs') /\
         retold (moved o n z) (recorded (pr_stmts pr) (pr_tokens pr)) (pr_tokens pr) toks' /\ (errs = [] -> errs' = []))).
Proof. exact shift_tokens. Qed.
Print Assumptions C29_shift.
Example C29_shift_ex : plain_document doc10 /\ visits_all (e_ord env8) /\ opened env8 s10 (str "f") doc10 d10 /\ 30 <= length doc10 /\
  (In o10 occs10 /\ covers (o_span o10) 30 /\ has_number (o_name o10) 2 /\ asks_shift (str "+3") 3 /\ no_overflow occs10 o10 2 3) /\ o_kind o10 <> KLabel /\
  patched doc10 (edits_of (rename env8 s10 (str "f") (lsp_position doc10 30) (str "+3"))) = doc10_moved.
Proof.
  split; [apply opened10|]. split; [apply opened10|]. split; [apply opened10|]. split; [vm_compute; lia|]. split; [exact o10_ok|]. split; [discriminate|apply patched10].
Qed.
Example C29_shift_label_ex : plain_document doc12 /\ visits_all (e_ord env8) /\ opened env8 s12 (str "f") doc12 d12 /\ 48 <= length doc12 /\
  (In o12 occs12 /\ covers (o_span o12) 48 /\ o_kind o12 = KLabel) /\ tokenize (e_u env8) doc12 = Val (Some (pr_tokens (pr_of doc12)), []) /\
  (has_number (o_name o12) 1 /\ asks_shift (str "+3") 3 /\ no_overflow occs12 o12 1 3 /\ forall x y, In x occs12 -> moved o12 1 3 x y -> free_word y) /\
  patched doc12 (edits_of (rename env8 s12 (str "f") (lsp_position doc12 48) (str "+3"))) = doc12_moved.
Proof.
  split; [apply opened12|]. split; [apply opened12|]. split; [apply opened12|]. split; [vm_compute; lia|]. split; [exact o12_at|]. split; [exact clean12|].
  split; [split; [apply shift12|split; [apply shift12|split; apply shift12]]|apply patched12].
Qed.

(** names that end in a colon are accepted, but not read back as one token *)
Theorem C29_colon_refuted : exists e s uri src d p new final edits toks toks', plain_document src /\ opened e s uri src d /\ p <= length src /\
  (exists o, In o (recorded (doc_stmts d) toks) /\ covers (o_span o) p /\ o_kind o <> KLabel /\ accepted (e_u e) (o_kind o) new final) /\
  rename e s uri (lsp_position src p) new = Val (Reply edits) /\
  tokenize (e_u e) src = Val (Some toks, []) /\ tokenize (e_u e) (patched src edits) = Val (Some toks', []) /\ length toks' <> length toks.
Proof. exact colon_changes_tokens. Qed.
Print Assumptions C29_colon_refuted.
(** text in front of a name that is no token is deleted with the old name *)
Theorem C29_skipped_text_refuted : exists e s uri src d p edits errs, plain_document src /\ opened e s uri src d /\ p <= length src /\
  rename e s uri (lsp_position src p) (str "y") = Val (Reply edits) /\
  tokenize (e_u e) src = Val (Some (tokens_of src), errs) /\ src = str "$ @x = 5" ++ [LF] /\ patched src edits = str "@y = 5" ++ [LF].
Proof. exact garbage_goes. Qed.
Print Assumptions C29_skipped_text_refuted.
(** a label may be renamed to a reserved word, and moving a number can make one *)
Theorem C29_keyword_refuted : exists e s uri src d p new edits, plain_document src /\ opened e s uri src d /\ p <= length src /\
  (exists o, In o (recorded (doc_stmts d) (pr_tokens (pr_of src))) /\ covers (o_span o) p /\ o_kind o = KLabel /\ accepted (e_u e) KLabel new new) /\
  rename e s uri (lsp_position src p) new = Val (Reply edits) /\ pr_errors (pr_of src) = [] /\ pr_errors (pr_of (patched src edits)) <> [].
Proof. exact keyword_label. Qed.
Print Assumptions C29_keyword_refuted.
Theorem C29_keyword_shift_refuted : exists e s uri src d p edits, plain_document src /\ opened e s uri src d /\ p <= length src /\
  rename e s uri (lsp_position src p) (str "+1") = Val (Reply edits) /\ pr_errors (pr_of src) = [] /\ pr_errors (pr_of (patched src edits)) <> [].
Proof. exact keyword_shift. Qed.
Print Assumptions C29_keyword_shift_refuted.
