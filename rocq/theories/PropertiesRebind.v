(** Property theorems C55 and C56: the syntax tree and the bindings of a renamed document. *)
From Verif Require Import Text Rope Chumsky Tokenizer Parser Numbers Index SemTok Diag Rename Cfg Backtrace Server SpecText SpecParse SpecIndex SpecDiag SpecBacktrace SpecNumbers SpecCfg SpecView SpecRename SpecPatch SpecSimilar SpecRebind
  PNatural PRebind ExamplesIndex ExamplesCfg ExamplesView ExamplesRename ExamplesPatch ExamplesRebind ExamplesLabel.

(** C55: the parser does not look at names: token lists of the same shape have the same tree and the same errors *)
Theorem C55_shape : forall (T : stoken -> stoken -> Prop) src src' toks toks',
  (forall a b, T a b -> similar (fst a) (fst b)) -> Forall2 T toks toks' ->
  match parse_tokens src toks, parse_tokens src' toks' with
  | Val (ss, errs), Val (ss', errs') => both (Forall2 (same_stmt T)) ss ss' /\ Forall2 (same_error T (ends src) (ends src')) errs errs'
  | Panic, Panic => True
  | _, _ => False
  end.
Proof. exact parse_similar. Qed.
Print Assumptions C55_shape.
Example C55_shape_ex : Forall2 (fun a b => similar (fst a) (fst b)) (tokens_of doc10) (tokens_of doc10_renamed) /\ tokens_of doc10 <> [] /\
  exists ss, parse_tokens doc10 (tokens_of doc10) = Val (Some ss, []) /\ ss <> [].
Proof. exact shape10. Qed.

(** C55: the document after a rename has the tree it had before *)
Theorem C55_rename : forall e s uri src d p, plain_document src -> opened e s uri src d -> p <= length src ->
  exists pr, parse_from_str (e_u e) src = Val pr /\ pr_stmts pr = doc_stmts d /\
  ((forall o, In o (recorded (pr_stmts pr) (pr_tokens pr)) -> ~ covers (o_span o) p) \/
   exists o errs, In o (recorded (pr_stmts pr) (pr_tokens pr)) /\ covers (o_span o) p /\ tokenize (e_u e) src = Val (Some (pr_tokens pr), errs) /\
     (forall new final, accepted (e_u e) (o_kind o) new final -> (forall b, final <> b ++ [ch ":"]) ->
       (o_kind o = KLabel -> errs = [] /\ free_word final /\ plain_word (o_name o) /\ plain_word final) ->
       exists edits pr', rename e s uri (lsp_position src p) new = Val (Reply edits) /\ parse_from_str (e_u e) (patched src edits) = Val pr' /\
         retold (renamed o final) (recorded (pr_stmts pr) (pr_tokens pr)) (pr_tokens pr) (pr_tokens pr') /\
         Forall2 (same_stmt (counterparts (pr_tokens pr) (pr_tokens pr'))) (pr_stmts pr) (pr_stmts pr') /\
         (errs = [] -> Forall2 same_complaint (pr_errors pr) (pr_errors pr')))).
Proof. exact rename_tree. Qed.
Print Assumptions C55_rename.
Example C55_ex : plain_document doc10 /\ opened env8 s10 (str "f") doc10 d10 /\ 30 <= length doc10 /\
  (In o10 occs10 /\ covers (o_span o10) 30 /\ o_kind o10 = KLocalVar) /\ (exists toks, tokenize (e_u env8) doc10 = Val (Some toks, [])) /\
  (accepted (e_u env8) KLocalVar (str "a_1") (str "%a_1") /\ forall b, str "%a_1" <> b ++ [ch ":"]) /\
  patched doc10 (edits_of (rename env8 s10 (str "f") (lsp_position doc10 30) (str "a_1"))) = doc10_renamed.
Proof.
  split; [apply opened10|]. split; [apply opened10|]. split; [vm_compute; lia|]. split; [split; [apply o10_ok|split; [apply o10_ok|reflexivity]]|].
  split; [exists (tokens_of doc10); vm_compute; reflexivity|]. split; [exact accepted10|apply patched10].
Qed.
Example C55_label_ex : plain_document doc12 /\ opened env8 s12 (str "f") doc12 d12 /\ 48 <= length doc12 /\
  (In o12 occs12 /\ covers (o_span o12) 48 /\ o_kind o12 = KLabel) /\ tokenize (e_u env8) doc12 = Val (Some (pr_tokens (pr_of doc12)), []) /\
  (accepted (e_u env8) KLabel (str "loop") (str "loop") /\ (forall b, str "loop" <> b ++ [ch ":"]) /\ free_word (str "loop") /\ plain_word (o_name o12) /\ plain_word (str "loop")).
Proof.
  split; [apply opened12|]. split; [apply opened12|]. split; [vm_compute; lia|]. split; [exact o12_at|]. split; [exact clean12|exact accepted12].
Qed.
(** the same when numbers are moved *)
Theorem C55_shift : forall e s uri src d p, plain_document src -> visits_all (e_ord e) -> opened e s uri src d -> p <= length src ->
  exists pr, parse_from_str (e_u e) src = Val pr /\ pr_stmts pr = doc_stmts d /\
  ((forall o, In o (recorded (pr_stmts pr) (pr_tokens pr)) -> ~ covers (o_span o) p) \/
   exists o errs, In o (recorded (pr_stmts pr) (pr_tokens pr)) /\ covers (o_span o) p /\ tokenize (e_u e) src = Val (Some (pr_tokens pr), errs) /\
     (forall new z n, asks_shift new z -> has_number (o_name o) n -> no_overflow (recorded (pr_stmts pr) (pr_tokens pr)) o n z ->
       (o_kind o = KLabel -> errs = [] /\ forall x y, In x (recorded (pr_stmts pr) (pr_tokens pr)) -> moved o n z x y -> free_word y) ->
       exists edits pr', rename e s uri (lsp_position src p) new = Val (Reply edits) /\ parse_from_str (e_u e) (patched src edits) = Val pr' /\
         retold (moved o n z) (recorded (pr_stmts pr) (pr_tokens pr)) (pr_tokens pr) (pr_tokens pr') /\
         Forall2 (same_stmt (counterparts (pr_tokens pr) (pr_tokens pr'))) (pr_stmts pr) (pr_stmts pr') /\
         (errs = [] -> Forall2 same_complaint (pr_errors pr) (pr_errors pr')))).
Proof. exact shift_tree. Qed.
Print Assumptions C55_shift.
Example C55_shift_ex : plain_document doc10 /\ visits_all (e_ord env8) /\ opened env8 s10 (str "f") doc10 d10 /\ 30 <= length doc10 /\
  (In o10 occs10 /\ covers (o_span o10) 30 /\ has_number (o_name o10) 2 /\ asks_shift (str "+3") 3 /\ no_overflow occs10 o10 2 3) /\ o_kind o10 <> KLabel /\
  patched doc10 (edits_of (rename env8 s10 (str "f") (lsp_position doc10 30) (str "+3"))) = doc10_moved.
Proof.
  split; [apply opened10|]. split; [apply opened10|]. split; [apply opened10|]. split; [vm_compute; lia|]. split; [exact o10_ok|]. split; [discriminate|apply patched10].
Qed.

(** C56: after a rename to an unused name the same occurrences belong together, the same uses are undefined and the same names are defined twice *)
Theorem C56_rename : forall e s uri src d p, plain_document src -> opened e s uri src d -> p <= length src ->
  exists pr, parse_from_str (e_u e) src = Val pr /\ pr_stmts pr = doc_stmts d /\
  ((forall o, In o (recorded (pr_stmts pr) (pr_tokens pr)) -> ~ covers (o_span o) p) \/
   exists o errs, In o (recorded (pr_stmts pr) (pr_tokens pr)) /\ covers (o_span o) p /\ tokenize (e_u e) src = Val (Some (pr_tokens pr), errs) /\
     (forall new final, accepted (e_u e) (o_kind o) new final -> (forall b, final <> b ++ [ch ":"]) ->
       (o_kind o = KLabel -> errs = [] /\ free_word final /\ plain_word (o_name o) /\ plain_word final) ->
       unused (recorded (pr_stmts pr) (pr_tokens pr)) o final -> (global (o_kind o) -> ~ dual (pr_stmts pr) (o_name o)) ->
       exists edits pr', rename e s uri (lsp_position src p) new = Val (Reply edits) /\ parse_from_str (e_u e) (patched src edits) = Val pr' /\
         retold (renamed o final) (recorded (pr_stmts pr) (pr_tokens pr)) (pr_tokens pr) (pr_tokens pr') /\ bound_alike pr pr')).
Proof. exact rename_bindings. Qed.
Print Assumptions C56_rename.
Example C56_ex : plain_document doc10 /\ opened env8 s10 (str "f") doc10 d10 /\ 30 <= length doc10 /\
  (In o10 occs10 /\ covers (o_span o10) 30 /\ o_kind o10 = KLocalVar /\ ~ global (o_kind o10)) /\
  (accepted (e_u env8) KLocalVar (str "a_1") (str "%a_1") /\ forall b, str "%a_1" <> b ++ [ch ":"]) /\ unused occs10 o10 (str "%a_1").
Proof.
  split; [apply opened10|]. split; [apply opened10|]. split; [vm_compute; lia|]. split; [split; [apply o10_ok|split; [apply o10_ok|split; [reflexivity|apply zeros10]]]|]. split; [exact accepted10|exact unused10].
Qed.
Example C56_label_ex : plain_document doc12 /\ opened env8 s12 (str "f") doc12 d12 /\ 48 <= length doc12 /\
  (In o12 occs12 /\ covers (o_span o12) 48 /\ o_kind o12 = KLabel) /\ tokenize (e_u env8) doc12 = Val (Some (pr_tokens (pr_of doc12)), []) /\
  (accepted (e_u env8) KLabel (str "loop") (str "loop") /\ (forall b, str "loop" <> b ++ [ch ":"]) /\ free_word (str "loop") /\ plain_word (o_name o12) /\ plain_word (str "loop")) /\
  unused occs12 o12 (str "loop") /\ ~ global (o_kind o12).
Proof.
  split; [apply opened12|]. split; [apply opened12|]. split; [vm_compute; lia|]. split; [exact o12_at|]. split; [exact clean12|]. split; [exact accepted12|]. split; [exact unused12|apply shift12].
Qed.
(** the same when numbers of locals, labels or debug references are moved up *)
Theorem C56_shift : forall e s uri src d p, plain_document src -> visits_all (e_ord e) -> opened e s uri src d -> p <= length src ->
  exists pr, parse_from_str (e_u e) src = Val pr /\ pr_stmts pr = doc_stmts d /\
  ((forall o, In o (recorded (pr_stmts pr) (pr_tokens pr)) -> ~ covers (o_span o) p) \/
   exists o errs, In o (recorded (pr_stmts pr) (pr_tokens pr)) /\ covers (o_span o) p /\ tokenize (e_u e) src = Val (Some (pr_tokens pr), errs) /\
     (forall new z n, asks_shift new z -> has_number (o_name o) n -> no_overflow (recorded (pr_stmts pr) (pr_tokens pr)) o n z ->
       (o_kind o = KLabel -> errs = [] /\ forall x y, In x (recorded (pr_stmts pr) (pr_tokens pr)) -> moved o n z x y -> free_word y) ->
       (0 <= z)%Z -> ~ global (o_kind o) ->
       (forall x, In x (recorded (pr_stmts pr) (pr_tokens pr)) -> in_scope o x -> no_leading_zeros (o_name x) /\ forall m, has_number (o_name x) m -> fits_i64 (Z.of_N m + z)) ->
       exists edits pr', rename e s uri (lsp_position src p) new = Val (Reply edits) /\ parse_from_str (e_u e) (patched src edits) = Val pr' /\
         retold (moved o n z) (recorded (pr_stmts pr) (pr_tokens pr)) (pr_tokens pr) (pr_tokens pr') /\ bound_alike pr pr')).
Proof. exact shift_bindings. Qed.
Print Assumptions C56_shift.
Example C56_shift_ex : plain_document doc10 /\ visits_all (e_ord env8) /\ opened env8 s10 (str "f") doc10 d10 /\ 30 <= length doc10 /\
  (In o10 occs10 /\ covers (o_span o10) 30 /\ has_number (o_name o10) 2 /\ asks_shift (str "+3") 3 /\ no_overflow occs10 o10 2 3) /\ o_kind o10 <> KLabel /\
  ~ global (o_kind o10) /\ forall x, In x occs10 -> in_scope o10 x -> no_leading_zeros (o_name x) /\ forall m, has_number (o_name x) m -> fits_i64 (Z.of_N m + 3).
Proof.
  split; [apply opened10|]. split; [apply opened10|]. split; [apply opened10|]. split; [vm_compute; lia|]. split; [exact o10_ok|]. split; [discriminate|exact zeros10].
Qed.
Example C56_shift_label_ex : plain_document doc12 /\ visits_all (e_ord env8) /\ opened env8 s12 (str "f") doc12 d12 /\ 48 <= length doc12 /\
  (In o12 occs12 /\ covers (o_span o12) 48 /\ o_kind o12 = KLabel) /\ tokenize (e_u env8) doc12 = Val (Some (pr_tokens (pr_of doc12)), []) /\
  has_number (o_name o12) 1 /\ asks_shift (str "+3") 3 /\ no_overflow occs12 o12 1 3 /\ (forall x y, In x occs12 -> moved o12 1 3 x y -> free_word y) /\
  ~ global (o_kind o12) /\ forall x, In x occs12 -> in_scope o12 x -> no_leading_zeros (o_name x) /\ forall m, has_number (o_name x) m -> fits_i64 (Z.of_N m + 3).
Proof.
  split; [apply opened12|]. split; [apply opened12|]. split; [apply opened12|]. split; [vm_compute; lia|]. split; [exact o12_at|]. split; [exact clean12|exact shift12].
Qed.
(** the server renames to a name that is used as well *)
Theorem C56_used_refuted : exists e s uri src d p new edits, plain_document src /\ opened e s uri src d /\ p <= length src /\
  (exists o, In o (recorded (doc_stmts d) (pr_tokens (pr_of src))) /\ covers (o_span o) p /\ o_kind o = KLocalVar /\ accepted (e_u e) KLocalVar new new) /\
  rename e s uri (lsp_position src p) new = Val (Reply edits) /\ redefinitions (recorded (pr_stmts (pr_of src)) (pr_tokens (pr_of src))) = [] /\
  redefinitions (recorded (pr_stmts (pr_of (patched src edits))) (pr_tokens (pr_of (patched src edits)))) <> [].
Proof. exact captured10. Qed.
Print Assumptions C56_used_refuted.
