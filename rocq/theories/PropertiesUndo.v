(** Property theorems C60: a rename can be undone by a rename. *)
From Verif Require Import Text Rope Chumsky Tokenizer Parser Numbers Index SemTok Diag Rename Cfg Backtrace Server SpecText SpecLex SpecParse SpecIndex SpecDiag SpecBacktrace SpecNumbers SpecCfg SpecView SpecRename SpecPatch SpecSimilar SpecRebind
  PUndo ExamplesIndex ExamplesCfg ExamplesView ExamplesRename ExamplesPatch ExamplesRebind ExamplesLabel ExamplesUndo.

(** C60: after a rename to an unused name, renaming any occurrence of the new name to the old one gives the old text *)
Theorem C60_rename : forall e s uri src d p, plain_document src -> opened e s uri src d -> p <= length src ->
  exists pr, parse_from_str (e_u e) src = Val pr /\ pr_stmts pr = doc_stmts d /\
  ((forall o, In o (recorded (pr_stmts pr) (pr_tokens pr)) -> ~ covers (o_span o) p) \/
   exists o, In o (recorded (pr_stmts pr) (pr_tokens pr)) /\ covers (o_span o) p /\
     (forall new final back, tokenize (e_u e) src = Val (Some (pr_tokens pr), []) -> accepted (e_u e) (o_kind o) new final -> (forall b, final <> b ++ [ch ":"]) ->
       (o_kind o = KLabel -> free_word final /\ plain_word (o_name o) /\ plain_word final) ->
       unused (recorded (pr_stmts pr) (pr_tokens pr)) o final -> (global (o_kind o) -> ~ dual (pr_stmts pr) (o_name o)) ->
       accepted (e_u e) (o_kind o) back (o_name o) ->
       exists edits pr', rename e s uri (lsp_position src p) new = Val (Reply edits) /\ parse_from_str (e_u e) (patched src edits) = Val pr' /\
         (exists o', In o' (recorded (pr_stmts pr') (pr_tokens pr')) /\ in_scope o o' /\ o_name o' = final) /\
         forall s' uri' d' p' o', plain_document (patched src edits) -> opened e s' uri' (patched src edits) d' ->
           In o' (recorded (pr_stmts pr') (pr_tokens pr')) -> covers (o_span o') p' -> in_scope o o' -> o_name o' = final ->
           exists edits', rename e s' uri' (lsp_position (patched src edits) p') back = Val (Reply edits') /\ patched (patched src edits) edits' = src)).
Proof. exact rename_undo. Qed.
Print Assumptions C60_rename.
Example C60_ex : plain_document doc12 /\ opened env8 s12 (str "f") doc12 d12 /\ 48 <= length doc12 /\
  (In o12 occs12 /\ covers (o_span o12) 48 /\ o_kind o12 = KLabel) /\ tokenize (e_u env8) doc12 = Val (Some (pr_tokens (pr_of doc12)), []) /\
  (accepted (e_u env8) KLabel (str "loop") (str "loop") /\ (forall b, str "loop" <> b ++ [ch ":"]) /\ free_word (str "loop") /\ plain_word (o_name o12) /\ plain_word (str "loop")) /\
  unused occs12 o12 (str "loop") /\ ~ global (o_kind o12) /\ accepted (e_u env8) KLabel (str "a_1") (o_name o12) /\
  patched doc12 (edits_of (rename env8 s12 (str "f") (lsp_position doc12 48) (str "loop"))) = doc12_renamed /\
  (plain_document doc12_renamed /\ opened env8 (with_doc doc12_renamed) (str "f") doc12_renamed (doc_of env8 doc12_renamed)) /\
  In o12r (occs_of doc12_renamed) /\ covers (o_span o12r) 48 /\ in_scope o12 o12r /\ o_name o12r = str "loop".
Proof.
  split; [apply opened12|]. split; [apply opened12|]. split; [vm_compute; lia|]. split; [exact o12_at|]. split; [exact clean12|]. split; [exact accepted12|]. split; [exact unused12|].
  split; [apply shift12|]. split; [exact accepted12_back|]. split; [apply patched12|]. split; [exact opened12r|exact o12r_at].
Qed.
(** numbers moved up are moved down again *)
Theorem C60_shift : forall e s uri src d p, plain_document src -> visits_all (e_ord e) -> opened e s uri src d -> p <= length src ->
  exists pr, parse_from_str (e_u e) src = Val pr /\ pr_stmts pr = doc_stmts d /\
  ((forall o, In o (recorded (pr_stmts pr) (pr_tokens pr)) -> ~ covers (o_span o) p) \/
   exists o, In o (recorded (pr_stmts pr) (pr_tokens pr)) /\ covers (o_span o) p /\
     (forall new z n back, tokenize (e_u e) src = Val (Some (pr_tokens pr), []) -> asks_shift new z -> has_number (o_name o) n -> no_overflow (recorded (pr_stmts pr) (pr_tokens pr)) o n z ->
       (o_kind o = KLabel -> forall x y, In x (recorded (pr_stmts pr) (pr_tokens pr)) -> moved o n z x y -> free_word y) ->
       (0 <= z)%Z -> ~ global (o_kind o) ->
       (forall x, In x (recorded (pr_stmts pr) (pr_tokens pr)) -> in_scope o x -> no_leading_zeros (o_name x) /\ forall m, has_number (o_name x) m -> fits_i64 (Z.of_N m + z)) ->
       asks_shift back (- z) ->
       exists edits pr', rename e s uri (lsp_position src p) new = Val (Reply edits) /\ parse_from_str (e_u e) (patched src edits) = Val pr' /\
         (exists o', In o' (recorded (pr_stmts pr') (pr_tokens pr')) /\ in_scope o o' /\ has_number (o_name o') (Z.to_N (Z.of_N n + z))) /\
         forall s' uri' d' p' o', plain_document (patched src edits) -> opened e s' uri' (patched src edits) d' ->
           In o' (recorded (pr_stmts pr') (pr_tokens pr')) -> covers (o_span o') p' -> in_scope o o' -> has_number (o_name o') (Z.to_N (Z.of_N n + z)) ->
           exists edits', rename e s' uri' (lsp_position (patched src edits) p') back = Val (Reply edits') /\ patched (patched src edits) edits' = src)).
Proof. exact shift_undo. Qed.
Print Assumptions C60_shift.
Example C60_shift_ex : plain_document doc10 /\ visits_all (e_ord env8) /\ opened env8 s10 (str "f") doc10 d10 /\ 30 <= length doc10 /\
  (In o10 occs10 /\ covers (o_span o10) 30 /\ has_number (o_name o10) 2 /\ asks_shift (str "+3") 3 /\ no_overflow occs10 o10 2 3) /\ o_kind o10 <> KLabel /\
  tokenize (e_u env8) doc10 = Val (Some (pr_tokens (pr_of doc10)), []) /\
  (~ global (o_kind o10) /\ forall x, In x occs10 -> in_scope o10 x -> no_leading_zeros (o_name x) /\ forall m, has_number (o_name x) m -> fits_i64 (Z.of_N m + 3)) /\ asks_shift (str "-3") (- 3) /\
  patched doc10 (edits_of (rename env8 s10 (str "f") (lsp_position doc10 30) (str "+3"))) = doc10_moved /\
  (plain_document doc10_moved /\ opened env8 (with_doc doc10_moved) (str "f") doc10_moved (doc_of env8 doc10_moved)) /\
  In o10m (occs_of doc10_moved) /\ covers (o_span o10m) 30 /\ in_scope o10 o10m /\ has_number (o_name o10m) 5.
Proof.
  split; [apply opened10|]. split; [apply opened10|]. split; [apply opened10|]. split; [vm_compute; lia|]. split; [exact o10_ok|]. split; [discriminate|]. split; [exact clean10|]. split; [exact zeros10|].
  split; [exact minus3|]. split; [apply patched10|]. split; [exact opened10m|exact o10m_at].
Qed.
(** a numbered name is not accepted back *)
Theorem C60_number_refuted : exists e s uri src d p new edits s' d' p', plain_document src /\ opened e s uri src d /\ p <= length src /\
  tokenize (e_u e) src = Val (Some (pr_tokens (pr_of src)), []) /\
  (exists o, In o (recorded (pr_stmts (pr_of src)) (pr_tokens (pr_of src))) /\ covers (o_span o) p /\ o_kind o = KLocalVar /\ o_name o = str "%2" /\
     accepted (e_u e) KLocalVar new (str "%a_1") /\ unused (recorded (pr_stmts (pr_of src)) (pr_tokens (pr_of src))) o (str "%a_1")) /\
  rename e s uri (lsp_position src p) new = Val (Reply edits) /\ plain_document (patched src edits) /\ opened e s' uri (patched src edits) d' /\
  (exists o', In o' (recorded (pr_stmts (pr_of (patched src edits))) (pr_tokens (pr_of (patched src edits)))) /\ covers (o_span o') p' /\ o_name o' = str "%a_1") /\
  forall back, without_sigil KLocalVar back (str "2") -> exists m, rename e s' uri (lsp_position (patched src edits) p') back = Val (RpcError m).
Proof. exact digits_not_back. Qed.
Print Assumptions C60_number_refuted.
(** moving down cannot be undone by moving up *)
Theorem C60_down_refuted : exists e s uri src d p edits s' d' p' edits', plain_document src /\ visits_all (e_ord e) /\ opened e s uri src d /\ p <= length src /\
  tokenize (e_u e) src = Val (Some (pr_tokens (pr_of src)), []) /\
  rename e s uri (lsp_position src p) (str "-1") = Val (Reply edits) /\ plain_document (patched src edits) /\ opened e s' uri (patched src edits) d' /\
  rename e s' uri (lsp_position (patched src edits) p') (str "+1") = Val (Reply edits') /\ map te_range edits <> [] /\ lsp_position (patched src edits) p' = lsp_position src p /\
  patched (patched src edits) edits' <> src.
Proof. exact down_not_back. Qed.
Print Assumptions C60_down_refuted.
(** text that is no token is lost with the name behind it *)
Theorem C60_skipped_refuted : exists e s uri src d p edits s' d' p' edits', plain_document src /\ opened e s uri src d /\ p <= length src /\
  rename e s uri (lsp_position src p) (str "y") = Val (Reply edits) /\ plain_document (patched src edits) /\ opened e s' uri (patched src edits) d' /\
  rename e s' uri (lsp_position (patched src edits) p') (str "x") = Val (Reply edits') /\ src = str "$ @x = 5" ++ [LF] /\ patched (patched src edits) edits' = str "@x = 5" ++ [LF].
Proof. exact skipped_not_back. Qed.
Print Assumptions C60_skipped_refuted.
