(** C73: changes that keep a program a program. *)
From Verif Require Import Text Rope Chumsky Tokenizer Parser Numbers Index SemTok Diag Rename Cfg Backtrace Server SpecText SpecBytes SpecLex SpecParse SpecExact SpecIndex SpecDiag SpecBacktrace SpecNumbers SpecCfg SpecView SpecRename SpecPatch SpecSimilar SpecRebind SpecLayout SpecLines SpecSum SpecForeign SpecFault SpecViable
  PKeep PLocal ExamplesIndex ExamplesCfg ExamplesView ExamplesRename ExamplesPatch ExamplesRebind ExamplesLabel ExamplesLayout ExamplesLines ExamplesSum ExamplesClean ExamplesKeep.

(** C73: a symbol gets another name *)
Theorem C73_rename : forall e s uri src d p, plain_document src -> opened e s uri src d -> p <= length src -> program (e_u e) src ->
  exists pr, parse_from_str (e_u e) src = Val pr /\ pr_stmts pr = doc_stmts d /\
  ((forall o, In o (recorded (pr_stmts pr) (pr_tokens pr)) -> ~ covers (o_span o) p) \/
   exists o, In o (recorded (pr_stmts pr) (pr_tokens pr)) /\ covers (o_span o) p /\
     (forall new final, accepted (e_u e) (o_kind o) new final -> (forall b, final <> b ++ [ch ":"]) ->
       (o_kind o = KLabel -> free_word final /\ plain_word (o_name o) /\ plain_word final) ->
       unused (recorded (pr_stmts pr) (pr_tokens pr)) o final -> (global (o_kind o) -> ~ dual (pr_stmts pr) (o_name o)) ->
       exists edits, rename e s uri (lsp_position src p) new = Val (Reply edits) /\ program (e_u e) (patched src edits))).
Proof. exact rename_program. Qed.
Print Assumptions C73_rename.
Example C73_rename_ex : plain_document doc12 /\ opened env8 s12 (str "f") doc12 d12 /\ 48 <= length doc12 /\ program (e_u env8) doc12 /\
  (In o12 occs12 /\ covers (o_span o12) 48 /\ o_kind o12 = KLabel) /\
  (accepted (e_u env8) KLabel (str "loop") (str "loop") /\ (forall b, str "loop" <> b ++ [ch ":"]) /\ free_word (str "loop") /\ plain_word (o_name o12) /\ plain_word (str "loop")) /\
  unused occs12 o12 (str "loop") /\ ~ global (o_kind o12) /\ patched doc12 (edits_of (rename env8 s12 (str "f") (lsp_position doc12 48) (str "loop"))) = doc12_renamed.
Proof.
  split; [apply opened12|]. split; [apply opened12|]. split; [vm_compute; lia|]. split; [exact program12|]. split; [exact o12_at|]. split; [exact accepted12|]. split; [exact unused12|].
  split; [apply shift12|apply patched12].
Qed.
(** a name that is in use is accepted as well *)
Theorem C73_used_refuted : exists e s uri src d p new edits, plain_document src /\ opened e s uri src d /\ p <= length src /\ program (e_u e) src /\
  (exists o, In o (recorded (doc_stmts d) (pr_tokens (pr_of src))) /\ covers (o_span o) p /\ o_kind o = KLabel /\ accepted (e_u e) KLabel new new /\ free_word new /\ plain_word (o_name o) /\ plain_word new) /\
  rename e s uri (lsp_position src p) new = Val (Reply edits) /\ ~ program (e_u e) (patched src edits).
Proof. exact taken12. Qed.
Print Assumptions C73_used_refuted.
(** and so is a keyword *)
Theorem C73_keyword_refuted : exists e s uri src d p new edits, plain_document src /\ opened e s uri src d /\ p <= length src /\ program (e_u e) src /\
  (exists o, In o (recorded (doc_stmts d) (pr_tokens (pr_of src))) /\ covers (o_span o) p /\ o_kind o = KLabel /\ accepted (e_u e) KLabel new new /\ forall x, In x (recorded (doc_stmts d) (pr_tokens (pr_of src))) -> o_name x <> new) /\
  rename e s uri (lsp_position src p) new = Val (Reply edits) /\ ~ program (e_u e) (patched src edits).
Proof. exact keyword12. Qed.
Print Assumptions C73_keyword_refuted.

(** C73: numbers are moved *)
Theorem C73_shift : forall e s uri src d p, plain_document src -> visits_all (e_ord e) -> opened e s uri src d -> p <= length src -> program (e_u e) src ->
  exists pr, parse_from_str (e_u e) src = Val pr /\ pr_stmts pr = doc_stmts d /\
  ((forall o, In o (recorded (pr_stmts pr) (pr_tokens pr)) -> ~ covers (o_span o) p) \/
   exists o, In o (recorded (pr_stmts pr) (pr_tokens pr)) /\ covers (o_span o) p /\
     (forall new z n, asks_shift new z -> has_number (o_name o) n -> no_overflow (recorded (pr_stmts pr) (pr_tokens pr)) o n z ->
       (o_kind o = KLabel -> forall x y, In x (recorded (pr_stmts pr) (pr_tokens pr)) -> moved o n z x y -> free_word y) ->
       (0 <= z)%Z -> ~ global (o_kind o) ->
       (forall x, In x (recorded (pr_stmts pr) (pr_tokens pr)) -> in_scope o x -> no_leading_zeros (o_name x) /\ forall m, has_number (o_name x) m -> fits_i64 (Z.of_N m + z)) ->
       exists edits, rename e s uri (lsp_position src p) new = Val (Reply edits) /\ program (e_u e) (patched src edits))).
Proof. exact shift_program. Qed.
Print Assumptions C73_shift.
Example C73_shift_ex : plain_document doc12 /\ visits_all (e_ord env8) /\ opened env8 s12 (str "f") doc12 d12 /\ 48 <= length doc12 /\ program (e_u env8) doc12 /\
  (In o12 occs12 /\ covers (o_span o12) 48 /\ o_kind o12 = KLabel) /\
  (has_number (o_name o12) 1 /\ asks_shift (str "+3") 3 /\ no_overflow occs12 o12 1 3 /\ (forall x y, In x occs12 -> moved o12 1 3 x y -> free_word y) /\
  ~ global (o_kind o12) /\ forall x, In x occs12 -> in_scope o12 x -> no_leading_zeros (o_name x) /\ forall m, has_number (o_name x) m -> fits_i64 (Z.of_N m + 3)) /\
  patched doc12 (edits_of (rename env8 s12 (str "f") (lsp_position doc12 48) (str "+3"))) = doc12_moved.
Proof.
  split; [apply opened12|]. split; [apply opened12|]. split; [apply opened12|]. split; [vm_compute; lia|]. split; [exact program12|]. split; [exact o12_at|]. split; [exact shift12|apply patched12].
Qed.

(** C73: other blanks and comments *)
Theorem C73_layout : forall u src src', respaced u None src src' -> program u src -> program u src'.
Proof. exact respaced_program. Qed.
Print Assumptions C73_layout.
Example C73_layout_ex : respaced u0 None doc12 doc13 /\ program u0 doc12 /\ doc12 <> doc13.
Proof. split; [exact respaced13|]. split; [exact program12|]. vm_compute. discriminate. Qed.

(** C73: more or fewer lines without a meaning *)
Theorem C73_lines : forall u src src' toks toks' ss, parse_from_str u src = Val (mkPR toks ss []) -> ss <> [] -> tokenize u src' = Val (Some toks', []) ->
  relined LineStart (without_comments toks) (without_comments toks') -> program u src -> program u src'.
Proof. exact lines_program. Qed.
Print Assumptions C73_lines.
Example C73_lines_ex : parse_from_str u0 (head14 ++ tail14) = Val (mkPR ex_toks [ex_stmt] []) /\ tokenize u0 doc14 = Val (Some toks14, []) /\
  relined LineStart (without_comments ex_toks) (without_comments toks14) /\ program u0 (head14 ++ tail14) /\ length (without_comments ex_toks) <> length (without_comments toks14).
Proof. split; [apply lines14|]. split; [apply relined14|]. split; [apply relined14|]. split; [exact program14|]. vm_compute. discriminate. Qed.

(** C73: two programs that define different things, one behind the other *)
Theorem C73_sum : forall u a b pa pb, full_lines a -> parse_from_str u a = Val pa -> parse_from_str u b = Val pb -> pr_errors pa = [] -> pr_errors pb = [] ->
  (forall x y, In x (tree_occs 0 (pr_stmts pa)) -> In y (tree_occs 0 (pr_stmts pb)) -> o_ud x = Def -> o_ud y = Def -> o_body y = None -> ~ same_symbol y x) ->
  program u a -> program u b -> program u (a ++ b).
Proof. exact sum_program. Qed.
Print Assumptions C73_sum.
Example C73_sum_ex : full_lines doc12 /\ parse_from_str u0 doc12 = Val (pr_of doc12) /\ parse_from_str u0 plain_ = Val (pr_of plain_) /\ pr_errors (pr_of doc12) = [] /\ pr_errors (pr_of plain_) = [] /\
  (forall x y, In x (tree_occs 0 (pr_stmts (pr_of doc12))) -> In y (tree_occs 0 (pr_stmts (pr_of plain_))) -> o_ud x = Def -> o_ud y = Def -> o_body y = None -> ~ same_symbol y x) /\
  program u0 doc12 /\ program u0 plain_.
Proof.
  split; [exact lines12|]. split; [apply parsed_both|]. split; [apply parsed_both|]. split; [apply parsed_both|]. split; [apply parsed_both|]. split; [exact strangers|].
  split; [exact program12|exact program_plain].
Qed.
(** the same thing may not be defined twice *)
Theorem C73_twice_refuted : exists u a, full_lines a /\ program u a /\ ~ program u (a ++ a).
Proof. exact twice12. Qed.
Print Assumptions C73_twice_refuted.

(** C73: the parts of a program in another order *)
Theorem C73_order : forall u ps qs, Forall (good_piece u) ps -> Permutation ps qs -> plain_document (whole ps) -> program u (whole ps) -> program u (whole qs).
Proof. exact order_program. Qed.
Print Assumptions C73_order.
Example C73_order_ex : Forall (good_piece u0) [piece_of doc12; piece_of plain_] /\ Permutation [piece_of doc12; piece_of plain_] [piece_of plain_; piece_of doc12] /\
  plain_document (whole [piece_of doc12; piece_of plain_]) /\ program u0 (whole [piece_of doc12; piece_of plain_]).
Proof. split; [exact pieces12|]. split; [apply perm_swap|]. exact whole12. Qed.
