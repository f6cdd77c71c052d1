(** Property theorems C16-C21: the symbol index. *)
From Verif Require Import Text Rope Chumsky Tokenizer Parser Numbers Index SemTok Diag Rename Cfg Backtrace Server
  SpecLex SpecParse SpecIndex PIndex PIndexDoc PIndexText ExamplesIndex.

Example doc1_indexed : indexed u0 doc1 pr1 ix1 /\ length (pr_stmts pr1) = 5 /\ length (pr_errors pr1) = 1 /\
  length (reverse_idx ix1) = 18.
Proof. split; [split; vm_compute; reflexivity|]. vm_compute. auto. Qed.

(** C16: every name token is listed once, as one occurrence of its name *)
Theorem C16_every_symbol_once : forall u src pr ix t, indexed u src pr ix ->
  In t (pr_tokens pr) -> names_symbol (pr_stmts pr) t ->
  exists o, listed ix o /\ occ_token o = t /\
    forall o', listed ix o' -> o_span o' = snd t -> o' = o \/ dual_token (pr_stmts pr) t.
Proof. exact symbol_indexed. Qed.
Print Assumptions C16_every_symbol_once.
Theorem C16_no_repetition : forall u src pr ix k b m n e ud, indexed u src pr ix ->
  table_of ix k b = Some m -> alookup n m = Some e -> NoDup (get_use_def_kind e ud).
Proof. exact lists_nodup. Qed.
Print Assumptions C16_no_repetition.
Example C16_ex : exists sp, In (TLocalName (str "%x"), sp) (pr_tokens pr1) /\ names_symbol (pr_stmts pr1) (TLocalName (str "%x"), sp) /\
  listed ix1 (mkOcc sp Def KLocalVar (str "%x") (Some 1)).
Proof.
  exists (mkSpan 140 142). split; [vm_compute; tauto|]. split.
  - exists (mkSpan 112 169). split; [vm_compute; auto|]. split; vm_compute; repeat constructor.
  - do 2 eexists. split; [vm_compute; reflexivity|]. split; [vm_compute; reflexivity|]. vm_compute. auto.
Qed.

(** C17: what is listed is a token of the right class and with that text *)
Theorem C17_only_tokens : forall u src pr ix o, indexed u src pr ix -> listed ix o -> In (occ_token o) (pr_tokens pr).
Proof. exact listed_token. Qed.
Print Assumptions C17_only_tokens.
Theorem C17_text : forall u src pr ix toks o, indexed u src pr ix -> tokenize u src = Val (Some toks, []) -> listed ix o ->
  text_at src (o_span o) = o_name o.
Proof. exact listed_text. Qed.
Print Assumptions C17_text.
(** ... with lexical errors the span may also cover garbage in front *)
Theorem C17_text_with_errors : forall u src pr ix o, indexed u src pr ix -> listed ix o ->
  exists g, text_at src (o_span o) = g ++ o_name o.
Proof. exact listed_text_errors. Qed.
Print Assumptions C17_text_with_errors.
Example C17_ex : listed ix1 (mkOcc (mkSpan 0 2) Def KGlobalVar (str "@v") None) /\
  (exists toks, tokenize u0 doc1 = Val (Some toks, [])) /\ text_at doc1 (mkSpan 0 2) = str "@v".
Proof.
  split; [do 2 eexists; split; [vm_compute; reflexivity|]; split; [vm_compute; reflexivity|]; vm_compute; auto|].
  split; [eexists; vm_compute; reflexivity|reflexivity].
Qed.
Theorem C17_text_with_errors_refuted : exists u src pr ix o,
  indexed u src pr ix /\ listed ix o /\ text_at src (o_span o) <> o_name o.
Proof.
  exists u0, (str "$ @x = 5"), (pr_of (str "$ @x = 5")), (ix_of (str "$ @x = 5")). exists (mkOcc (mkSpan 0 4) Def KGlobalVar (str "@x") None).
  split; [split; vm_compute; reflexivity|]. split; [|vm_compute; discriminate].
  do 2 eexists. split; [reflexivity|]. split; [vm_compute; reflexivity|]. vm_compute. auto.
Qed.
Print Assumptions C17_text_with_errors_refuted.

(** C18 *)
Theorem C18_found : forall u src pr ix p o, indexed u src pr ix -> find_symbol_at_position ix p = Some o ->
  listed ix o /\ span_contains (o_span o) p = true.
Proof. exact lookup_some. Qed.
Print Assumptions C18_found.
Theorem C18_not_found : forall u src pr ix p, indexed u src pr ix -> find_symbol_at_position ix p = None ->
  forall o, listed ix o -> span_contains (o_span o) p = false.
Proof. exact lookup_none. Qed.
Print Assumptions C18_not_found.
Theorem C18_the_one : forall u src pr ix p o, indexed u src pr ix -> listed ix o -> span_contains (o_span o) p = true ->
  ~ dual_token (pr_stmts pr) (occ_token o) -> find_symbol_at_position ix p = Some o.
Proof. exact lookup_unique. Qed.
Print Assumptions C18_the_one.
Example C18_ex : find_symbol_at_position ix1 141 = Some (mkOcc (mkSpan 140 142) Def KLocalVar (str "%x") (Some 1)) /\
  find_symbol_at_position ix1 142 = None.
Proof. split; vm_compute; reflexivity. Qed.

(** C19 *)
Theorem C19_scope : forall u src pr ix o, indexed u src pr ix -> listed ix o ->
  match o_kind o with
  | KLabel | KLocalVar => exists id fb, o_body o = Some id /\ nth_error (function_bodies ix) id = Some fb /\
      inside (o_span o) (complete_range fb) /\
      forall id' fb', nth_error (function_bodies ix) id' = Some fb' -> id' <> id ->
        sp_end (complete_range fb') <= sp_start (o_span o) \/ sp_end (o_span o) <= sp_start (complete_range fb')
  | _ => o_body o = None
  end.
Proof. exact listed_scope. Qed.
Print Assumptions C19_scope.
Example C19_ex : exists fb0 fb1, function_bodies ix1 = [fb0; fb1] /\
  option_map defs (alookup (str "%x") (local_vars fb0)) = Some [mkSpan 71 73] /\
  option_map defs (alookup (str "%x") (local_vars fb1)) = Some [mkSpan 140 142].
Proof. do 2 eexists. split; [vm_compute; reflexivity|]. split; vm_compute; reflexivity. Qed.

(** C20: the lists hold the occurrences of the syntax tree, and as uses the
    tokens that are not an occurrence of the tree *)
Theorem C20_lists_exact : forall u src pr ix o, indexed u src pr ix ->
  (listed ix o <-> In o (tree_occs 0 (pr_stmts pr)) \/
    (exists t, In t (pr_tokens pr) /\ In o (token_occs (pr_stmts pr) t) /\
       forall o', In o' (tree_occs 0 (pr_stmts pr)) -> occ_token o' = t -> o_kind o' = o_kind o -> False)).
Proof. exact listed_exact. Qed.
Print Assumptions C20_lists_exact.
(** ... together with blocks, ranges, incoming branches, external definitions
    and annotation values *)
Theorem C20_index : forall u src pr ix, indexed u src pr ix -> index_of src (pr_stmts pr) (pr_tokens pr) ix.
Proof. exact indexed_contents. Qed.
Print Assumptions C20_index.
Example C20_ex : alookup (str "@f") (functions ix1) = Some (mkUD [mkSpan 20 22] [] [mkExt (str "foo.cpp") 7] [mkSpan 150 152]) /\
  alookup (str "@w") (global_vars ix1) = Some (mkUD [] [] [] [mkSpan 153 155]) /\
  alookup (str "!d1") (dgb_annotation_values ix1) = Some (quoted (str "'foo.cpp:7'")).
Proof. repeat split; vm_compute; reflexivity. Qed.
(** A name used for a variable and a function is in two lists. *)
Theorem C20_two_lists_refuted : exists u src pr ix o o', indexed u src pr ix /\ listed ix o /\ listed ix o' /\
  o_span o = o_span o' /\ o_ud o = Def /\ o_ud o' = Use.
Proof.
  set (src := str "@x = 5
declare void @x()"). exists u0, src, (pr_of src), (ix_of src).
  exists (mkOcc (mkSpan 0 2) Def KGlobalVar (str "@x") None), (mkOcc (mkSpan 0 2) Use KFunction (str "@x") None).
  split; [split; vm_compute; reflexivity|].
  split; [do 2 eexists; split; [reflexivity|]; split; [vm_compute; reflexivity|]; vm_compute; auto|].
  split; [do 2 eexists; split; [reflexivity|]; split; [vm_compute; reflexivity|]; vm_compute; auto|]. auto.
Qed.
Print Assumptions C20_two_lists_refuted.

(** C21 *)
Theorem C21_ascii_total : forall e uri src, ascii_text src = true -> exists d diags, analyze e uri src = Val (d, diags).
Proof. exact analyze_ascii. Qed.
Print Assumptions C21_ascii_total.
(** ... and in general the only crash is an annotation value that is not a byte range *)
Theorem C21_panics_exactly : forall e uri src, analyze e uri src = Panic <->
  exists pr, parse_from_str (e_u e) src = Val pr /\ Exists (bad_slice src) (pr_stmts pr).
Proof. exact analyze_panics. Qed.
Print Assumptions C21_panics_exactly.
Example C21_ex : exists d diags, analyze env0 (str "f") doc1 = Val (d, diags) /\ length diags = 2.
Proof. do 2 eexists. split; vm_compute; reflexivity. Qed.
Theorem C21_non_ascii_refuted : exists e uri src, analyze e uri src = Panic.
Proof.
  exists (mkEnv (Build_uclass (fun _ => true) (fun _ => false) (fun _ => false)) Debug (fun m => m) (fun _ => None) (fun _ => []) (fun _ => None) (fun _ => None) (fun l => l)).
  exists (str "f"), (str "!1 = " ++ [233%N]). vm_compute. reflexivity.
Qed.
Print Assumptions C21_non_ascii_refuted.
