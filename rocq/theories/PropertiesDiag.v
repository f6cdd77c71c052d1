(** Property theorems C24-C27: diagnostics. *)
From Verif Require Import Text Rope Chumsky Tokenizer Parser Numbers Index SemTok Diag Rename Cfg Backtrace Server SpecText SpecParse SpecIndex SpecDiag
  PDiagDoc ExamplesIndex ExamplesDiag.

(** All diagnostics of a document, each as often as it occurs: syntax errors
    (C27), branches without targets (C26), undefined uses (C24) and
    redefinitions (C25); the last two lists are characterised below. *)
Theorem C24_all_diagnostics : forall e uri src d diags,
  plain_document src -> visits_all (e_ord e) -> analyze e uri src = Val (d, diags) ->
  exists pr, parse_from_str (e_u e) src = Val pr /\
    Permutation diags
      (map (syntax_diagnostic (e_xord e) src) (filter (fun x => negb (at_end src x)) (pr_errors pr)) ++
       map (missing_diagnostic src) (filter missing_refs (instructions (pr_stmts pr))) ++
       map (undefined_diagnostic src) (undefined_uses (recorded (pr_stmts pr) (pr_tokens pr))) ++
       map (redefinition_diagnostic src uri) (redefinitions (recorded (pr_stmts pr) (pr_tokens pr)))).
Proof. exact document_diagnostics. Qed.
Print Assumptions C24_all_diagnostics.

(** C24: the undefined uses, each once *)
Theorem C24_undefined : forall u src pr o, parse_from_str u src = Val pr ->
  (In o (undefined_uses (recorded (pr_stmts pr) (pr_tokens pr))) <->
   o_ud o = Use /\ ~ introduced (pr_stmts pr) o /\
   (In o (tree_occs 0 (pr_stmts pr)) \/ exists t, In t (pr_tokens pr) /\ In o (token_occs (pr_stmts pr) t))).
Proof. exact undefined_document. Qed.
Print Assumptions C24_undefined.
Theorem C24_each_once : forall u src pr, parse_from_str u src = Val pr ->
  NoDup (undefined_uses (recorded (pr_stmts pr) (pr_tokens pr))).
Proof. exact undefined_once. Qed.
Print Assumptions C24_each_once.
Example C24_ex : plain_document src2 /\ visits_all (e_ord env0) /\ analyze env0 (str "f") src2 = Val (d2, diags2) /\
  length diags2 = 7 /\ parse_from_str u0 src2 = Val pr2 /\
  map o_name (undefined_uses (recorded (pr_stmts pr2) (pr_tokens pr2))) = [str "a"; str "%z"; str "@v"; str "!7"].
Proof.
  split; [split; [|split]; vm_compute; reflexivity|]. split; [intros m; apply Permutation_refl|].
  split; [vm_compute; reflexivity|]. split; [vm_compute; reflexivity|]. split; vm_compute; reflexivity.
Qed.

(** C25: the redefinitions, each once, with the first definition *)
Theorem C25_redefinitions : forall u src pr o f, parse_from_str u src = Val pr ->
  (In (o, f) (redefinitions (recorded (pr_stmts pr) (pr_tokens pr))) <->
   In o (tree_occs 0 (pr_stmts pr)) /\ In f (tree_occs 0 (pr_stmts pr)) /\ o_ud o = Def /\ o_ud f = Def /\
   same_symbol o f /\ o <> f /\
   forall g, In g (tree_occs 0 (pr_stmts pr)) -> o_ud g = Def -> same_symbol g o ->
     sp_start (o_span f) <= sp_start (o_span g)).
Proof. exact redefinitions_document. Qed.
Print Assumptions C25_redefinitions.
Theorem C25_each_once : forall u src pr, parse_from_str u src = Val pr ->
  NoDup (map fst (redefinitions (recorded (pr_stmts pr) (pr_tokens pr)))).
Proof. exact redefinitions_once. Qed.
Print Assumptions C25_each_once.
Example C25_ex : map (fun x => (o_name (fst x), o_span (fst x), o_span (snd x))) (redefinitions (recorded (pr_stmts pr2) (pr_tokens pr2))) =
  [(str "@g", mkSpan 76 78, mkSpan 12 14)].
Proof. vm_compute. reflexivity. Qed.

(** C26 *)
Theorem C26_missing_targets : forall i, missing_refs i = true <-> needs_targets i /\ i_refs i = [].
Proof. exact missing_refs_iff. Qed.
Print Assumptions C26_missing_targets.
Example C26_ex : map mnemonic (filter missing_refs (instructions (pr_stmts pr2))) = [str "br"] /\ length (instructions (pr_stmts pr2)) = 4.
Proof. split; vm_compute; reflexivity. Qed.

(** C27: every error has a place in the document or at its end *)
Theorem C27_error_places : forall u src pr, ascii_text src = true -> parse_from_str u src = Val pr ->
  Forall (fun e => sp_start (e_span e) < sp_end (e_span e) <= length src \/ at_end src e = true) (pr_errors pr).
Proof. exact error_places. Qed.
Print Assumptions C27_error_places.
Example C27_ex : length (filter (fun x => negb (at_end src2 x)) (pr_errors pr2)) = 1.
Proof. vm_compute. reflexivity. Qed.
(** Errors at the end are dropped: a document with a syntax error and no diagnostics. *)
Theorem C27_dropped_refuted : exists e uri src d pr, plain_document src /\ parse_from_str (e_u e) src = Val pr /\
  pr_errors pr <> [] /\ analyze e uri src = Val (d, []).
Proof. exact dropped_error. Qed.
Print Assumptions C27_dropped_refuted.
