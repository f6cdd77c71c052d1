(** Examples for PropertiesAfterHints.v. *)
From Verif Require Import Text Rope Chumsky Tokenizer Parser Numbers Index SemTok Diag Rename Cfg Backtrace Server SpecText SpecLex SpecParse SpecIndex SpecDiag SpecBacktrace SpecNumbers SpecCfg SpecView SpecSemTok SpecRename SpecPatch SpecSimilar SpecRebind SpecSteps SpecDot SpecComment SpecAfter SpecAfterShift SpecAfterHints
  ExamplesIndex ExamplesCfg ExamplesView ExamplesRename ExamplesPatch ExamplesRebind ExamplesLabel ExamplesUndo ExamplesSteps ExamplesSum ExamplesComment ExamplesAfterShift.

(** two blocks, a loop, a backtrace, a second function with a label of the same name *)
Definition doc88 : text := str "define void @g(int1 %x) {
a_1:
  br int1 %x, a_1, b !1
b:
  br int1 %x, a_1, b
}
define void @h() {
a_1:
  br a_1
}
!1 = {}
".
Definition doc88_renamed : text := str "define void @g(int1 %x) {
loop:
  br int1 %x, loop, b !1
b:
  br int1 %x, loop, b
}
define void @h() {
a_1:
  br a_1
}
!1 = {}
".
Definition sv88 (t : text) : server := mkServer [] false [(str "f", doc_of env5 t)].
Definition o88 : occurrence := mkOcc (mkSpan 26 29) Def KLabel (str "a_1") (Some 0).
Definition edits88 : list text_edit := edits_of (rename env5 (sv88 doc88) (str "f") (lsp_position doc88 27) (str "loop")).
Lemma patched88 : patched doc88 edits88 = doc88_renamed.
Proof. vm_compute. reflexivity. Qed.
Lemma opened88 t : analyze env5 (str "f") t <> Panic -> opened env5 (sv88 t) (str "f") t (doc_of env5 t).
Proof. intros H. split; [reflexivity|]. unfold doc_of. destruct (analyze env5 (str "f") t) as [[d ds]|]; [exists ds; reflexivity|contradiction]. Qed.
Lemma opened88r : opened env5 (sv88 doc88_renamed) (str "f") (patched doc88 edits88) (doc_of env5 doc88_renamed).
Proof. rewrite patched88. apply opened88. vm_compute. discriminate. Qed.
Lemma renaming88 : renaming env5 (sv88 doc88) (str "f") doc88 (doc_of env5 doc88) (pr_of doc88) 27 o88 (str "loop") (str "loop") edits88.
Proof.
  split; [split; [|split]; vm_compute; reflexivity|]. split; [apply opened88; vm_compute; discriminate|]. split; [vm_compute; reflexivity|]. split; [vm_compute; reflexivity|].
  split; [apply (nth_error_In _ 2); vm_compute; reflexivity|]. split; [split; vm_compute; lia|]. destruct accepted12 as (A & B & C). split; [|split; [|split]].
  - split; [exact A|]. split; [exact B|]. split; [intros _; exact C|]. intros [H|H]; discriminate H.
  - intros x Hx _ _. assert (forallb (fun x => negb (text_eqb (o_name x) (str "loop"))) (occs_of doc88) = true) as G by (vm_compute; reflexivity).
    rewrite forallb_forall in G. specialize (G x Hx). apply negb_true_iff in G. apply text_eqb_neq. exact G.
  - vm_compute. reflexivity.
  - rewrite patched88. split; [|split]; vm_compute; reflexivity.
Qed.
(** no name at all is part of a value *)
Definition names_outside (ss : list statement) (l : list occurrence) : bool :=
  forallb (fun st => match value_range st with Some (_, a, b) => forallb (fun x => (sp_start (o_span x) <? a) || (b <=? sp_start (o_span x))) l | None => true end) ss.
Lemma names_outside_kept ss l P : names_outside ss l = true -> values_kept ss l P.
Proof.
  intros H st n a b x Hst V Hx _. unfold names_outside in H. rewrite forallb_forall in H. specialize (H _ Hst). rewrite V in H. rewrite forallb_forall in H. specialize (H _ Hx).
  apply orb_true_iff in H as [H|H]; [left; apply Nat.ltb_lt; exact H|right; apply Nat.leb_le; exact H].
Qed.
Lemma kept88 : values_kept (pr_stmts (pr_of doc88)) (recorded (pr_stmts (pr_of doc88)) (pr_tokens (pr_of doc88))) (same_symbol o88).
Proof. apply names_outside_kept. vm_compute. reflexivity. Qed.
Lemma kept87 : values_kept (pr_stmts (pr_of doc10)) (recorded (pr_stmts (pr_of doc10)) (pr_tokens (pr_of doc10))) (fun x => exists y, moved o10 2 3 x y).
Proof. apply names_outside_kept. vm_compute. reflexivity. Qed.
Definition shown_hints (t : text) : list (position_ * list text) :=
  match inlay_hint_handler env5 (sv88 t) (str "f") with Val (Some l) => map (fun h => (ih_pos h, map lp_value (ih_parts h))) l | _ => [] end.
Definition shown_graph (t m : text) : option (list ditem) := match graph_for (sv88 t) (str "f") m with Reply g => dot_read (sg_dot g) | RpcError _ => None end.
Lemma hints88 : shown_hints doc88 = [
    (mkPos 1 4, [str "incoming: "; str "a_1"; str ", "; str "b"]); (mkPos 3 2, [str "incoming: "; str "a_1"; str ", "; str "b"]); (mkPos 7 4, [str "incoming: "; str "a_1"]);
    (mkPos 2 23, [str "hyper::Translator::consume(x)"; str ", "; str "Full backtrace"]); (mkPos 5 1, [str "@g"]); (mkPos 9 1, [str "@h"])] /\
  shown_hints doc88_renamed = [
    (mkPos 1 5, [str "incoming: "; str "loop"; str ", "; str "b"]); (mkPos 3 2, [str "incoming: "; str "loop"; str ", "; str "b"]); (mkPos 7 4, [str "incoming: "; str "a_1"]);
    (mkPos 2 24, [str "hyper::Translator::consume(x)"; str ", "; str "Full backtrace"]); (mkPos 5 1, [str "@g"]); (mkPos 9 1, [str "@h"])].
Proof. split; vm_compute; reflexivity. Qed.
Lemma graphs88 : shown_graph doc88 (str "@g") = Some [Edge (str "a_1") (str "a_1"); Edge (str "a_1") (str "b"); Edge (str "b") (str "a_1"); Edge (str "b") (str "b")] /\
  shown_graph doc88_renamed (str "@g") = Some [Edge (str "loop") (str "loop"); Edge (str "loop") (str "b"); Edge (str "b") (str "loop"); Edge (str "b") (str "b")] /\
  shown_graph doc88_renamed (str "@h") = Some [Edge (str "a_1") (str "a_1")].
Proof. split; [|split]; vm_compute; reflexivity. Qed.
