(** Documents whose views are put one behind the other. *)
From Verif Require Import Text Rope Chumsky Tokenizer Parser Numbers Index SemTok Diag Rename Cfg Backtrace Server SpecText SpecLex SpecParse SpecIndex SpecDiag SpecBacktrace SpecCfg SpecView SpecSemTok SpecSum SpecSumView
  ExamplesIndex ExamplesCfg ExamplesView.

Definition top_ : text := str "define void @f() {
a:
  br a !1
}
!1 = {}
".
Definition low_ : text := str "define void @g(int8 %x) {
b:
  int8 %y = add %x, 1
  br b !2
}
!2 = {}
".
(** defines [@f] and [!1] once more *)
Definition clash_ : text := str "define void @f() {
  return !1
}
!1 = {1}
".
(** annotations other than [{}] are no JSON *)
Definition env13 : env := mkEnv u0 Debug (fun m => rev m) (fun _ => None) (fun _ => []) (fun _ => None)
  (fun t => if text_eqb t (str "{}") then Some trace5 else None) (fun l => l).
Definition sv13 (t : text) : server := mkServer [] false [(str "f", doc_of env13 t)].
Definition hints13 (t : text) : list inlay_hint := match inlay_hint_handler env13 (sv13 t) (str "f") with Val (Some l) => l | _ => [] end.
Definition folds13 (t : text) : list folding := match folding_range (sv13 t) (str "f") with Some l => l | None => [] end.
Definition lenses13 (t : text) : list lens := match code_lens env13 (sv13 t) (str "f") with Some l => l | None => [] end.
Definition tokens13 (t : text) : list (position_ * nat * nat) := match semantic_tokens_full (sv13 t) (str "f") with Val (Some l) => decode l | _ => [] end.
Definition graph13 (t f : text) : reply show_graph := execute_command (sv13 t) (str "visualize-cfg") [JStr (str "f"); JStr f].
Definition part13 (t : text) : Prop := full_lines t /\ parse_from_str u0 t = Val (pr_of t) /\ pr_errors (pr_of t) = [] /\ opened env13 (sv13 t) (str "f") t (doc_of env13 t).
Definition diags13 (t : text) : list diagnostic := match analyze env13 (str "f") t with Val (_, l) => l | Panic => [] end.
Lemma part_top : part13 top_.
Proof.
  split; [right; exists (removelast top_); vm_compute; reflexivity|]. split; [vm_compute; reflexivity|]. split; [vm_compute; reflexivity|]. split; [reflexivity|]. exists (diags13 top_). vm_compute. reflexivity.
Qed.
Lemma part_low : part13 low_.
Proof.
  split; [right; exists (removelast low_); vm_compute; reflexivity|]. split; [vm_compute; reflexivity|]. split; [vm_compute; reflexivity|]. split; [reflexivity|]. exists (diags13 low_). vm_compute. reflexivity.
Qed.
Lemma part_both : part13 (top_ ++ low_).
Proof.
  split; [right; exists (removelast (top_ ++ low_)); vm_compute; reflexivity|]. split; [vm_compute; reflexivity|]. split; [vm_compute; reflexivity|]. split; [reflexivity|]. exists (diags13 (top_ ++ low_)). vm_compute. reflexivity.
Qed.
Lemma plain_both : plain_document (top_ ++ low_).
Proof. split; [|split]; vm_compute; reflexivity. Qed.
Lemma own_f : own_functions (pr_stmts (pr_of top_)) (pr_stmts (pr_of low_)).
Proof. intros f g Hf Hg. vm_compute in Hf, Hg. destruct Hf as [<-|[]], Hg as [<-|[]]. vm_compute. discriminate. Qed.
Lemma own_top : own_annotations (pr_stmts (pr_of top_)) (pr_stmts (pr_of low_)).
Proof. intros i r Hi Hr. vm_compute in Hi. destruct Hi as [<-|[]]. vm_compute in Hr. injection Hr as <-. reflexivity. Qed.
Lemma own_low : own_annotations (pr_stmts (pr_of low_)) (pr_stmts (pr_of top_)).
Proof. intros i r Hi Hr. vm_compute in Hi. destruct Hi as [<-|[<-|[]]]; vm_compute in Hr; [discriminate|]. injection Hr as <-. reflexivity. Qed.
Lemma visits13 : visits_all (e_ord env13).
Proof. intros m. apply Permutation_sym, Permutation_rev. Qed.
