(** Documents that are put one behind the other. *)
From Verif Require Import Text Rope Chumsky Tokenizer Parser Numbers Index SemTok Diag Rename Cfg Backtrace Server SpecText SpecLex SpecParse SpecIndex SpecDiag SpecBacktrace SpecCfg SpecView SpecSum
  ExamplesIndex ExamplesCfg ExamplesView.

Definition above_ : text := str "define void @f(int8 %x) {
entry:
  int8 %y = add %x, @g
  br entry
}
@v = 1
".
Definition below_ : text := str "declare void @g(int8 %q)
define void @h(int8 %x) {
entry:
  int8 %x = add %x, @none
  br
  call @f
}
@v = 2
".
Definition plain_ : text := str "@k = 5
".
Definition sv (t : text) : server := mkServer [root8] false [(str "f", doc_of env8 t)].
Definition diags_of (t : text) : list diagnostic := match analyze env8 (str "f") t with Val (_, l) => l | Panic => [] end.
Definition piece_of (t : text) : piece := mkPiece t (pr_of t).
Lemma lines_above : full_lines above_.
Proof. right. exists (removelast above_). vm_compute. reflexivity. Qed.
Lemma lines_below : full_lines below_.
Proof. right. exists (removelast below_). vm_compute. reflexivity. Qed.
Lemma lines_plain : full_lines plain_.
Proof. right. exists (removelast plain_). vm_compute. reflexivity. Qed.
Lemma parsed_above : parse_from_str u0 above_ = Val (pr_of above_) /\ pr_errors (pr_of above_) = [].
Proof. split; vm_compute; reflexivity. Qed.
Lemma parsed_below : parse_from_str u0 below_ = Val (pr_of below_) /\ pr_errors (pr_of below_) = [].
Proof. split; vm_compute; reflexivity. Qed.
Lemma parsed_plain : parse_from_str u0 plain_ = Val (pr_of plain_) /\ pr_errors (pr_of plain_) = [].
Proof. split; vm_compute; reflexivity. Qed.
Lemma good_pieces : Forall (good_piece u0) [piece_of above_; piece_of below_; piece_of plain_].
Proof.
  constructor; [split; [exact lines_above|exact parsed_above]|]. constructor; [split; [exact lines_below|exact parsed_below]|].
  constructor; [split; [exact lines_plain|exact parsed_plain]|constructor].
Qed.
Definition use_x : occurrence := mkOcc (mkSpan 74 76) Use KLocalVar (str "%x") (Some 0).
Lemma open_whole : opened env8 (sv (above_ ++ below_)) (str "f") (above_ ++ below_) (doc_of env8 (above_ ++ below_)).
Proof. split; [reflexivity|]. exists (diags_of (above_ ++ below_)). vm_compute. reflexivity. Qed.
Lemma open_above : opened env8 (sv above_) (str "f") above_ (doc_of env8 above_).
Proof. split; [reflexivity|]. exists (diags_of above_). vm_compute. reflexivity. Qed.
Lemma open_below : opened env8 (sv below_) (str "f") below_ (doc_of env8 below_).
Proof. split; [reflexivity|]. exists (diags_of below_). vm_compute. reflexivity. Qed.
Lemma apart_ex : apart (pr_of plain_) (pr_of below_).
Proof.
  split; [|split].
  - apply Forall_forall. vm_compute. constructor.
  - apply Forall_forall. vm_compute. repeat constructor.
  - intros o f H1 H2 H3 (F1 & _ & (_ & _ & F2) & _). vm_compute in F1. destruct F1 as [<-|[]]. vm_compute in F2.
    vm_compute in H1. repeat (destruct H1 as [<-|H1]; [try discriminate F2; try discriminate H2; try discriminate H3|]). destruct H1.
Qed.
