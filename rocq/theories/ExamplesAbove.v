(** Documents with errors behind others without. *)
From Verif Require Import Text Rope Chumsky Tokenizer Parser Numbers Index SemTok Diag Rename Cfg Backtrace Server SpecText SpecLex SpecParse SpecIndex SpecDiag SpecBacktrace SpecCfg SpecView SpecSum SpecEdit SpecAbove
  ExamplesIndex ExamplesCfg ExamplesView ExamplesSum ExamplesEdit.

(** a character that is no token, an unfinished declaration, a use without definition *)
Definition broken_ : text := str "@w = $ 1
declare @z
define void @h(int8 %x) {
  call @none, %x
}
@q = 4
".
(** the error in the last line takes everything with it *)
Definition lost_ : text := str "declare @z".
(** a line that is not ASCII, and a function without end whose last line can be read as a statement *)
Definition accent_ : text := str "@e = 1 # caf" ++ [233%N; 10%N].
Definition open_end : text := str "define void @h() {
  call @w = 1
".
(** a line with an error that is not lost although it contains no statement *)
Definition stray_ : text := str "$
".
Definition error_spans (t : text) : list (nat * nat) := map (fun e => (sp_start (e_span e), sp_end (e_span e))) (pr_errors (pr_of t)).
Lemma parsed_broken : parse_from_str u0 broken_ = Val (pr_of broken_).
Proof. vm_compute. reflexivity. Qed.
Lemma read_broken : read (pr_of broken_).
Proof. left. vm_compute. discriminate. Qed.
Lemma shown_broken : length (pr_stmts (pr_of broken_)) = 3 /\ error_spans broken_ = [(5, 6); (17, 19)] /\ error_spans (plain_ ++ broken_) = [(12, 13); (24, 26)] /\
  map fst (show broken_) = [0; 1; 3; 1] /\ map fst (show (plain_ ++ broken_)) = [1; 2; 4; 2].
Proof. repeat split; vm_compute; reflexivity. Qed.
Lemma part_accent : full_lines accent_ /\ parse_from_str u0 accent_ = Val (mkPR (pr_tokens (pr_of accent_)) (pr_stmts (pr_of accent_)) []).
Proof. split; [right; exists (removelast accent_); vm_compute; reflexivity|]. vm_compute. reflexivity. Qed.
Lemma apart_broken : apart (pr_of plain_) (pr_of broken_).
Proof.
  split; [|split].
  - apply Forall_forall. vm_compute. constructor.
  - apply Forall_forall. vm_compute. repeat constructor.
  - intros o f H1 H2 H3 (F1 & _ & (_ & _ & F2) & _). vm_compute in F1. destruct F1 as [<-|[]]. vm_compute in F2.
    vm_compute in H1. repeat (destruct H1 as [<-|H1]; [try discriminate F2; try discriminate H2; try discriminate H3|]). destruct H1.
Qed.
