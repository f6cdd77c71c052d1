(** A document with an edited part. *)
From Verif Require Import Text Rope Chumsky Tokenizer Parser Numbers Index SemTok Diag Rename Cfg Backtrace Server SpecText SpecLex SpecParse SpecIndex SpecDiag SpecBacktrace SpecCfg SpecView SpecSum SpecEdit
  ExamplesIndex ExamplesCfg ExamplesView ExamplesSum.

Definition old_ : text := str "define void @k(int8 %x) {
  call @k
}
".
(** two lines more, a use without definition in line 8 and a branch without target in line 10 *)
Definition new_ : text := str "# changed
define void @k(int8 %y, int8 %z) {
  call @k, %x
a:
  br
}
".
(** without [@k] *)
Definition gone_ : text := [].
Definition uses_k : text := str "@l = @k
@l = 2
".
Lemma part_above : part u0 above_ (pr_of above_).
Proof. split; [exact lines_above|]. exact parsed_above. Qed.
Lemma part_old : part u0 old_ (pr_of old_).
Proof. split; [right; exists (removelast old_); vm_compute; reflexivity|]. split; vm_compute; reflexivity. Qed.
Lemma part_new : part u0 new_ (pr_of new_).
Proof. split; [right; exists (removelast new_); vm_compute; reflexivity|]. split; vm_compute; reflexivity. Qed.
Lemma part_gone : part u0 gone_ (pr_of gone_).
Proof. split; [left; reflexivity|]. split; vm_compute; reflexivity. Qed.
Lemma parsed_uses : parse_from_str u0 uses_k = Val (pr_of uses_k) /\ pr_errors (pr_of uses_k) = [].
Proof. split; vm_compute; reflexivity. Qed.
Lemma offer_kept : same_offer (pr_stmts (pr_of old_)) (pr_stmts (pr_of new_)).
Proof. intros y. vm_compute. tauto. Qed.
Definition show (t : text) : list (nat * text) := map (fun x => (p_line (r_start (fst x)), snd x)) (map bare (diags_of t)).
