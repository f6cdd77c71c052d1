(** Lines that settle reports. *)
From Verif Require Import Text Rope Chumsky Tokenizer Parser Numbers Index SemTok Diag Rename Cfg Backtrace Server SpecText SpecLex SpecParse SpecIndex SpecDiag SpecBacktrace SpecCfg SpecView SpecSum SpecEdit SpecFix
  ExamplesIndex ExamplesCfg ExamplesView ExamplesSum ExamplesEdit.

(** uses [@g] like [above_] does, and [@none], which nothing introduces *)
Definition more_ : text := str "define void @h(int8 %x) {
  int8 %z = add %x, @g, @none
}
@v = 2
".
Definition declare_g : text := str "declare void @g(int8 %q)
".
(** defines [@g] and [@none] with a mistake of its own, uses [@f] *)
Definition define_g : text := str "@none = 5
define void @g(int8 %q) {
  call @f, @void
}
".
Lemma part_declare : part u0 declare_g (pr_of declare_g).
Proof. split; [right; exists (removelast declare_g); vm_compute; reflexivity|]. split; vm_compute; reflexivity. Qed.
Lemma part_define : part u0 define_g (pr_of define_g).
Proof. split; [right; exists (removelast define_g); vm_compute; reflexivity|]. split; vm_compute; reflexivity. Qed.
Lemma parsed_more : parse_from_str u0 more_ = Val (pr_of more_) /\ pr_errors (pr_of more_) = [].
Proof. split; vm_compute; reflexivity. Qed.
Lemma clash_free : no_clash (pr_stmts (pr_of above_)) (pr_stmts (pr_of define_g)) /\ no_clash (pr_stmts (pr_of define_g)) (pr_stmts (pr_of more_)).
Proof.
  assert (forall sa sb, forallb (fun y => negb (snd (fst y)) || forallb (fun z => negb (snd (fst z)) || negb (text_eqb (snd y) (snd z))) (flat_map offer sb)) (flat_map offer sa) = true -> no_clash sa sb) as G.
  { intros sa sb H k n Ha Hb. rewrite forallb_forall in H. specialize (H _ Ha). cbn in H. rewrite forallb_forall in H. specialize (H _ Hb). cbn in H. rewrite text_eqb_refl in H. discriminate. }
  split; apply G; vm_compute; reflexivity.
Qed.
Lemma shown_fix : show (above_ ++ more_) = [(7, str "Use of undefined symbol `@none`"); (2, str "Use of undefined symbol `@g`"); (7, str "Use of undefined symbol `@g`"); (9, str "Symbol `@v` already defined previously")] /\
  show (above_ ++ declare_g ++ more_) = [(8, str "Use of undefined symbol `@none`"); (10, str "Symbol `@v` already defined previously")] /\
  show (above_ ++ define_g ++ more_) = [(8, str "Use of undefined symbol `@void`"); (13, str "Symbol `@v` already defined previously")].
Proof. split; [|split]; vm_compute; reflexivity. Qed.
