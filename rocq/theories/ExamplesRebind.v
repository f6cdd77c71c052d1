(** Examples for PropertiesRebind.v. *)
From Verif Require Import Text Rope Chumsky Tokenizer Parser Numbers Index SemTok Diag Rename Cfg Backtrace Server SpecText SpecLex SpecParse SpecIndex SpecDiag SpecBacktrace SpecNumbers SpecCfg SpecView SpecRename SpecPatch SpecSimilar SpecRebind
  PRebind ExamplesIndex ExamplesCfg ExamplesView ExamplesRename ExamplesPatch.

Lemma unused10 : unused occs10 o10 (str "%a_1").
Proof.
  intros x Hx _ _. assert (forallb (fun x => negb (text_eqb (o_name x) (str "%a_1"))) occs10 = true) as G by (vm_compute; reflexivity).
  rewrite forallb_forall in G. specialize (G x Hx). apply negb_true_iff in G. apply text_eqb_neq. exact G.
Qed.
Lemma two_zeros c : no_leading_zeros [37%N; c].
Proof.
  intros p ds n (E & Hd & Ha & Hv & _). destruct p as [|a [|b p]].
  - exfalso. cbn in E. subst ds. specialize (Ha 37%N (or_introl eq_refl)). lia.
  - injection E as <- <-. split; [discriminate|]. split; [exact Ha|]. split; [exact Hv|]. destruct (N.eq_dec c 48) as [->|H]; [left; reflexivity|right; exists c, []; auto].
  - exfalso. apply Hd. injection E as _ _ E. symmetry in E. apply app_eq_nil in E. tauto.
Qed.
Lemma zeros10 : ~ global (o_kind o10) /\ forall x, In x occs10 -> in_scope o10 x -> no_leading_zeros (o_name x) /\ forall m, has_number (o_name x) m -> fits_i64 (Z.of_N m + 3).
Proof.
  split; [intros [H|H]; discriminate H|]. intros x Hx [Hk _].
  assert (forallb (fun x => match o_kind x with KLocalVar => match o_name x with [a; _] => (a =? 37)%N | _ => false end | _ => true end) occs10 = true) as G by (vm_compute; reflexivity).
  rewrite forallb_forall in G. specialize (G x Hx). rewrite Hk in G. cbn in G. destruct (o_name x) as [|a [|c [|]]] eqn:En; try discriminate G. apply N.eqb_eq in G. subst a.
  split; [apply two_zeros|]. intros m (p & ds & (E & Hd & Ha & Hv & _) & _). destruct p as [|a [|b p]].
  - exfalso. cbn in E. subst ds. specialize (Ha 37%N (or_introl eq_refl)). lia.
  - injection E as <- <-. specialize (Ha c (or_introl eq_refl)). unfold decimal_value in Hv. cbn in Hv. unfold fits_i64. lia.
  - exfalso. apply Hd. injection E as _ _ E. symmetry in E. apply app_eq_nil in E. tauto.
Qed.
(** %2 renamed to %x, which is used *)
Lemma captured10 : exists e s uri src d p new edits, plain_document src /\ opened e s uri src d /\ p <= length src /\
  (exists o, In o (recorded (doc_stmts d) (pr_tokens (pr_of src))) /\ covers (o_span o) p /\ o_kind o = KLocalVar /\ accepted (e_u e) KLocalVar new new) /\
  rename e s uri (lsp_position src p) new = Val (Reply edits) /\ redefinitions (recorded (pr_stmts (pr_of src)) (pr_tokens (pr_of src))) = [] /\
  redefinitions (recorded (pr_stmts (pr_of (patched src edits))) (pr_tokens (pr_of (patched src edits)))) <> [].
Proof.
  exists env8, s10, (str "f"), doc10, d10, 30, (str "%x"), (edits_of (rename env8 s10 (str "f") (lsp_position doc10 30) (str "%x"))).
  split; [apply opened10|]. split; [apply opened10|]. split; [vm_compute; lia|]. split.
  { exists o10. split; [vm_compute; tauto|]. split; [split; vm_compute; lia|]. split; [reflexivity|]. exists (ch "x"), []. split; [left; reflexivity|]. split; [reflexivity|].
    split; [|vm_compute; discriminate]. constructor; [left; vm_compute; reflexivity|constructor]. }
  split; [vm_compute; reflexivity|]. split; [vm_compute; reflexivity|]. vm_compute. discriminate.
Qed.

Lemma shape10 : Forall2 (fun a b => similar (fst a) (fst b)) (tokens_of doc10) (tokens_of doc10_renamed) /\ tokens_of doc10 <> [] /\
  exists ss, parse_tokens doc10 (tokens_of doc10) = Val (Some ss, []) /\ ss <> [].
Proof.
  split; [|split; [vm_compute; discriminate|exists (doc_stmts d10); split; [vm_compute; reflexivity|vm_compute; discriminate]]].
  let a := eval vm_compute in (tokens_of doc10) in let b := eval vm_compute in (tokens_of doc10_renamed) in
    replace (tokens_of doc10) with a by (vm_compute; reflexivity); replace (tokens_of doc10_renamed) with b by (vm_compute; reflexivity).
  repeat (constructor; [first [left; reflexivity|right; exact I]|]). constructor.
Qed.
