(** Only functions have external definitions. *)
From Verif Require Import Text Rope Chumsky Tokenizer Parser Numbers Index.

Definition no_ext (m : amap use_def_list) : Prop := Forall (fun x => external_defs (snd x) = []) m.
Lemma aupdate_no_ext n f m : (forall e, external_defs e = [] -> external_defs (f e) = []) -> no_ext m -> no_ext (aupdate n ud_empty f m).
Proof.
  intros Hf. induction m as [|[k e] m IH]; intros H; cbn.
  - constructor; [apply Hf; reflexivity|constructor].
  - inversion H as [|? ? H1 H2]; subst. destruct (text_eqb n k); constructor; auto. apply Hf. exact H1. apply IH. exact H2.
Qed.
Lemma add_internal_no_ext m r b k ud sp n m' r' : no_ext m -> add_internal m r b k ud sp n = (m', r') -> no_ext m'.
Proof.
  intros H E. unfold add_internal in E. destruct (ud_has _ sp); inversion E; subst; apply aupdate_no_ext; try exact H; intros e He; [exact He|].
  destruct ud; exact He.
Qed.
Definition body_ok (fb : function_body) : Prop := no_ext (labels fb) /\ no_ext (local_vars fb).
Record ext_ok (ix : hir_index) : Prop := {
  eo_vars : no_ext (global_vars ix);
  eo_dbg : no_ext (dgb_annotations ix);
  eo_bodies : Forall body_ok (function_bodies ix);
}.
Lemma rfold_inv {A B} (P : A -> Prop) (f : A -> B -> res A) : (forall a b a', P a -> f a b = Val a' -> P a') ->
  forall l a a', P a -> rfold f l a = Val a' -> P a'.
Proof.
  intros Hf. induction l as [|b l IH]; intros a a' Ha E; cbn [rfold] in E; [inversion E; subst; exact Ha|].
  destruct (f a b) as [a1|] eqn:Ef; [|discriminate]. cbn [rbind] in E. eapply IH; [eapply Hf; eassumption|exact E].
Qed.
Lemma add_global_ext ix k ud sp n ix' : ext_ok ix -> add_global ix k ud sp n = Val ix' -> ext_ok ix'.
Proof.
  intros [H1 H2 H3] E. unfold add_global in E. destruct k; try discriminate; destruct (add_internal _ _ _ _ _ _ _) as [m r] eqn:Ea; inversion E; subst; constructor; cbn; try assumption;
    (eapply add_internal_no_ext; [|exact Ea]; assumption).
Qed.
Lemma update_ok i f l l' : (forall b, nth_error l i = Some b -> body_ok b -> body_ok (f b)) -> Forall body_ok l -> list_update i f l = Some l' -> Forall body_ok l'.
Proof.
  revert i l'. induction l as [|b l IH]; intros i l' Hf H E; cbn in E; [destruct i; discriminate|]. inversion H as [|? ? H1 H2]; subst. destruct i as [|i].
  - inversion E; subst. constructor; [apply Hf; [reflexivity|exact H1]|exact H2].
  - change (option_map (cons b) (list_update i f l) = Some l') in E. destruct (list_update i f l) as [l1|] eqn:El; [|discriminate E]. inversion E; subst. constructor; [exact H1|]. eapply IH; [|exact H2|exact El]. intros b' Hb. apply Hf. exact Hb.
Qed.
Lemma add_local_ext ix id k ud sp n ix' : ext_ok ix -> add_func_local ix id k ud sp n = Val ix' -> ext_ok ix'.
Proof.
  intros [H1 H2 H3] E. unfold add_func_local in E. destruct (nth_error (function_bodies ix) id) as [b|] eqn:Eb; [|discriminate].
  assert (body_ok b) as [B1 B2] by (eapply Forall_forall; [exact H3|eapply nth_error_In; exact Eb]).
  destruct k; try discriminate; destruct (add_internal _ _ _ _ _ _ _) as [m r] eqn:Ea; (apply add_internal_no_ext in Ea; [|assumption]);
    destruct (list_update _ _ _) as [bs|] eqn:El; inversion E; subst; constructor; cbn; try assumption;
    (eapply update_ok; [|exact H3|exact El]; intros b' _ [G1 G2]; split; assumption).
Qed.
Lemma bb_ref_ext id label br ix x ix' : ext_ok ix -> index_bb_ref id label br ix x = Val ix' -> ext_ok ix'.
Proof.
  intros H E. unfold index_bb_ref, add_func_local_spanned in E. destruct (add_func_local _ _ _ _ _ _) as [ix1|] eqn:E1; [|discriminate]. cbn [rbind] in E.
  apply (add_local_ext _ _ _ _ _ _ _ H) in E1. destruct label as [l|]; [|inversion E; subst; exact E1]. destruct br; [|inversion E; subst; exact E1].
  unfold add_incoming in E. destruct (list_update _ _ _) as [bs|] eqn:El; inversion E; subst. destruct E1 as [G1 G2 G3]. constructor; cbn; try assumption.
  eapply update_ok; [|exact G3|exact El]. intros b _ [B1 B2]. split; assumption.
Qed.
Lemma instr_ext id label ix i ix' : ext_ok ix -> index_instr id label ix i = Val ix' -> ext_ok ix'.
Proof.
  intros H E. unfold index_instr in E. destruct (match i_target i with Some t => _ | None => _ end) as [ix1|] eqn:E1; [|discriminate]. cbn [rbind] in E.
  assert (ext_ok ix1) as H1 by (destruct (i_target i); [eapply add_local_ext; [exact H|exact E1]|inversion E1; subst; exact H]).
  eapply rfold_inv; [|exact H1|exact E]. intros a b a' Ha Hb. eapply bb_ref_ext; eassumption.
Qed.
Lemma bb_ext id ix bb ix' : ext_ok ix -> index_bb id ix bb = Val ix' -> ext_ok ix'.
Proof.
  intros H E. unfold index_bb in E. destruct (match bb_label bb with Some t => _ | None => _ end) as [ix1|] eqn:E1; [|discriminate]. cbn [rbind] in E.
  assert (ext_ok ix1) as H1 by (destruct (bb_label bb); [eapply add_local_ext; [exact H|exact E1]|inversion E1; subst; exact H]).
  eapply rfold_inv; [|exact H1|exact E]. intros a b a' Ha Hb. eapply instr_ext; eassumption.
Qed.
Lemma stmt_ext_ok src st x st' : ext_ok (fst st) -> index_stmt src st x = Val st' -> ext_ok (fst st').
Proof.
  intros H E. destruct x; cbn [index_stmt] in E.
  - unfold add_global_spanned in E. destruct (add_global _ _ _ _ _) as [ix|] eqn:E1; [|discriminate]. inversion E; subst. eapply add_global_ext; [exact H|exact E1].
  - unfold index_func_decl, add_global_spanned in E. destruct (add_global _ _ _ _ _) as [ix|] eqn:E1; [|discriminate]. inversion E; subst. eapply add_global_ext; [exact H|exact E1].
  - unfold index_func_def, add_global_spanned in E. destruct (add_global _ _ _ _ _) as [ix|] eqn:E1; [|discriminate]. cbn [rbind] in E. apply (add_global_ext _ _ _ _ _ _ H) in E1.
    destruct (rfold _ (fs_args _) _) as [ix3|] eqn:E3; [|discriminate]. cbn [rbind] in E. destruct (rfold _ (fb_blocks _) _) as [ix4|] eqn:E4; inversion E; subst. cbn [fst].
    eapply rfold_inv; [intros ? ? ? Ha Hb; eapply bb_ext; eassumption| |exact E4].
    eapply rfold_inv; [intros ? ? ? Ha Hb; eapply add_local_ext; [exact Ha|exact Hb]| |exact E3].
    destruct E1 as [G1 G2 G3]. constructor; cbn; try assumption. apply Forall_app. split; [exact G3|]. constructor; [split; constructor|constructor].
  - inversion E; subst; exact H.
  - unfold index_dbg_annotation, add_global_spanned in E. destruct (add_global _ _ _ _ _) as [ix|] eqn:E1; [|discriminate]. cbn [rbind] in E. apply (add_global_ext _ _ _ _ _ _ H) in E1.
    destruct (index_dbg_value _ _ _ _) as [ix2|] eqn:E2; [|discriminate]. cbn [rbind] in E. destruct (index_dbg_external _ _ _) as [ix3|] eqn:E3; inversion E; subst. cbn [fst].
    assert (ext_ok ix2) as [G1 G2 G3].
    { unfold index_dbg_value in E2. destruct def as [|[? ?] ?]; [inversion E2; subst; exact E1|]. destruct (olast _) as [[? ?]|]; [|inversion E2; subst; exact E1].
      destruct (byte_slice _ _ _); inversion E2; subst. destruct E1. constructor; assumption. }
    unfold index_dbg_external in E3. cbn [fst snd] in E3. destruct (alookup _ (snd st)); [|inversion E3; subst; constructor; assumption].
    destruct def as [|[t ?] [|? ?]]; try (inversion E3; subst; constructor; assumption); destruct t; try (inversion E3; subst; constructor; assumption).
    destruct (parse_file_line _) as [[? ?]|]; [|inversion E3; subst; constructor; assumption]. destruct (alookup _ (functions _)); inversion E3; subst. constructor; assumption.
Qed.
Lemma token_ext st t st' : ext_ok (fst st) -> index_token st t = Val st' -> ext_ok (fst st').
Proof.
  intros H E. destruct st as [ix cur]. unfold index_token in E. cbn [fst] in *. destruct (fst t); try (inversion E; subst; exact H).
  - destruct (next_body _ _ _) as [cur'|]; [|discriminate]. cbn [rbind] in E. destruct cur' as [id|]; [|inversion E; subst; exact H].
    destruct (add_func_local _ _ _ _ _ _) as [ix'|] eqn:E1; inversion E; subst. eapply add_local_ext; [exact H|exact E1].
  - destruct (alookup _ _); (destruct (add_global _ _ _ _ _) as [ix'|] eqn:E1; inversion E; subst; eapply add_global_ext; [exact H|exact E1]).
  - destruct (add_global _ _ _ _ _) as [ix'|] eqn:E1; inversion E; subst. eapply add_global_ext; [exact H|exact E1].
Qed.
Lemma create_index_ext src toks ss ix : create_index src toks ss = Val ix -> ext_ok ix.
Proof.
  intros E. unfold create_index in E. destruct (rfold (index_stmt src) ss _) as [st|] eqn:E1; [|discriminate]. cbn [rbind] in E.
  destruct (rfold index_token toks _) as [st'|] eqn:E2; inversion E; subst.
  eapply (rfold_inv (fun st => ext_ok (fst st))); [intros ? ? ? Ha Hb; eapply token_ext; eassumption| |exact E2]. cbn [fst].
  eapply (rfold_inv (fun st => ext_ok (fst st))); [intros ? ? ? Ha Hb; eapply stmt_ext_ok; eassumption| |exact E1]. repeat constructor.
Qed.
