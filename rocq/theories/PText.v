(** String lemmas. *)
From Verif Require Import Text.

Lemma strip_prefix_spec p t r : strip_prefix p t = Some r <-> t = p ++ r.
Proof.
  revert t r. induction p as [|x p IH]; intros t r; cbn.
  - split; congruence.
  - destruct t as [|y t]; [split; [discriminate | intros H; discriminate H]|].
    destruct (N.eqb_spec x y) as [->|Hxy].
    + rewrite IH. split; [intros ->; reflexivity | intros H; injection H as ->; reflexivity].
    + split; [discriminate | intros H; injection H as H _; congruence].
Qed.

Lemma starts_with_spec p t : starts_with p t = true <-> exists r, t = p ++ r.
Proof.
  unfold starts_with. destruct (strip_prefix p t) as [r|] eqn:E.
  - apply strip_prefix_spec in E. split; [eauto | reflexivity].
  - split; [discriminate|]. intros [r Hr]. apply strip_prefix_spec in Hr. congruence.
Qed.

Lemma ends_with_spec t s : ends_with t s = true <-> exists p, t = p ++ s.
Proof.
  unfold ends_with. rewrite starts_with_spec. split; intros [r Hr].
  - exists (rev r). rewrite <- (rev_involutive t), Hr, rev_app_distr, rev_involutive. reflexivity.
  - exists (rev r). rewrite Hr, rev_app_distr. reflexivity.
Qed.

Lemma contains_spec t pat : contains t pat = true <-> exists a b, t = a ++ pat ++ b.
Proof.
  induction t as [|c t IH]; cbn.
  - rewrite orb_false_r, starts_with_spec. split.
    + intros [r Hr]. exists [], r. exact Hr.
    + intros (a & b & H). symmetry in H. apply app_eq_nil in H as [-> H]. eauto.
  - rewrite orb_true_iff, starts_with_spec, IH. split.
    + intros [[r Hr] | (a & b & H)].
      * exists [], r. exact Hr.
      * exists (c :: a), b. rewrite H. reflexivity.
    + intros (a & b & H). destruct a as [|x a].
      * left. exists b. exact H.
      * right. injection H as <- H. eauto.
Qed.

(** [split_on] *)
Fixpoint join_on (c : char) (l : list text) : text :=
  match l with [] => [] | [x] => x | x :: r => x ++ c :: join_on c r end.

Lemma split_on_nonempty c t : exists w ws, split_on c t = w :: ws.
Proof.
  induction t as [|x t [w [ws IH]]]; cbn; [eauto|].
  destruct (x =? c)%N; [eauto|]. rewrite IH. eauto.
Qed.

Lemma split_on_spec c t : forall l, split_on c t = l <->
  (l <> [] /\ t = join_on c l /\ forall w, In w l -> ~ In c w).
Proof.
  assert (Hf : forall t, let l := split_on c t in
    l <> [] /\ t = join_on c l /\ forall w, In w l -> ~ In c w).
  { clear t. induction t as [|x t IH]; cbn.
    - split; [discriminate|]. split; [reflexivity|]. intros w [<-|[]] [].
    - destruct (split_on_nonempty c t) as (w & ws & E). rewrite E in *. cbn in IH.
      destruct IH as (_ & IH1 & IH2).
      destruct (N.eqb_spec x c) as [->|Hx].
      + split; [discriminate|]. split; [cbn; rewrite IH1 at 1; reflexivity|].
        intros v [<-|Hv]; [intros []|]. apply IH2. exact Hv.
      + split; [discriminate|]. split.
        * destruct ws; cbn in *; rewrite IH1 at 1; reflexivity.
        * intros v [<-|Hv].
          -- intros [H|H]; [congruence|]. eapply IH2; [left; reflexivity | exact H].
          -- apply IH2. right. exact Hv. }
  intros l. split.
  - intros <-. apply Hf.
  - intros (Hne & Ht & Hl). revert t Ht. induction l as [|w l IH]; [congruence|].
    intros t Ht. subst t.
    assert (Hw : ~ In c w) by (apply Hl; left; reflexivity).
    assert (Hs : forall w r, ~ In c w -> split_on c (w ++ c :: r) = w :: split_on c r).
    { clear. induction w as [|x w IH]; intros r Hw; cbn.
      - rewrite N.eqb_refl. reflexivity.
      - destruct (N.eqb_spec x c) as [->|Hx]; [exfalso; apply Hw; left; reflexivity|].
        rewrite IH; [reflexivity|]. intros H; apply Hw; right; exact H. }
    assert (Hs0 : forall w, ~ In c w -> split_on c w = [w]).
    { clear. induction w as [|x w IH]; intros Hw; cbn; [reflexivity|].
      destruct (N.eqb_spec x c) as [->|Hx]; [exfalso; apply Hw; left; reflexivity|].
      rewrite IH; [reflexivity|]. intros H; apply Hw; right; exact H. }
    destruct l as [|w' l].
    + cbn. apply Hs0. exact Hw.
    + change (join_on c (w :: w' :: l)) with (w ++ c :: join_on c (w' :: l)).
      rewrite Hs by exact Hw. f_equal. apply IH; [discriminate | | reflexivity].
      intros v Hv. apply Hl. right. exact Hv.
Qed.

Lemma position_spec {A} (f : A -> bool) l :
  match position f l with
  | Some i => (exists a, nth_error l i = Some a /\ f a = true) /\
              (forall j a, j < i -> nth_error l j = Some a -> f a = false)
  | None => forall a, In a l -> f a = false
  end.
Proof.
  induction l as [|x l IH]; cbn; [intros a []|].
  destruct (f x) eqn:Ex.
  - split; [exists x; cbn; auto|]. intros j a Hj; lia.
  - destruct (position f l) as [i|]; cbn.
    + destruct IH as [[a [H1 H2]] H3]. split; [exists a; auto|].
      intros [|j] b Hj Hb; cbn in Hb; [congruence|]. apply (H3 j); [lia | exact Hb].
    + intros a [<-|Ha]; auto.
Qed.

Lemma existsb_false {A} (f : A -> bool) l : existsb f l = false <-> forall x, In x l -> f x = false.
Proof.
  induction l as [|y l IH]; cbn; [split; [intros _ x [] | reflexivity]|].
  rewrite orb_false_iff, IH. split.
  - intros [H1 H2] x [<-|Hx]; auto.
  - intros H; split; auto.
Qed.

Lemma filter_map_app {A B} (f : A -> option B) l1 l2 :
  filter_map f (l1 ++ l2) = filter_map f l1 ++ filter_map f l2.
Proof. induction l1 as [|a l1 IH]; cbn; [reflexivity|]. destruct (f a); rewrite IH; reflexivity. Qed.

Lemma in_filter_map {A B} (f : A -> option B) l b :
  In b (filter_map f l) <-> exists a, In a l /\ f a = Some b.
Proof.
  induction l as [|a l IH]; cbn.
  - split; [intros [] | intros (a & [] & _)].
  - destruct (f a) as [b'|] eqn:E; cbn; rewrite IH.
    + split.
      * intros [<-|(x & Hx & Hf)]; eauto.
      * intros (x & [<-|Hx] & Hf); [left; congruence | right; eauto].
    + split.
      * intros (x & Hx & Hf); eauto.
      * intros (x & [<-|Hx] & Hf); [congruence | eauto].
Qed.
