(** Progress, no-panic and cleanness of parsers, combinator by combinator. *)
From Verif Require Import Text Chumsky PChumsky.

Section G.
Context {I : Type}.
Variable eqb : I -> I -> bool.
Variable eoi : span.
Notation V p := (fun s => vw (p s)).

(** total, leaves a suffix *)
Definition good {A} (p : parser (I:=I) A) : Prop := suffixing (V p) /\ no_panic (V p).
(** and consumes *)
Definition strict {A} (p : parser (I:=I) A) : Prop := consumes (V p) /\ no_panic (V p).
(** no secondary errors *)
Definition pure {A} (p : parser (I:=I) A) : Prop := clean (V p) /\ clean_err p.

Lemma strict_good {A} (p : parser (I:=I) A) : strict p -> good p.
Proof.
  intros [H1 H2]. split; [|exact H2]. intros st n a r H. apply H1 in H as (x & xs & ->).
  exists (x :: xs). reflexivity.
Qed.

Lemma vbind_ok {A B} (v : view I A) (f : nat -> A -> list (I * span) -> view I B) n b r :
  vbind v f = VOk n b r -> exists n1 a r1, v = VOk n1 a r1 /\ f n1 a r1 = VOk n b r.
Proof. destruct v; cbn; try discriminate. intros H. eauto. Qed.
Lemma vbind_panic {A B} (v : view I A) (f : nat -> A -> list (I * span) -> view I B) :
  vbind v f = VPanic -> v = VPanic \/ exists n1 a r1, v = VOk n1 a r1 /\ f n1 a r1 = VPanic.
Proof. destruct v; cbn; try discriminate; intros H; eauto 6. Qed.

(** inversion of successful runs *)
Lemma inv_map {A B} (p : parser (I:=I) A) (f : A -> B) st n b r :
  vw (p_map p f st) = VOk n b r -> exists a, vw (p st) = VOk n a r /\ b = f a.
Proof. rewrite vw_map. intros H. apply vbind_ok in H as (n1 & a & r1 & H & E). injection E as <- <- <-. eauto. Qed.
Lemma inv_mws {A B} (p : parser (I:=I) A) (f : A -> span -> B) st n b r :
  vw (p_map_with_span eoi p f st) = VOk n b r ->
  exists a, vw (p st) = VOk n a r /\ b = f a (span_since eoi st r).
Proof. rewrite vw_map_with_span. intros H. apply vbind_ok in H as (n1 & a & r1 & H & E). injection E as <- <- <-. eauto. Qed.
Lemma inv_then {A B} (p : parser (I:=I) A) (q : parser (I:=I) B) st n ab r :
  vw (p_then p q st) = VOk n ab r ->
  exists n1 n2 a b r1, vw (p st) = VOk n1 a r1 /\ vw (q r1) = VOk n2 b r /\ ab = (a, b) /\ n = n1 + n2.
Proof.
  rewrite vw_then. intros H. apply vbind_ok in H as (n1 & a & r1 & H & E).
  apply vbind_ok in E as (n2 & b & r2 & H2 & E). injection E as <- <- <-. do 5 eexists. eauto.
Qed.
Lemma inv_ignore_then {A B} (p : parser (I:=I) A) (q : parser (I:=I) B) st n b r :
  vw (p_ignore_then p q st) = VOk n b r ->
  exists n1 n2 a r1, vw (p st) = VOk n1 a r1 /\ vw (q r1) = VOk n2 b r /\ n = n1 + n2.
Proof.
  unfold p_ignore_then. intros H. apply inv_map in H as (ab & H & ->).
  apply inv_then in H as (n1 & n2 & a & b' & r1 & H1 & H2 & -> & ->). cbn. eauto 8.
Qed.
Lemma inv_then_ignore {A B} (p : parser (I:=I) A) (q : parser (I:=I) B) st n a r :
  vw (p_then_ignore p q st) = VOk n a r ->
  exists n1 n2 b r1, vw (p st) = VOk n1 a r1 /\ vw (q r1) = VOk n2 b r /\ n = n1 + n2.
Proof.
  unfold p_then_ignore. intros H. apply inv_map in H as (ab & H & ->).
  apply inv_then in H as (n1 & n2 & a' & b & r1 & H1 & H2 & -> & ->). cbn. eauto 8.
Qed.
Lemma inv_or_not {A} (p : parser (I:=I) A) st n o r :
  vw (p_or_not p st) = VOk n o r ->
  (exists a, o = Some a /\ vw (p st) = VOk n a r) \/ (o = None /\ n = 0 /\ r = st /\ vw (p st) = VFail).
Proof.
  rewrite vw_or_not. destruct (vw (p st)) eqn:E; intros H; try discriminate; injection H as <- <- <-; eauto 6.
Qed.
Lemma inv_rewind {A} (p : parser (I:=I) A) st n a r :
  vw (p_rewind p st) = VOk n a r -> r = st /\ exists r', vw (p st) = VOk n a r'.
Proof. rewrite vw_rewind. intros H. apply vbind_ok in H as (n1 & b & r1 & H & E). injection E as <- <- <-. eauto. Qed.

Lemma good_map {A B} (p : parser (I:=I) A) (f : A -> B) : good p -> good (p_map p f).
Proof.
  intros [H1 H2]. split; red; cbv beta; intros.
  - apply inv_map in H as (a' & H & _). eapply H1; exact H.
  - rewrite vw_map. intros H. apply vbind_panic in H as [H|(? & ? & ? & _ & H)]; [exact (H2 _ H)|discriminate].
Qed.
Lemma good_mws {A B} (p : parser (I:=I) A) (f : A -> span -> B) : good p -> good (p_map_with_span eoi p f).
Proof.
  intros [H1 H2]. split; red; cbv beta; intros.
  - apply inv_mws in H as (a' & H & _). eapply H1; exact H.
  - rewrite vw_map_with_span. intros H. apply vbind_panic in H as [H|(? & ? & ? & _ & H)]; [exact (H2 _ H)|discriminate].
Qed.
Lemma strict_map {A B} (p : parser (I:=I) A) (f : A -> B) : strict p -> strict (p_map p f).
Proof.
  intros H0. destruct (good_map p f (strict_good p H0)) as [_ Hn]. destruct H0 as [H1 H2]. split; [|exact Hn].
  red; cbv beta; intros. apply inv_map in H as (a' & H & _). eapply H1; exact H.
Qed.
Lemma strict_mws {A B} (p : parser (I:=I) A) (f : A -> span -> B) : strict p -> strict (p_map_with_span eoi p f).
Proof.
  intros H0. destruct (good_mws p f (strict_good p H0)) as [_ Hn]. destruct H0 as [H1 H2]. split; [|exact Hn].
  red; cbv beta; intros. apply inv_mws in H as (a' & H & _). eapply H1; exact H.
Qed.

Lemma np_then {A B} (p : parser (I:=I) A) (q : parser (I:=I) B) : no_panic (V p) -> no_panic (V q) -> no_panic (V (p_then p q)).
Proof.
  intros Hp Hq st. cbv beta. rewrite vw_then. intros H.
  apply vbind_panic in H as [H|(? & ? & r & _ & H)]; [exact (Hp _ H)|].
  apply vbind_panic in H as [H|(? & ? & r' & _ & H)]; [exact (Hq _ H)|discriminate].
Qed.
Lemma good_then {A B} (p : parser (I:=I) A) (q : parser (I:=I) B) : good p -> good q -> good (p_then p q).
Proof.
  intros [H1 H2] [H3 H4]. split; [|apply np_then; assumption]. red; cbv beta; intros.
  apply inv_then in H as (n1 & n2 & a' & b & r1 & Ha & Hb & _ & _).
  apply H1 in Ha as (xs & ->). apply H3 in Hb as (ys & ->). exists (xs ++ ys). apply app_assoc.
Qed.
Lemma strict_then_l {A B} (p : parser (I:=I) A) (q : parser (I:=I) B) : strict p -> good q -> strict (p_then p q).
Proof.
  intros [H1 H2] [H3 H4]. split; [|apply np_then; assumption]. red; cbv beta; intros.
  apply inv_then in H as (n1 & n2 & a' & b & r1 & Ha & Hb & _ & _).
  apply H1 in Ha as (x & xs & ->). apply H3 in Hb as (ys & ->). exists x, (xs ++ ys). cbn. rewrite app_assoc. reflexivity.
Qed.
Lemma strict_then_r {A B} (p : parser (I:=I) A) (q : parser (I:=I) B) : good p -> strict q -> strict (p_then p q).
Proof.
  intros [H1 H2] [H3 H4]. split; [|apply np_then; assumption]. red; cbv beta; intros.
  apply inv_then in H as (n1 & n2 & a' & b & r1 & Ha & Hb & _ & _).
  apply H1 in Ha as (xs & ->). apply H3 in Hb as (y & ys & ->).
  destruct xs as [|x xs]; [exists y, ys; reflexivity|exists x, (xs ++ y :: ys)]. cbn. rewrite <- app_assoc. reflexivity.
Qed.
Lemma good_ignore_then {A B} (p : parser (I:=I) A) (q : parser (I:=I) B) : good p -> good q -> good (p_ignore_then p q).
Proof. intros. apply good_map, good_then; assumption. Qed.
Lemma good_then_ignore {A B} (p : parser (I:=I) A) (q : parser (I:=I) B) : good p -> good q -> good (p_then_ignore p q).
Proof. intros. apply good_map, good_then; assumption. Qed.
Lemma strict_ignore_then_l {A B} (p : parser (I:=I) A) (q : parser (I:=I) B) : strict p -> good q -> strict (p_ignore_then p q).
Proof. intros. apply strict_map, strict_then_l; assumption. Qed.
Lemma strict_ignore_then_r {A B} (p : parser (I:=I) A) (q : parser (I:=I) B) : good p -> strict q -> strict (p_ignore_then p q).
Proof. intros. apply strict_map, strict_then_r; assumption. Qed.
Lemma strict_then_ignore_l {A B} (p : parser (I:=I) A) (q : parser (I:=I) B) : strict p -> good q -> strict (p_then_ignore p q).
Proof. intros. apply strict_map, strict_then_l; assumption. Qed.
Lemma strict_padded {A B} (p : parser (I:=I) A) (q : parser (I:=I) B) : strict p -> good q -> strict (p_padded_by p q).
Proof. intros. apply strict_then_ignore_l; [apply strict_ignore_then_r|]; assumption. Qed.
Lemma strict_delimited {A B C} (p : parser (I:=I) A) (l : parser (I:=I) B) (r : parser (I:=I) C) :
  good p -> strict l -> good r -> strict (p_delimited_by p l r).
Proof. intros. apply strict_then_ignore_l; [apply strict_ignore_then_l|]; assumption. Qed.

Lemma strict_filter f : strict (p_filter eoi f).
Proof.
  split; red; cbv beta; intros.
  - rewrite vw_filter in H. destruct st as [|[x sp] s]; [discriminate|]. destruct (f x); [|discriminate].
    injection H as <- <- <-. exists (x, sp), []. reflexivity.
  - rewrite vw_filter. destruct st as [|[x sp] s]; [discriminate|]. destruct (f x); discriminate.
Qed.
Lemma strict_any : strict (p_any eoi).
Proof. apply strict_filter. Qed.
Lemma strict_filter_map {O} (f : span -> I -> O + text) : strict (p_filter_map eoi f).
Proof.
  split; red; cbv beta; intros.
  - rewrite vw_filter_map in H. destruct st as [|[x sp] s]; [discriminate|]. destruct (f sp x); [|discriminate].
    injection H as <- <- <-. exists (x, sp), []. reflexivity.
  - rewrite vw_filter_map. destruct st as [|[x sp] s]; [discriminate|]. destruct (f sp x); discriminate.
Qed.
Lemma strict_just x : strict (p_just eqb eoi x).
Proof.
  split; red; cbv beta; intros.
  - rewrite vw_just in H. destruct st as [|[y sp] s]; [discriminate|]. destruct (eqb y x); [|discriminate].
    injection H as <- <- <-. exists (y, sp), []. reflexivity.
  - rewrite vw_just. destruct st as [|[y sp] s]; [discriminate|]. destruct (eqb y x); discriminate.
Qed.
Lemma strict_none_of xs : strict (p_none_of eqb eoi xs).
Proof.
  split; red; cbv beta; intros.
  - rewrite vw_none_of in H. destruct st as [|[y sp] s]; [discriminate|]. destruct (existsb _ _); [discriminate|].
    injection H as <- <- <-. exists (y, sp), []. reflexivity.
  - rewrite vw_none_of. destruct st as [|[y sp] s]; [discriminate|]. destruct (existsb _ _); discriminate.
Qed.
Lemma good_end : good (p_end eoi).
Proof.
  split; red; cbv beta; intros.
  - rewrite vw_end in H. destruct st; [|discriminate]. injection H as <- <- <-. exists []. reflexivity.
  - rewrite vw_end. destruct st; discriminate.
Qed.
Lemma good_or {A} (p q : parser (I:=I) A) : good p -> good q -> good (p_or p q).
Proof.
  intros [H1 H2] [H3 H4]. split; red; cbv beta; intros.
  - destruct (vw_or_inv p q st) as [E|E]; rewrite E in H; [eapply H1|eapply H3]; exact H.
  - destruct (vw_or_inv p q st) as [E|E]; rewrite E; [apply H2|apply H4].
Qed.
Lemma strict_or {A} (p q : parser (I:=I) A) : strict p -> strict q -> strict (p_or p q).
Proof.
  intros [H1 H2] [H3 H4]. split; red; cbv beta; intros.
  - destruct (vw_or_inv p q st) as [E|E]; rewrite E in H; [eapply H1|eapply H3]; exact H.
  - destruct (vw_or_inv p q st) as [E|E]; rewrite E; [apply H2|apply H4].
Qed.
Lemma good_or_not {A} (p : parser (I:=I) A) : good p -> good (p_or_not p).
Proof.
  intros [H1 H2]. split; red; cbv beta; intros.
  - apply inv_or_not in H as [(x & _ & H)|(_ & _ & -> & _)]; [eapply H1; exact H|exists []; reflexivity].
  - rewrite vw_or_not. specialize (H2 st). cbv beta in H2. destruct (vw (p st)); congruence.
Qed.
Lemma good_rewind {A} (p : parser (I:=I) A) : no_panic (V p) -> good (p_rewind p).
Proof.
  intros H2. split; red; cbv beta; intros.
  - apply inv_rewind in H as (-> & _). exists []. reflexivity.
  - rewrite vw_rewind. intros H. apply vbind_panic in H as [H|(? & ? & ? & _ & H)]; [exact (H2 _ H)|discriminate].
Qed.
Lemma strict_not {A} (p : parser (I:=I) A) : no_panic (V p) -> strict (p_not eoi p).
Proof.
  intros H2. split; red; cbv beta; intros.
  - rewrite vw_not in H. destruct (vw (p st)); try discriminate. destruct st as [|[x sp] s]; [discriminate|].
    injection H as <- <- <-. exists (x, sp), []. reflexivity.
  - rewrite vw_not. specialize (H2 st). cbv beta in H2. destruct (vw (p st)); try discriminate; [|congruence].
    destruct st as [|[x sp] s]; discriminate.
Qed.
Lemma strict_validate {A} (p : parser (I:=I) A) f : strict p -> strict (p_validate eoi p f).
Proof.
  intros [H1 H2]. split; red; cbv beta; intros.
  - rewrite vw_validate in H. apply vbind_ok in H as (n1 & a1 & r1 & H & E). injection E as <- <- <-. eapply H1; exact H.
  - rewrite vw_validate. intros H. apply vbind_panic in H as [H|(? & ? & ? & _ & H)]; [exact (H2 _ H)|discriminate].
Qed.

(** repeated *)
Lemma rep_iter {A} k (p : parser (I:=I) A) st : strict p -> exists n l r,
  iter (V p) st n l r /\ vw (p_repeated_at_least k p st) = if length l <? k then VFail else VOk n l r.
Proof.
  intros [H1 H2]. destruct (iter_exists (V p) H1 H2 (length st) st (le_n _)) as (n & l & r & Hi).
  exists n, l, r. split; [exact Hi|]. apply vw_repeated_iter; assumption.
Qed.
Lemma inv_rep {A} k (p : parser (I:=I) A) st n l r : strict p ->
  vw (p_repeated_at_least k p st) = VOk n l r -> iter (V p) st n l r /\ k <= length l.
Proof.
  intros Hs H. destruct (rep_iter k p st Hs) as (n' & l' & r' & Hi & E). rewrite E in H.
  destruct (_ <? _) eqn:El; [discriminate|]. injection H as <- <- <-. apply Nat.ltb_ge in El. auto.
Qed.
Lemma inv_rep0 {A} (p : parser (I:=I) A) st n l r : strict p ->
  vw (p_repeated p st) = VOk n l r -> iter (V p) st n l r.
Proof. intros Hs H. apply (inv_rep 0 p st n l r Hs) in H as [H _]. exact H. Qed.
Lemma good_rep {A} k (p : parser (I:=I) A) : strict p -> good (p_repeated_at_least k p).
Proof.
  intros Hs. split; red; cbv beta; intros.
  - apply inv_rep in H as [H _]; [|exact Hs]. eapply iter_suffix; [|exact H]. apply strict_good in Hs. apply Hs.
  - destruct (rep_iter k p st Hs) as (n' & l' & r' & Hi & ->). destruct (_ <? _); discriminate.
Qed.
Lemma strict_rep1 {A} k (p : parser (I:=I) A) : strict p -> 0 < k -> strict (p_repeated_at_least k p).
Proof.
  intros Hs Hk. split; [|apply good_rep; exact Hs]. red; cbv beta; intros.
  apply inv_rep in H as [H Hl]; [|exact Hs]. inversion H; subst; [cbn in Hl; lia|].
  destruct Hs as [Hc Hn]. pose proof H0 as H2. apply Hc in H2 as (x & xs & ->).
  assert (suffixing (V p)) as Hsf by (apply strict_good; split; assumption).
  apply (iter_suffix _ _ _ _ _ Hsf) in H1 as (ys & ->). exists x, (xs ++ ys). cbn. rewrite app_assoc. reflexivity.
Qed.
Lemma good_repeated {A} (p : parser (I:=I) A) : strict p -> good (p_repeated p).
Proof. apply good_rep. Qed.

(** separated_by *)
Lemma sep_cases {A B} (p : parser (I:=I) A) (s : parser (I:=I) B) st : good p -> strict s -> pure p -> pure s ->
  (vw (p st) = VFail /\ vw (p_separated_by p s st) = VOk 0 [] st) \/
  (exists a r l r', vw (p st) = VOk 0 a r /\ sep_iter (V p) (V s) r l r' /\
     vw (p_separated_by p s st) = VOk 0 (a :: l) r').
Proof.
  intros [G1 G2] [S1 S2] [P1 P2] [Q1 Q2]. destruct (vw (p st)) as [n a r| |] eqn:E.
  - right. pose proof (P1 _ _ _ _ E) as ->.
    destruct (sep_iter_exists (V p) (V s) P1 Q1 G2 S2 S1 G1 (length r) r (le_n _)) as (l & r' & Hi).
    exists a, r, l, r'. split; [reflexivity|]. split; [exact Hi|].
    eapply vw_separated_ok; eassumption.
  - left. split; [reflexivity|]. apply vw_separated_fail; assumption.
  - exfalso. exact (G2 _ E).
Qed.
Lemma sep_iter_suffix {A B} (p : parser (I:=I) A) (s : parser (I:=I) B) : good p -> strict s -> forall st l r,
  sep_iter (V p) (V s) st l r -> exists xs, st = xs ++ r.
Proof.
  intros [G1 G2] [S1 S2] st l r. induction 1 as [st H|st b r H Hp|st b r a r1 l r' H Hp Hi (xs & IH)];
    [exists []; reflexivity|exists []; reflexivity|].
  apply S1 in H as (y & ys & ->). apply G1 in Hp as (zs & ->). subst r1.
  exists ((y :: ys) ++ zs ++ xs). rewrite <- !app_assoc. reflexivity.
Qed.
Lemma good_sep {A B} (p : parser (I:=I) A) (s : parser (I:=I) B) : good p -> strict s -> pure p -> pure s ->
  good (p_separated_by p s).
Proof.
  intros G S P Q. split; red; cbv beta; intros.
  - destruct (sep_cases p s st G S P Q) as [[_ E]|(a' & r1 & l & r' & Hp & Hi & E)]; rewrite E in H; injection H as <- <- <-.
    + exists []. reflexivity.
    + apply (sep_iter_suffix p s G S) in Hi as (xs & ->). apply G in Hp as (ys & ->). exists (ys ++ xs). apply app_assoc.
  - destruct (sep_cases p s st G S P Q) as [[_ E]|(a' & r1 & l & r' & Hp & Hi & E)]; rewrite E; discriminate.
Qed.

(** purity *)
Lemma pure_ok {A} (p : parser (I:=I) A) st es a alt r : pure p -> p st = POk es a alt r -> es = [].
Proof.
  intros [H _] E. specialize (H st (length es) a r). cbv beta in H. rewrite E in H. specialize (H eq_refl).
  destruct es; [reflexivity|discriminate].
Qed.
Lemma pure_intro {A} (p : parser (I:=I) A) : (forall st es a alt r, p st = POk es a alt r -> es = []) ->
  (forall st es e, p st = PErr es e -> es = []) -> pure p.
Proof.
  intros H1 H2. split; [|exact H2]. intros st n a r H. apply vw_ok in H as (es & alt & H & <-).
  apply H1 in H as ->. reflexivity.
Qed.
Lemma pure_map {A B} (p : parser (I:=I) A) (f : A -> B) : pure p -> pure (p_map p f).
Proof.
  intros P. apply pure_intro; unfold p_map; intros st; intros; destruct (p st) eqn:E; try discriminate.
  - injection H as <- _ _ _. eapply pure_ok; eassumption.
  - injection H as <- _. eapply P; eassumption.
Qed.
Lemma pure_mws {A B} (p : parser (I:=I) A) (f : A -> span -> B) : pure p -> pure (p_map_with_span eoi p f).
Proof.
  intros P. apply pure_intro; unfold p_map_with_span; intros st; intros; destruct (p st) eqn:E; try discriminate.
  - injection H as <- _ _ _. eapply pure_ok; eassumption.
  - injection H as <- _. eapply P; eassumption.
Qed.
Lemma pure_then {A B} (p : parser (I:=I) A) (q : parser (I:=I) B) : pure p -> pure q -> pure (p_then p q).
Proof.
  intros P Q. apply pure_intro; unfold p_then; intros st; intros;
    destruct (p st) as [es1 a1 alt1 r1|es1 e1|] eqn:E; try discriminate.
  - destruct (q r1) eqn:E2; try discriminate. injection H as <- _ _ _.
    apply pure_ok in E as ->; [|exact P]. apply pure_ok in E2 as ->; [|exact Q]. reflexivity.
  - destruct (q r1) eqn:E2; try discriminate. injection H as <- _.
    apply pure_ok in E as ->; [|exact P]. apply Q in E2 as ->. reflexivity.
  - injection H as <- _. eapply P; eassumption.
Qed.
Lemma pure_ignore_then {A B} (p : parser (I:=I) A) (q : parser (I:=I) B) : pure p -> pure q -> pure (p_ignore_then p q).
Proof. intros. apply pure_map, pure_then; assumption. Qed.
Lemma pure_then_ignore {A B} (p : parser (I:=I) A) (q : parser (I:=I) B) : pure p -> pure q -> pure (p_then_ignore p q).
Proof. intros. apply pure_map, pure_then; assumption. Qed.
Lemma pure_delimited {A B C} (p : parser (I:=I) A) (l : parser (I:=I) B) (r : parser (I:=I) C) :
  pure p -> pure l -> pure r -> pure (p_delimited_by p l r).
Proof. intros. apply pure_then_ignore; [apply pure_ignore_then|]; assumption. Qed.
Lemma pure_filter f : pure (p_filter eoi f).
Proof.
  apply pure_intro; unfold p_filter; intros st; intros; destruct st as [|[x sp] s]; try discriminate;
    try (destruct (f x); try discriminate); injection H; congruence.
Qed.
Lemma pure_any : pure (p_any eoi).
Proof. apply pure_filter. Qed.
Lemma pure_filter_map {O} (f : span -> I -> O + text) : pure (p_filter_map eoi f).
Proof.
  apply pure_intro; unfold p_filter_map; intros st; intros; destruct st as [|[x sp] s]; try discriminate;
    try (destruct (f sp x); try discriminate); injection H; congruence.
Qed.
Lemma pure_just x : pure (p_just eqb eoi x).
Proof.
  apply pure_intro; unfold p_just; intros st; intros; destruct st as [|[y sp] s]; try discriminate;
    try (destruct (eqb y x); try discriminate); injection H; congruence.
Qed.
Lemma pure_none_of xs : pure (p_none_of eqb eoi xs).
Proof.
  apply pure_intro; unfold p_none_of; intros st; intros; destruct st as [|[y sp] s]; try discriminate;
    try (destruct (existsb _ _); try discriminate); injection H; congruence.
Qed.
Lemma pure_end : pure (p_end eoi).
Proof.
  apply pure_intro; unfold p_end; intros st; intros; destruct st as [|[y sp] s]; try discriminate; injection H; congruence.
Qed.
Lemma pure_or {A} (p q : parser (I:=I) A) : pure p -> pure q -> pure (p_or p q).
Proof.
  intros P Q. apply pure_intro; unfold p_or; intros st es; intros.
  - destruct (p st) as [es1 a1 alt1 r1|es1 e1|] eqn:E; try discriminate.
    + apply pure_ok in E as ->; [|exact P]. injection H; congruence.
    + destruct (q st) as [es2 a2 alt2 r2|es2 e2|] eqn:E2; try discriminate.
      * apply pure_ok in E2 as ->; [|exact Q]. injection H; congruence.
      * repeat match type of H with context [if ?b then _ else _] => destruct b end; discriminate.
  - destruct (p st) as [es1 a1 alt1 r1|es1 e1|] eqn:E; try discriminate.
    + apply pure_ok in E as ->; [|exact P]. discriminate.
    + apply P in E as ->. destruct (q st) as [es2 a2 alt2 r2|es2 e2|] eqn:E2; try discriminate.
      * apply pure_ok in E2 as ->; [|exact Q]. discriminate.
      * apply Q in E2 as ->.
        repeat match type of H with context [if ?b then _ else _] => destruct b end; injection H; congruence.
Qed.
Lemma pure_or_not {A} (p : parser (I:=I) A) : pure p -> pure (p_or_not p).
Proof.
  intros P. apply pure_intro; unfold p_or_not; intros st; intros; destruct (p st) eqn:E; try discriminate.
  - injection H as <- _ _ _. eapply pure_ok; eassumption.
  - injection H; congruence.
Qed.
Lemma pure_rewind {A} (p : parser (I:=I) A) : pure p -> pure (p_rewind p).
Proof.
  intros P. apply pure_intro; unfold p_rewind; intros st; intros; destruct (p st) eqn:E; try discriminate.
  - injection H as <- _ _ _. eapply pure_ok; eassumption.
  - injection H as <- _. eapply P; eassumption.
Qed.
Lemma pure_not {A} (p : parser (I:=I) A) : pure (p_not eoi p).
Proof.
  apply pure_intro; unfold p_not; intros st; intros; destruct (p st) eqn:E; try discriminate;
    try (destruct st as [|[x sp] s]; try discriminate); injection H; congruence.
Qed.
Lemma pure_rep {A} k (p : parser (I:=I) A) : pure p -> pure (p_repeated_at_least k p).
Proof.
  intros P.
  assert (forall fuel old outs alt st,
    match p_rep fuel p k old [] outs alt st with POk es _ _ _ => es = [] | PErr es _ => es = [] | PPanic => True end) as H.
  { induction fuel as [|fuel IH]; intros old outs alt st; cbn [p_rep]; [exact Logic.I|].
    destruct (p st) as [es a a_alt r|es e|] eqn:E.
    - destruct (match old with Some n => n =? length r | None => false end); [exact Logic.I|].
      apply pure_ok in E as ->; [|exact P]. apply IH.
    - apply P in E as ->. destruct (_ <? _); reflexivity.
    - exact Logic.I. }
  apply pure_intro; unfold p_repeated_at_least; intros st; intros;
    specialize (H (length st + 3) None [] None st); rewrite H0 in H; exact H.
Qed.
Lemma pure_repeated {A} (p : parser (I:=I) A) : pure p -> pure (p_repeated p).
Proof. apply pure_rep. Qed.
Lemma pure_sep {A B} (p : parser (I:=I) A) (s : parser (I:=I) B) : pure p -> pure s -> pure (p_separated_by p s).
Proof.
  intros P Q.
  assert (forall fuel outs alt st,
    match p_sep_tail fuel p s [] outs alt st with POk es _ _ _ => es = [] | PErr es _ => es = [] | PPanic => True end) as H.
  { induction fuel as [|fuel IH]; intros outs alt st; cbn [p_sep_tail]; [exact Logic.I|].
    destruct (s st) as [es a a_alt r|es e|] eqn:E.
    - apply pure_ok in E as ->; [|exact Q]. destruct (p r) as [es1 a1 alt1 r1|es1 e1|] eqn:E1.
      + apply pure_ok in E1 as ->; [|exact P]. cbn [app]. apply IH.
      + apply P in E1 as ->. reflexivity.
      + exact Logic.I.
    - apply Q in E as ->. reflexivity.
    - exact Logic.I. }
  apply pure_intro; unfold p_separated_by; intros st; intros;
    destruct (p st) as [es1 a1 alt1 r1|es1 e1|] eqn:E; try discriminate.
  - apply pure_ok in E as ->; [|exact P]. specialize (H (length st + 3) [a1] alt1 r1). rewrite H0 in H. exact H.
  - apply P in E as ->. injection H0; congruence.
  - apply pure_ok in E as ->; [|exact P]. specialize (H (length st + 3) [a1] alt1 r1). rewrite H0 in H. exact H.
Qed.
End G.
