(** The parser does the same on token lists of the same shape. *)
From Verif Require Import Text Chumsky Tokenizer Parser SpecParse SpecSimilar SpecValues PText.

Lemma similar_refl t : similar t t.
Proof. left. reflexivity. Qed.
Lemma similar_resembles t t' : similar t t' -> resembles t t'.
Proof. intros [->|H]; [left; reflexivity|]. right. destruct t, t'; try contradiction; exact H. Qed.

Section Rel.
Variables eoi eoi' : span.
Variable T : stoken -> stoken -> Prop.
Hypothesis HT : forall a b, T a b -> resembles (fst a) (fst b).

Definition srel (s s' : list stoken) : Prop := Forall2 T s s'.
Definition same_errors (e e' : span) (a b : simple token) : Prop :=
  (ranges T (e_span a) (e_span b) \/ (e_span a = e /\ e_span b = e')) /\ e_reason a = e_reason b /\ e_expected a = e_expected b /\ both resembles (e_found a) (e_found b).
(** Errors of the same shape, about the same token. *)
Definition serr (a b : simple token) : Prop :=
  same_errors eoi eoi' a b /\ both (fun t t' => exists sp sp', T (t, sp) (t', sp')) (e_found a) (e_found b).
Definition lrel (a b : located token) : Prop := l_rem a = l_rem b /\ serr (l_err a) (l_err b).
Definition prel {A B} (O : A -> B -> Prop) (p : pres token A) (q : pres token B) : Prop :=
  match p, q with
  | POk es a alt r, POk es' a' alt' r' => Forall2 lrel es es' /\ O a a' /\ both lrel alt alt' /\ srel r r'
  | PErr es e, PErr es' e' => Forall2 lrel es es' /\ lrel e e'
  | PPanic, PPanic => True
  | _, _ => False
  end.
Definition parrel {A B} (O : A -> B -> Prop) (p : stream -> pres token A) (q : stream -> pres token B) : Prop :=
  forall s s', srel s s' -> prel O (p s) (q s').

Lemma srel_length s s' : srel s s' -> @length (token * span) s = @length (token * span) s'.
Proof. induction 1; cbn; congruence. Qed.
Lemma merge_rel a b a' b' : serr a a' -> serr b b' -> serr (merge a b) (merge a' b').
Proof. intros ((H1 & H2 & H3 & H4) & H5) ((_ & _ & H7 & _) & _). unfold serr, same_errors, merge. cbn [e_span e_reason e_expected e_found]. repeat split; try assumption. congruence. Qed.
Lemma loc_max_rel a a' b b' : lrel a a' -> both lrel b b' -> lrel (loc_max a b) (loc_max a' b').
Proof.
  intros Ha Hb. pose proof Ha as [E1 G1]. destruct b as [b|], b' as [b'|]; try contradiction; [|exact Ha]. pose proof Hb as [E2 G2]. unfold loc_max.
  rewrite <- E1, <- E2. destruct (l_rem a <? l_rem b); [exact Ha|]. destruct (l_rem b <? l_rem a); [exact Hb|].
  split; [reflexivity|]. apply merge_rel; assumption.
Qed.
Lemma merge_alts_rel a a' b b' : both lrel a a' -> both lrel b b' -> both lrel (merge_alts a b) (merge_alts a' b').
Proof. intros Ha Hb. destruct a, a'; try contradiction; [|exact Hb]. apply loc_max_rel; assumption. Qed.
Lemma err_here_rel s s' ex : srel s s' -> lrel (err_here eoi s ex) (err_here eoi' s' ex).
Proof.
  intros H. destruct H as [|[x sp] [y sp'] s s' H Hs].
  - split; [reflexivity|]. cbn. unfold serr, same_errors. cbn. repeat split; auto.
  - pose proof (HT _ _ H) as Hsim. cbn [fst] in Hsim. split; [cbn; f_equal; apply srel_length; exact Hs|]. unfold serr, same_errors. cbn. repeat split; [|exact Hsim|eauto].
    left. split; exists (x, sp), (y, sp'); auto.
Qed.
Lemma forall2_app_rel {A B} (R : A -> B -> Prop) a b c d : Forall2 R a b -> Forall2 R c d -> Forall2 R (a ++ c) (b ++ d).
Proof. apply Forall2_app. Qed.

Lemma map_rel {A B C D} (O : A -> B -> Prop) (Q : C -> D -> Prop) p q f g : parrel O p q -> (forall a b, O a b -> Q (f a) (g b)) ->
  parrel Q (p_map p f) (p_map q g).
Proof.
  intros H Hf s s' Hs. specialize (H s s' Hs). unfold p_map. destruct (p s), (q s'); cbn in *; try contradiction; auto. intuition auto.
Qed.
Lemma then_rel {A B C D} (O : A -> B -> Prop) (Q : C -> D -> Prop) p q p' q' : parrel O p q -> parrel Q p' q' ->
  parrel (fun x y => O (fst x) (fst y) /\ Q (snd x) (snd y)) (p_then p p') (p_then q q').
Proof.
  intros H H' s s' Hs. specialize (H s s' Hs). unfold p_then. destruct (p s) as [es a alt r| |], (q s') as [es' a' alt' r'| |]; cbn in H; try contradiction; auto.
  destruct H as (H1 & H2 & H3 & H4). specialize (H' r r' H4). destruct (p' r), (q' r'); cbn in H'; try contradiction; cbn; auto.
  - destruct H' as (G1 & G2 & G3 & G4). split; [apply Forall2_app; assumption|]. split; [auto|]. split; [apply merge_alts_rel; assumption|assumption].
  - destruct H' as (G1 & G2). split; [apply Forall2_app; assumption|apply loc_max_rel; assumption].
Qed.
Lemma ignore_then_rel {A B C D} (O : A -> B -> Prop) (Q : C -> D -> Prop) p q p' q' : parrel O p q -> parrel Q p' q' -> parrel Q (p_ignore_then p p') (p_ignore_then q q').
Proof. intros H H'. eapply map_rel; [eapply then_rel; eassumption|]. cbn. intros a b Hab. apply Hab. Qed.
Lemma then_ignore_rel {A B C D} (O : A -> B -> Prop) (Q : C -> D -> Prop) p q p' q' : parrel O p q -> parrel Q p' q' -> parrel O (p_then_ignore p p') (p_then_ignore q q').
Proof. intros H H'. eapply map_rel; [eapply then_rel; eassumption|]. cbn. intros a b Hab. apply Hab. Qed.
Lemma padded_rel {A B C D} (O : A -> B -> Prop) (Q : C -> D -> Prop) p q p' q' : parrel O p q -> parrel Q p' q' -> parrel O (p_padded_by p p') (p_padded_by q q').
Proof. intros H H'. eapply then_ignore_rel; [eapply ignore_then_rel; eassumption|exact H']. Qed.
Lemma delimited_rel {A B C D E F} (O : A -> B -> Prop) (Q : C -> D -> Prop) (S : E -> F -> Prop) p q l l' r r' : parrel O p q -> parrel Q l l' -> parrel S r r' ->
  parrel O (p_delimited_by p l r) (p_delimited_by q l' r').
Proof. intros H H' H''. eapply then_ignore_rel; [eapply ignore_then_rel; eassumption|exact H'']. Qed.

Lemma last_rem_rel es es' : Forall2 lrel es es' -> match rev es with [] => 0 | e :: _ => l_rem e end = match rev es' with [] => 0 | e :: _ => l_rem e end.
Proof.
  intros H. assert (Forall2 lrel (rev es) (rev es')) as G.
  { induction H; [constructor|]. cbn. apply Forall2_app; [assumption|]. constructor; [assumption|constructor]. }
  destruct G as [|? ? ? ? [E _] _]; auto.
Qed.
Lemma or_rel {A B} (O : A -> B -> Prop) p q p' q' : parrel O p q -> parrel O p' q' -> parrel O (p_or p p') (p_or q q').
Proof.
  intros H H' s s' Hs. specialize (H s s' Hs). specialize (H' s s' Hs). unfold p_or.
  destruct (p s) as [es a alt r|es e|], (q s') as [fs b balt br|fs f|]; cbn in H; try contradiction; try exact I.
  - destruct H as (H1 & H2 & H3 & H4). destruct H1 as [|x y es fs Hxy H1].
    + cbn. auto.
    + pose proof (last_rem_rel _ _ (Forall2_cons _ _ Hxy H1)) as El. pose proof (Forall2_cons _ _ Hxy H1) as Hl. revert El Hl. generalize (x :: es) (y :: fs). intros l m El Hl.
      destruct (p' s) as [es2 a2 alt2 r2|es2 e2|], (q' s') as [fs2 b2 balt2 br2|fs2 f2|]; cbn in H'; try contradiction; try exact I.
      * destruct H' as (G1 & G2 & G3 & G4). destruct G1 as [|x2 y2 es2 fs2 Hxy2 G1]; [cbn; auto|].
        pose proof (last_rem_rel _ _ (Forall2_cons _ _ Hxy2 G1)) as El2. pose proof (Forall2_cons _ _ Hxy2 G1) as Hl2. revert El2 Hl2. generalize (x2 :: es2) (y2 :: fs2). intros l2 m2 El2 Hl2.
        cbv zeta. rewrite <- El, <- El2. destruct (_ <? _); cbn; auto.
      * destruct H' as (G1 & G2). cbn. split; [exact Hl|]. split; [exact H2|]. split; [apply merge_alts_rel; [exact H3|exact G2]|exact H4].
  - destruct H as (H1 & H2). destruct (p' s) as [es2 a2 alt2 r2|es2 e2|], (q' s') as [fs2 b2 balt2 br2|fs2 f2|]; cbn in H'; try contradiction; try exact I.
    + destruct H' as (G1 & G2 & G3 & G4). destruct G1 as [|x2 y2 es2 fs2 Hxy2 G1]; [cbn; auto|]. cbn. split; [constructor; assumption|]. split; [exact G2|]. split; [apply merge_alts_rel; [exact G3|exact H2]|exact G4].
    + destruct H' as (G1 & G2). pose proof (proj1 H2) as E1. pose proof (proj1 G2) as E2. rewrite <- E1, <- E2.
      destruct (l_rem e2 <? l_rem e); [cbn; auto|]. destruct (l_rem e <? l_rem e2); [cbn; auto|]. cbn [prel]. split; [exact H1|]. apply loc_max_rel; [exact H2|exact G2].
Qed.
Lemma or_not_rel {A B} (O : A -> B -> Prop) p q : parrel O p q -> parrel (both O) (p_or_not p) (p_or_not q).
Proof.
  intros H s s' Hs. specialize (H s s' Hs). unfold p_or_not. destruct (p s), (q s'); cbn in *; try contradiction; auto. destruct H as [H1 H2]. split; [constructor|]. split; [exact I|]. split; [exact H2|exact Hs].
Qed.
Lemma not_rel {A B} (O : A -> B -> Prop) p q : parrel O p q -> parrel resembles (p_not eoi p) (p_not eoi' q).
Proof.
  intros H s s' Hs. specialize (H s s' Hs). unfold p_not. destruct (p s), (q s'); cbn in H; try contradiction; try exact I.
  - cbn. split; [constructor|]. apply err_here_rel. exact Hs.
  - destruct Hs as [|[x sp] [y sp'] s s' Ht Hs].
    + cbn [prel]. split; [constructor|]. apply err_here_rel. constructor.
    + cbn. split; [constructor|]. split; [apply (HT _ _ Ht)|]. split; [exact I|exact Hs].
Qed.
Lemma rewind_rel {A B} (O : A -> B -> Prop) p q : parrel O p q -> parrel O (p_rewind p) (p_rewind q).
Proof.
  intros H s s' Hs. specialize (H s s' Hs). unfold p_rewind. destruct (p s), (q s'); cbn in *; try contradiction; auto. intuition auto.
Qed.
Lemma rep_rel {A B} (O : A -> B -> Prop) p q n : parrel O p q -> forall fuel old es es' os os' alt alt', Forall2 lrel es es' -> Forall2 O os os' -> both lrel alt alt' ->
  parrel (Forall2 O) (p_rep fuel p n old es os alt) (p_rep fuel q n old es' os' alt').
Proof.
  intros H. induction fuel as [|fuel IH]; intros old es es' os os' alt alt' Hes Hos Ha s s' Hs; [exact I|]. cbn [p_rep].
  pose proof (H s s' Hs) as G. destruct (p s) as [es2 a2 alt2 r2|es2 e2|], (q s') as [fs2 b2 balt2 br2|fs2 f2|]; cbn in G; try contradiction; try exact I.
  - destruct G as (G1 & G2 & G3 & G4). rewrite <- (srel_length _ _ G4). destruct (match old with Some k => k =? length r2 | None => false end); [exact I|].
    apply IH; [apply Forall2_app; assumption|apply Forall2_app; [assumption|constructor; [assumption|constructor]]|apply merge_alts_rel; assumption|exact G4].
  - destruct G as (G1 & G2). assert (length os = length os') as <- by (clear - Hos; induction Hos; cbn; congruence).
    destruct (length os <? n); cbn [prel].
    + split; [apply Forall2_app; assumption|apply loc_max_rel; assumption].
    + split; [exact Hes|]. split; [exact Hos|]. split; [apply merge_alts_rel; [exact Ha|exact G2]|exact Hs].
Qed.
Lemma repeated_at_least_rel {A B} (O : A -> B -> Prop) p q n : parrel O p q -> parrel (Forall2 O) (p_repeated_at_least n p) (p_repeated_at_least n q).
Proof.
  intros H s s' Hs. unfold p_repeated_at_least. rewrite <- (srel_length _ _ Hs). apply rep_rel; [exact H|constructor|constructor|exact I|exact Hs].
Qed.
Lemma repeated_rel {A B} (O : A -> B -> Prop) p q : parrel O p q -> parrel (Forall2 O) (p_repeated p) (p_repeated q).
Proof. apply repeated_at_least_rel. Qed.
Lemma sep_tail_rel {A B C D} (O : A -> B -> Prop) (Q : C -> D -> Prop) p q ps qs : parrel O p q -> parrel Q ps qs -> forall fuel es es' os os' alt alt',
  Forall2 lrel es es' -> Forall2 O os os' -> both lrel alt alt' -> parrel (Forall2 O) (p_sep_tail fuel p ps es os alt) (p_sep_tail fuel q qs es' os' alt').
Proof.
  intros H H'. induction fuel as [|fuel IH]; intros es es' os os' alt alt' Hes Hos Ha s s' Hs; [exact I|]. cbn [p_sep_tail].
  pose proof (H' s s' Hs) as G. destruct (ps s) as [es2 a2 alt2 r2|es2 e2|], (qs s') as [fs2 b2 balt2 br2|fs2 f2|]; cbn in G; try contradiction; try exact I.
  - destruct G as (G1 & G2 & G3 & G4). pose proof (H _ _ G4) as K. destruct (p r2) as [es3 a3 alt3 r3|es3 e3|], (q br2) as [fs3 b3 balt3 br3|fs3 f3|]; cbn in K; try contradiction; try exact I.
    + destruct K as (K1 & K2 & K3 & K4). apply IH; [repeat apply Forall2_app; assumption|apply Forall2_app; [assumption|constructor; [assumption|constructor]]|repeat apply merge_alts_rel; assumption|exact K4].
    + destruct K as (K1 & K2). cbn [prel]. split; [repeat apply Forall2_app; assumption|]. split; [exact Hos|]. split; [repeat apply merge_alts_rel; assumption|exact Hs].
  - destruct G as (G1 & G2). cbn [prel]. split; [apply Forall2_app; assumption|]. split; [exact Hos|]. split; [apply merge_alts_rel; assumption|exact Hs].
Qed.
Lemma separated_rel {A B C D} (O : A -> B -> Prop) (Q : C -> D -> Prop) p q ps qs : parrel O p q -> parrel Q ps qs -> parrel (Forall2 O) (p_separated_by p ps) (p_separated_by q qs).
Proof.
  intros H H' s s' Hs. unfold p_separated_by. pose proof (H s s' Hs) as G. destruct (p s) as [es2 a2 alt2 r2|es2 e2|], (q s') as [fs2 b2 balt2 br2|fs2 f2|]; cbn in G; try contradiction; try exact I.
  - destruct G as (G1 & G2 & G3 & G4). rewrite <- (srel_length _ _ Hs). apply (sep_tail_rel O Q); auto.
  - destruct G as (G1 & G2). cbn [prel both]. split; [exact G1|]. split; [constructor|]. split; [exact G2|exact Hs].
Qed.
Lemma retry_rel {A B} (O : A -> B -> Prop) p q : parrel O p q -> forall es es' e e', Forall2 lrel es es' -> lrel e e' -> parrel O (p_retry p es e) (p_retry q es' e').
Proof.
  intros H es es' e e' Hes He s s' Hs. induction Hs as [|x y s s' Hxy Hs IH]; cbn [p_retry].
  - specialize (H [] [] (Forall2_nil _)). unfold stoken in H |- *. destruct (p []) , (q []); cbn in H; try contradiction; cbn [prel]; [|split; assumption|exact I].
    destruct H as (H1 & H2 & H3 & H4). split; [apply Forall2_app; [assumption|constructor; [assumption|constructor]]|auto].
  - specialize (H _ _ (Forall2_cons _ _ Hxy Hs)). unfold stoken in *. destruct (p (x :: s)), (q (y :: s')); cbn in H; try contradiction; [|exact IH|exact I].
    destruct H as (H1 & H2 & H3 & H4). cbn [prel]. split; [apply Forall2_app; [assumption|constructor; [assumption|constructor]]|auto].
Qed.
Lemma recover_rel {A B} (O : A -> B -> Prop) p q : parrel O p q -> parrel O (p_recover p) (p_recover q).
Proof.
  intros H s s' Hs. unfold p_recover. pose proof (H s s' Hs) as G. destruct (p s) as [es2 a2 alt2 r2|es2 e2|], (q s') as [fs2 b2 balt2 br2|fs2 f2|]; cbn in G; try contradiction; try exact G.
  destruct G as (G1 & G2). apply (retry_rel O); auto. destruct Hs; [constructor|assumption].
Qed.

(** ** Single tokens *)
Definition fixed (x : token) : Prop := match x with
  | TGlobalName _ | TLocalName _ | TDebugRef _ | TNum _ | THexNum _ | TStr _ | TFuncModifier _ => False
  | TType w => w = str "int1"
  | TIdent w => In w special_words
  | _ => True end.
Lemma similar_fixed a b x : resembles a b -> fixed x -> (a = x <-> b = x).
Proof.
  intros [->|H] Hx; [tauto|]. destruct a, b; try contradiction; split; intros E; subst x; cbn [fixed] in Hx; try contradiction; (destruct H as [[H1 H2] [H3 H4]]; contradiction) || (destruct H as [H1 H2]; contradiction).
Qed.
Lemma eqb_fixed a b x : resembles a b -> fixed x -> token_eqb a x = token_eqb b x.
Proof.
  intros H Hx. pose proof (similar_fixed _ _ _ H Hx) as G.
  destruct (token_eqb a x) eqn:E1, (token_eqb b x) eqn:E2; try reflexivity; exfalso.
  - destruct (token_eqb_spec a x), (token_eqb_spec b x); try discriminate; tauto.
  - destruct (token_eqb_spec a x), (token_eqb_spec b x); try discriminate; tauto.
Qed.
Lemma just_rel x : fixed x -> parrel (fun a b => a = x /\ b = x) (p_just token_eqb eoi x) (p_just token_eqb eoi' x).
Proof.
  intros Hx s s' Hs. destruct Hs as [|[y sp] [z sp'] s s' Ht Hs].
  - cbn [p_just prel]. split; [constructor|]. apply err_here_rel. constructor.
  - pose proof (HT _ _ Ht) as Hsim. cbn [fst] in Hsim. unfold p_just. rewrite (eqb_fixed _ _ _ Hsim Hx). destruct (token_eqb z x).
    + cbn. repeat split; auto.
    + cbn [prel]. split; [constructor|]. apply (err_here_rel (_ :: s) (_ :: s')). constructor; assumption.
Qed.
Lemma none_of_rel xs : Forall fixed xs -> parrel resembles (p_none_of token_eqb eoi xs) (p_none_of token_eqb eoi' xs).
Proof.
  intros Hx s s' Hs. destruct Hs as [|[y sp] [z sp'] s s' Ht Hs].
  - cbn [p_none_of prel]. split; [constructor|]. apply err_here_rel. constructor.
  - pose proof (HT _ _ Ht) as Hsim. cbn [fst] in Hsim. unfold p_none_of.
    assert (existsb (token_eqb y) xs = existsb (token_eqb z) xs) as ->.
    { clear - Hx Hsim. induction Hx as [|x xs Hx _ IH]; [reflexivity|]. cbn. rewrite (eqb_fixed _ _ _ Hsim Hx), IH. reflexivity. }
    destruct (existsb (token_eqb z) xs).
    + cbn [prel]. split; [constructor|]. apply (err_here_rel (_ :: s) (_ :: s')). constructor; assumption.
    + cbn. repeat split; auto.
Qed.
Lemma any_rel : parrel resembles (p_any eoi) (p_any eoi').
Proof.
  intros s s' Hs. destruct Hs as [|[y sp] [z sp'] s s' Ht Hs].
  - cbn. split; [constructor|]. apply (err_here_rel [] []). constructor.
  - cbn. repeat split; [constructor|apply (HT _ _ Ht)|exact Hs].
Qed.
Lemma filter_map_rel {A B} (O : A -> B -> Prop) (f : span -> token -> A + text) (g : span -> token -> B + text) :
  (forall a b, T a b -> match f (snd a) (fst a), g (snd b) (fst b) with inl x, inl y => O x y | inr x, inr y => x = y | _, _ => False end) ->
  parrel O (p_filter_map eoi f) (p_filter_map eoi' g).
Proof.
  intros H s s' Hs. destruct Hs as [|[y sp] [z sp'] s s' Ht Hs].
  - cbn [p_filter_map prel]. split; [constructor|]. apply (err_here_rel [] []). constructor.
  - specialize (H _ _ Ht). cbn [fst snd] in H. unfold p_filter_map. destruct (f sp y), (g sp' z); try contradiction.
    + cbn. repeat split; auto.
    + subst. cbn. split; [constructor|]. split; [cbn; f_equal; apply srel_length; exact Hs|]. unfold serr, same_errors. cbn. repeat split. left. split; exists (y, sp), (z, sp'); auto.
Qed.
Lemma end_rel : parrel (fun _ _ => True) (p_end eoi) (p_end eoi').
Proof.
  intros s s' Hs. destruct Hs as [|[y sp] [z sp'] s s' Ht Hs]; [cbn; repeat split; constructor|].
  cbn [p_end prel]. split; [constructor|]. apply (err_here_rel (_ :: s) (_ :: s')). constructor; assumption.
Qed.

(** ** Spans *)
Definition fails_nil {A} (p : list (token * span) -> pres token A) : Prop := forall es a alt r, p [] <> POk es a alt r.
Lemma span_since_rel x y s s' r r' : T x y -> srel s s' -> srel r r' -> ranges T (span_since eoi (x :: s) r) (span_since eoi' (y :: s') r').
Proof.
  intros Hxy Hs Hr. destruct x as [t sp], y as [t' sp']. unfold span_since. split; cbn [sp_start sp_end].
  - exists (t, sp), (t', sp'). auto.
  - assert (srel (firstn (length ((t, sp) :: s) - length r) ((t, sp) :: s)) (firstn (length ((t', sp') :: s') - length r') ((t', sp') :: s'))) as H.
    { pose proof (srel_length _ _ Hr) as E1. pose proof (srel_length _ _ Hs) as E2. cbn [length]. unfold stoken in *. rewrite E1, E2.
      generalize (S (length s') - length r'). intros n. assert (srel ((t, sp) :: s) ((t', sp') :: s')) as G by (constructor; assumption).
      revert G. generalize ((t, sp) :: s) ((t', sp') :: s'). clear. induction n as [|n IH]; intros l m G; [constructor|]. destruct G; cbn; constructor; auto. apply IH. assumption. }
    assert (Forall2 T (rev (firstn (length ((t, sp) :: s) - length r) ((t, sp) :: s))) (rev (firstn (length ((t', sp') :: s') - length r') ((t', sp') :: s')))) as G.
    { revert H. generalize (firstn (length ((t, sp) :: s) - length r) ((t, sp) :: s)) (firstn (length ((t', sp') :: s') - length r') ((t', sp') :: s')). clear.
      intros l m H. induction H; [constructor|]. cbn. apply Forall2_app; [assumption|]. constructor; [assumption|constructor]. }
    unfold last_end, stoken in *. destruct G as [|[a sa] [b sb] ? ? Hab _].
    + exists (t, sp), (t', sp'). auto.
    + exists (a, sa), (b, sb). auto.
Qed.
Lemma map_with_span_rel {A B C D} (O : A -> B -> Prop) (Q : C -> D -> Prop) p q f g : parrel O p q -> fails_nil p ->
  (forall a b sp sp', O a b -> ranges T sp sp' -> Q (f a sp) (g b sp')) -> parrel Q (p_map_with_span eoi p f) (p_map_with_span eoi' q g).
Proof.
  intros H Hn Hf s s' Hs. unfold p_map_with_span. pose proof (H s s' Hs) as G. destruct Hs as [|x y s s' Hxy Hs].
  - unfold stoken in *. destruct (p []) eqn:E, (q []) eqn:E'; cbn in G; try contradiction; try exact G.
    destruct (Hn _ _ _ _ E).
  - unfold stoken in *. destruct (p (x :: s)), (q (y :: s')); cbn in G; try contradiction; try exact G. destruct G as (G1 & G2 & G3 & G4). cbn [prel].
    split; [exact G1|]. split; [|auto]. apply Hf; [exact G2|]. apply span_since_rel; assumption.
Qed.
Lemma one_token (y : token) sp r : span_since eoi ((y, sp) :: r) r = sp.
Proof.
  unfold span_since. cbn [length]. replace (S (length r) - length r) with 1 by lia. destruct sp. reflexivity.
Qed.
End Rel.

Section Rel2.
Variables eoi eoi' : span.
Variable T : stoken -> stoken -> Prop.
Hypothesis HT : forall a b, T a b -> resembles (fst a) (fst b).
Notation parrel := (parrel eoi eoi' T).

Lemma just_span_rel {A B} (Q : A -> B -> Prop) x f g : fixed x -> (forall sp sp', T (x, sp) (x, sp') -> Q (f x sp) (g x sp')) ->
  parrel Q (p_map_with_span eoi (p_just token_eqb eoi x) f) (p_map_with_span eoi' (p_just token_eqb eoi' x) g).
Proof.
  intros Hx Hf s s' Hs. unfold p_map_with_span. pose proof (just_rel eoi eoi' T HT x Hx s s' Hs) as G. destruct Hs as [|[y sp] [z sp'] s s' Hxy Hs].
  - exact G.
  - unfold p_just in *. destruct (token_eqb_spec y x) as [->|]; destruct (token_eqb_spec z x) as [->|]; cbn in G; try contradiction; [|exact G].
    cbn [prel]. split; [constructor|]. split; [|split; [exact I|exact Hs]]. rewrite !one_token. apply Hf. exact Hxy.
Qed.
Lemma none_of_span_rel {A B} (Q : A -> B -> Prop) xs f g : Forall fixed xs -> (forall a b, T a b -> Q (f (fst a) (snd a)) (g (fst b) (snd b))) ->
  parrel Q (p_map_with_span eoi (p_none_of token_eqb eoi xs) f) (p_map_with_span eoi' (p_none_of token_eqb eoi' xs) g).
Proof.
  intros Hx Hf s s' Hs. unfold p_map_with_span. pose proof (none_of_rel eoi eoi' T HT xs Hx s s' Hs) as G. destruct Hs as [|[y sp] [z sp'] s s' Hxy Hs].
  - exact G.
  - unfold p_none_of in *. destruct (existsb (token_eqb y) xs), (existsb (token_eqb z) xs); cbn in G; try contradiction; [exact G|].
    cbn [prel]. split; [constructor|]. split; [|split; [exact I|exact Hs]]. rewrite !one_token. apply (Hf _ _ Hxy).
Qed.
Lemma validate_rel {A B} (O : A -> B -> Prop) p q f g : parrel O p q -> fails_nil p -> (forall a b, O a b -> f a = g b) ->
  parrel O (p_validate eoi p f) (p_validate eoi' q g).
Proof.
  intros H Hn Hf s s' Hs. unfold p_validate. pose proof (H s s' Hs) as G. destruct Hs as [|x y s s' Hxy Hs].
  - unfold stoken in *. destruct (p []) eqn:E, (q []) eqn:E'; cbn in G; try contradiction; try exact G. destruct (Hn _ _ _ _ E).
  - unfold stoken in *. destruct (p (x :: s)), (q (y :: s')); cbn in G; try contradiction; try exact G. destruct G as (G1 & G2 & G3 & G4). rewrite <- (Hf _ _ G2). destruct (f out).
    + cbn [prel]. split; [|auto]. apply Forall2_app; [exact G1|]. constructor; [|constructor]. split; [apply (srel_length _ _ _ G4)|]. unfold serr, same_errors. cbn. repeat split. left. apply (span_since_rel eoi eoi' T); assumption.
    + cbn [prel]. auto.
Qed.

(** ** The grammar *)
Lemma fixed_word w : In w special_words -> fixed (TIdent w).
Proof. exact (fun H => H). Qed.
Ltac fx := first [exact I | reflexivity | apply fixed_word; cbn; tauto].
Ltac fxs := repeat (constructor; [fx|]); constructor.
Lemma sim_ok f g (mk : spanned -> stoken) msg :
  (forall sp t, (exists x, f sp t = inl (x, sp) /\ mk (x, sp) = (t, sp)) \/ f sp t = inr msg) ->
  (forall sp sp' t t', resembles t t' -> match f sp t, g sp' t' with inl _, inl _ => True | inr x, inr y => x = y | _, _ => False end) ->
  (forall sp t, f sp t = g sp t) ->
  parrel (named T mk) (p_filter_map eoi f) (p_filter_map eoi' g).
Proof.
  intros H1 H2 H3. apply filter_map_rel; [exact HT|]. intros [t sp] [t' sp'] Hab. cbn [fst snd]. specialize (H2 sp sp' t t' (HT _ _ Hab)).
  pose proof (H1 sp t) as K1. pose proof (H1 sp' t') as K2. rewrite <- H3 in *.
  destruct K1 as [(x & E1 & M1)|E1], K2 as [(y & E2 & M2)|E2]; rewrite E1, E2 in *; try contradiction; [|reflexivity].
  unfold named. rewrite M1, M2. exact Hab.
Qed.
Ltac sim1 m := apply sim_ok with (msg := m); [intros sp t; destruct t; ((right; reflexivity) || (left; eexists; split; reflexivity))
  | intros sp sp' t t' [->|H]; [destruct t'; first [exact I|reflexivity]|destruct t, t'; try contradiction; first [exact I|reflexivity]]|reflexivity].
Lemma modifier_rel : parrel (named T tmod) (g_func_modifier eoi) (g_func_modifier eoi').
Proof. unfold g_func_modifier. sim1 (str "expected function modifier"). Qed.
Lemma global_rel : parrel (named T tglobal) (g_global_name eoi) (g_global_name eoi').
Proof. unfold g_global_name. sim1 (str "expected global name"). Qed.
Lemma local_rel : parrel (named T tlocal) (g_local_name eoi) (g_local_name eoi').
Proof. unfold g_local_name. sim1 (str "expected local name"). Qed.
Lemma type_rel : parrel (named T ttype) (g_type eoi) (g_type eoi').
Proof. unfold g_type. sim1 (str "expected type name"). Qed.
Lemma ident_rel : parrel (named T tident) (g_ident eoi) (g_ident eoi').
Proof. unfold g_ident. sim1 (str "expected global name"). Qed.
Lemma dbg_rel : parrel (named T tdbg) (g_dbg_ref eoi) (g_dbg_ref eoi').
Proof. unfold g_dbg_ref. sim1 (str "expected dbgref"). Qed.
Lemma hex_rel : parrel (named T thex) (g_hexnum eoi) (g_hexnum eoi').
Proof. unfold g_hexnum. sim1 (str "expected a hexadecimal number"). Qed.
(** parsers that need a token *)
Lemma fn_just x : fails_nil (p_just token_eqb eoi x).
Proof. intros es a alt r. cbn. discriminate. Qed.
Lemma fn_none_of xs : fails_nil (p_none_of token_eqb eoi xs).
Proof. intros es a alt r. cbn. discriminate. Qed.
Lemma fn_filter_map {A} (f : span -> token -> A + text) : fails_nil (p_filter_map eoi f).
Proof. intros es a alt r. cbn. discriminate. Qed.
Lemma fn_map {A B} p (f : A -> B) : fails_nil p -> fails_nil (p_map p f).
Proof. intros H es a alt r. unfold p_map. destruct (p []) eqn:E; try discriminate. destruct (H _ _ _ _ E). Qed.
Lemma fn_mws {A B} p (f : A -> span -> B) : fails_nil p -> fails_nil (p_map_with_span eoi p f).
Proof. intros H es a alt r. unfold p_map_with_span. destruct (p []) eqn:E; try discriminate. destruct (H _ _ _ _ E). Qed.
Lemma fn_validate {A} p (f : A -> option text) : fails_nil p -> fails_nil (p_validate eoi p f).
Proof. intros H es a alt r. unfold p_validate. destruct (p []) eqn:E; try discriminate. destruct (H _ _ _ _ E). Qed.
Lemma fn_then {A B} (p : _ -> pres token A) (q : _ -> pres token B) : fails_nil p -> fails_nil (p_then p q).
Proof. intros H es a alt r. unfold p_then. destruct (p []) eqn:E; try discriminate. destruct (H _ _ _ _ E). Qed.
Lemma fn_or_not_then {A B} (p : _ -> pres token A) (q : _ -> pres token B) : fails_nil p -> fails_nil q -> fails_nil (p_then (p_or_not p) q).
Proof.
  intros H H' es a alt r. unfold p_then, p_or_not. destruct (p []) eqn:E; try discriminate; [destruct (H _ _ _ _ E)|].
  destruct (q []) eqn:E'; try discriminate. destruct (H' _ _ _ _ E').
Qed.
Lemma fn_or {A} (p q : _ -> pres token A) : fails_nil p -> fails_nil q -> fails_nil (p_or p q).
Proof.
  intros H H' es a alt r. unfold p_or. destruct (p []) eqn:E; try discriminate; [destruct (H _ _ _ _ E)|].
  destruct (q []) eqn:E'; try discriminate; [destruct (H' _ _ _ _ E')|]. destruct (_ <? _); [discriminate|]. destruct (_ <? _); discriminate.
Qed.
Lemma fn_then_ignore {A B} (p : _ -> pres token A) (q : _ -> pres token B) : fails_nil p -> fails_nil (p_then_ignore p q).
Proof. intros H. apply fn_map, fn_then, H. Qed.
Lemma fn_ignore_then {A B} (p : _ -> pres token A) (q : _ -> pres token B) : fails_nil p -> fails_nil (p_ignore_then p q).
Proof. intros H. apply fn_map, fn_then, H. Qed.
Ltac fn := repeat first [apply fn_then_ignore | apply fn_ignore_then | apply fn_or_not_then | apply fn_then | apply fn_validate | apply fn_or | apply fn_mws | apply fn_map | apply fn_just | apply fn_none_of | apply fn_filter_map].

Lemma kw_rel k : In k special_words -> parrel (named T tident) (g_kw_spanned eoi k) (g_kw_spanned eoi' k).
Proof. intros H. unfold g_kw_spanned. apply just_span_rel; [exact (fixed_word _ H)|]. intros sp sp' Ht. exact Ht. Qed.
Lemma eol_rel : parrel (fun _ _ => True) (g_eol eoi) (g_eol eoi').
Proof.
  unfold g_eol. apply or_rel.
  - intros s s' Hs. pose proof (just_rel eoi eoi' T HT TNewline I s s' Hs) as G. destruct (p_just token_eqb eoi TNewline s), (p_just token_eqb eoi' TNewline s'); cbn in *; tauto.
  - unfold p_to. eapply map_rel; [apply end_rel; exact HT|]. auto.
Qed.
Lemma soup_rel : parrel (Forall2 T) (g_token_soup eoi) (g_token_soup eoi').
Proof.
  unfold g_token_soup. apply repeated_rel. apply none_of_span_rel; [fxs|]. intros [a sa] [b sb] H. exact H.
Qed.
Ltac nat := repeat first
  [ apply kw_rel; cbn; tauto | apply modifier_rel | apply global_rel | apply local_rel | apply type_rel | apply ident_rel | apply dbg_rel | apply hex_rel
  | apply soup_rel | apply eol_rel | apply any_rel; exact HT | apply end_rel; exact HT
  | eapply then_ignore_rel | eapply ignore_then_rel | eapply padded_rel | eapply delimited_rel | eapply then_rel | eapply or_not_rel | eapply separated_rel | eapply rewind_rel
  | eapply repeated_rel | eapply repeated_at_least_rel
  | apply just_rel; [exact HT|fx] | apply none_of_rel; [exact HT|fxs] ].
Lemma global_var_rel : parrel (same_stmt T) (g_global_var eoi) (g_global_var eoi').
Proof. unfold g_global_var. eapply map_rel; [nat|]. intros [a1 a2] [b1 b2] [H1 H2]. split; assumption. Qed.
Lemma dbg_annotation_rel : parrel (same_stmt T) (g_dbg_annotation eoi) (g_dbg_annotation eoi').
Proof. unfold g_dbg_annotation. eapply map_rel; [nat|]. intros [a1 a2] [b1 b2] [H1 H2]. split; assumption. Qed.
Lemma func_deps_rel : parrel (same_stmt T) (g_func_deps eoi) (g_func_deps eoi').
Proof. unfold g_func_deps. eapply map_rel; [nat|]. intros [a1 a2] [b1 b2] [H1 H2]. split; assumption. Qed.
Lemma func_args_rel : parrel (Forall2 (same_arg T)) (g_func_args eoi) (g_func_args eoi').
Proof.
  unfold g_func_args. eapply separated_rel; [|nat]. unfold g_func_arg. eapply map_rel; [nat|]. intros [a1 a2] [b1 b2] [H1 H2]. split; assumption.
Qed.
Lemma signature_rel : parrel (same_sig T) (g_func_signature eoi) (g_func_signature eoi').
Proof.
  unfold g_func_signature. eapply map_rel; [repeat first [apply func_args_rel|eapply then_rel|eapply delimited_rel|nat]|].
  intros [[[a1 a2] a3] a4] [[[b1 b2] b3] b4] [[[H1 H2] H3] H4]. cbn in *. repeat split; assumption.
Qed.
Lemma func_decl_rel : parrel (same_stmt T) (g_func_decl eoi) (g_func_decl eoi').
Proof.
  unfold g_func_decl, g_func_addr. eapply map_rel; [repeat first [apply signature_rel|eapply then_rel|eapply then_ignore_rel|eapply ignore_then_rel|nat]|].
  intros [[a1 a2] a3] [[b1 b2] b3] [[H1 H2] H3]. cbn in *. repeat split; try assumption; apply H1.
Qed.
Lemma nl_ahead_rel : parrel (fun a b => a = TNewline /\ b = TNewline) (g_nl_ahead eoi) (g_nl_ahead eoi').
Proof. unfold g_nl_ahead. nat. Qed.
Ltac nati := repeat first [apply nl_ahead_rel|eapply then_rel|eapply then_ignore_rel|eapply ignore_then_rel|eapply separated_rel|nat].
Ltac instr_ok := unfold same_instr; cbn [i_target i_instr i_refs i_dbg i_span]; repeat split; try assumption; try exact I; repeat (constructor; try assumption).
Lemma br_rel : parrel (same_instr T) (g_br eoi) (g_br eoi').
Proof.
  unfold g_br. eapply map_with_span_rel; [nati|unfold g_kw_spanned; fn|].
  intros [[a1 a2] a3] [[b1 b2] b3] sp sp' [[H1 H2] H3] Hr. cbn in *. instr_ok; apply Hr.
Qed.
Lemma condbr_rel : parrel (same_instr T) (g_condbr eoi) (g_condbr eoi').
Proof.
  unfold g_condbr. eapply map_with_span_rel; [nati|unfold g_kw_spanned; fn|].
  intros [[[a1 a2] a3] a4] [[[b1 b2] b3] b4] sp sp' [[[H1 H2] H3] H4] Hr. cbn in *. instr_ok; apply Hr.
Qed.
Lemma weaken_rel {A B} (O Q : A -> B -> Prop) p q : parrel O p q -> (forall a b, O a b -> Q a b) -> parrel Q p q.
Proof.
  intros H Hw s s' Hs. specialize (H s s' Hs). destruct (p s), (q s'); cbn in *; try contradiction; auto. intuition auto.
Qed.
Lemma skip_rel w : In w special_words -> parrel (Forall2 (fun _ _ => True)) (g_skip_to eoi w) (g_skip_to eoi' w).
Proof.
  intros Hw. unfold g_skip_to. apply repeated_rel, or_rel.
  - eapply weaken_rel; [nat|auto].
  - eapply weaken_rel; [eapply then_ignore_rel; [nat|apply none_of_rel; [exact HT|]]|auto]. constructor; [exact (fixed_word _ Hw)|constructor].
Qed.
Lemma ends_br_rel x y : named T tident x y -> ends_with (fst x) (str "br") = ends_with (fst y) (str "br").
Proof.
  intros H. apply HT in H. cbn [tident fst] in H. destruct H as [E|H]; [injection E as E; rewrite E; reflexivity|]. destruct H as [[_ H1] [_ H2]].
  assert (forall w, (~ exists p, w = p ++ str "br") -> ends_with w (str "br") = false) as G; [|rewrite !G by assumption; reflexivity].
  intros w Hw. destruct (ends_with w (str "br")) eqn:E; [|reflexivity]. exfalso. apply Hw. apply ends_with_spec. exact E.
Qed.
Ltac nats := repeat first [apply nl_ahead_rel|apply skip_rel; cbn; tauto|eapply then_rel|eapply then_ignore_rel|eapply ignore_then_rel|eapply separated_rel|nat].
Lemma overflow_rel : parrel (same_instr T) (g_overflowbr eoi) (g_overflowbr eoi').
Proof.
  unfold g_overflowbr. eapply map_with_span_rel; [|unfold g_ident; fn|].
  - repeat first [apply nl_ahead_rel|apply skip_rel; cbn; tauto|eapply then_rel|eapply then_ignore_rel|eapply validate_rel; [apply ident_rel|unfold g_ident; fn|]|nat].
    intros a b H. rewrite (ends_br_rel _ _ H). reflexivity.
  - intros [[[a1 a2] a3] a4] [[[b1 b2] b3] b4] sp sp' [[[H1 H2] H3] H4] Hr. cbn in *. instr_ok; apply Hr.
Qed.
Lemma switch_rel : parrel (same_instr T) (g_switch eoi) (g_switch eoi').
Proof.
  unfold g_switch, g_switch_case. eapply map_with_span_rel; [nats|unfold g_kw_spanned; fn|].
  intros [[[a1 a2] a3] a4] [[[b1 b2] b3] b4] sp sp' [[[H1 H2] H3] H4] Hr. cbn in *. instr_ok; apply Hr.
Qed.
Lemma phi_rel : parrel (same_instr T) (g_phi eoi) (g_phi eoi').
Proof.
  unfold g_phi, g_phi_entry. eapply map_with_span_rel; [nats|unfold g_kw_spanned; fn|].
  intros [[a1 a2] a3] [[b1 b2] b3] sp sp' [[H1 H2] H3] Hr. cbn in *. instr_ok; apply Hr.
Qed.
Lemma any_instr_rel : parrel (same_instr T) (g_any_instr eoi) (g_any_instr eoi').
Proof.
  unfold g_any_instr. eapply map_with_span_rel; [|unfold g_ident; fn|].
  - repeat first [apply nl_ahead_rel|eapply then_rel|eapply then_ignore_rel|nat]. eapply not_rel; [exact HT|]. apply (or_rel eoi eoi' T (fun _ _ => True)).
    + unfold p_to. eapply map_rel; [nat|auto].
    + unfold p_to. eapply map_rel; [nat|auto].
  - intros [a1 a2] [b1 b2] sp sp' [H1 H2] Hr. cbn in *. instr_ok; apply Hr.
Qed.
Lemma alternatives_rel : parrel (same_instr T) (g_instr_alternatives eoi) (g_instr_alternatives eoi').
Proof. unfold g_instr_alternatives. repeat apply or_rel; [apply br_rel|apply condbr_rel|apply overflow_rel|apply switch_rel|apply phi_rel|apply any_instr_rel]. Qed.
Lemma fn_alternatives : fails_nil (g_instr_alternatives eoi).
Proof. unfold g_instr_alternatives, g_br, g_condbr, g_overflowbr, g_switch, g_phi, g_any_instr, g_kw_spanned, g_ident. fn. Qed.
Lemma instruction_rel : parrel (same_instr T) (g_instruction eoi) (g_instruction eoi').
Proof.
  unfold g_instruction. eapply map_with_span_rel.
  - eapply then_rel; [|apply alternatives_rel]. nat.
  - apply fn_or_not_then; [unfold g_type; fn|apply fn_alternatives].
  - intros [a1 a2] [b1 b2] sp sp' [H1 H2] Hr. destruct H2 as (G1 & G2 & G3 & G4 & G5). cbn in *. unfold same_instr. cbn. repeat split; try assumption; apply Hr.
Qed.
Lemma olast_rel {A B} (R : A -> B -> Prop) l m : Forall2 R l m -> both R (olast l) (olast m).
Proof.
  intros H. assert (Forall2 R (rev l) (rev m)) as G.
  { induction H; [constructor|]. cbn. apply Forall2_app; [assumption|]. constructor; [assumption|constructor]. }
  unfold olast. destruct G; [exact I|assumption].
Qed.
Lemma padded_instr_rel : parrel (same_instr T) (p_padded_by (g_instruction eoi) (g_nls eoi)) (p_padded_by (g_instruction eoi') (g_nls eoi')).
Proof. unfold g_nls. eapply padded_rel; [apply instruction_rel|nat]. Qed.
Lemma basic_block_rel : parrel (same_block T) (g_basic_block eoi) (g_basic_block eoi').
Proof.
  unfold g_basic_block, g_nls1. eapply map_rel.
  - eapply then_rel; [|apply repeated_rel, padded_instr_rel]. eapply then_ignore_rel; [|nat]. eapply then_rel; [apply ident_rel|].
    apply (just_span_rel (fun s s' => T (tp (ch ":") s) (tp (ch ":") s'))); [fx|]. intros sp sp' H. exact H.
  - intros [[a1 a2] a3] [[b1 b2] b3] [[H1 H2] H3]. cbn [fst snd] in *. unfold same_block, mk_labelled_bb. cbn [bb_label bb_label_comma bb_instrs bb_span both].
    split; [exact H1|]. split; [exact H2|]. split; [exact H3|]. pose proof (olast_rel _ _ _ H3) as Ho. split; cbn [sp_start sp_end].
    + exists (tident a1), (tident b1). auto.
    + destruct (olast a3), (olast b3); try contradiction; [apply Ho|]. exists (tident a1), (tident b1). auto.
Qed.
Lemma rep_length {A} (p : _ -> pres token A) n es os alt r : forall fuel st old es0 os0 alt0, p_rep fuel p n old es0 os0 alt0 st = POk es os alt r -> n <= length os.
Proof.
  induction fuel as [|fuel IH]; intros st old es0 os0 alt0 H; [discriminate|]. cbn [p_rep] in H. destruct (p st); try discriminate.
  - destruct (match old with Some k => _ | None => _ end); [discriminate|]. apply IH in H. exact H.
  - destruct (length os0 <? n) eqn:E; [discriminate|]. injection H as <- <- <- <-. apply Nat.ltb_ge in E. exact E.
Qed.
Lemma at_least_nonempty {A} (p : _ -> pres token A) s es os alt r : p_repeated_at_least 1 p s = POk es os alt r -> os <> [].
Proof. unfold p_repeated_at_least. intros H ->. apply rep_length in H. cbn in H. lia. Qed.
Lemma initial_rel : parrel (same_block T) (p_map (p_repeated_at_least 1 (p_padded_by (g_instruction eoi) (g_nls eoi))) mk_initial_bb)
  (p_map (p_repeated_at_least 1 (p_padded_by (g_instruction eoi') (g_nls eoi'))) mk_initial_bb).
Proof.
  intros s s' Hs. pose proof (repeated_at_least_rel eoi eoi' T _ _ _ 1 padded_instr_rel s s' Hs) as G. unfold p_map.
  destruct (p_repeated_at_least 1 _ s) as [es os alt r| |] eqn:E, (p_repeated_at_least 1 _ s') as [es' os' alt' r'| |]; cbn in G; try contradiction; try exact G.
  destruct G as (G1 & G2 & G3 & G4). cbn [prel]. split; [exact G1|]. split; [|auto]. unfold same_block, mk_initial_bb. cbn [bb_label bb_label_comma bb_instrs bb_span both].
  split; [exact I|]. split; [exact I|]. split; [exact G2|]. assert (os <> []) as Hne by (eapply at_least_nonempty; exact E).
  pose proof (olast_rel _ _ _ G2) as Ho. destruct G2 as [|x y os os' Hxy G2]; [congruence|]. split; cbn [sp_start sp_end]; [apply Hxy|].
  destruct (olast (x :: os)) eqn:E1, (olast (y :: os')); try contradiction; [apply Ho|]. exfalso. unfold olast in E1. destruct (rev (x :: os)) eqn:E2; [|discriminate].
  apply (f_equal (@length _)) in E2. rewrite rev_length in E2. discriminate.
Qed.
Lemma func_body_rel : parrel (same_body T) (g_func_body eoi) (g_func_body eoi').
Proof.
  unfold g_func_body, g_nls1. eapply map_rel.
  - eapply then_rel; [|apply (just_span_rel (fun s s' => T (tp (ch "}") s) (tp (ch "}") s'))); [fx|intros sp sp' H; exact H]].
    eapply then_rel; [|apply repeated_rel, basic_block_rel]. eapply then_rel; [|apply or_not_rel, initial_rel].
    eapply then_ignore_rel; [apply (just_span_rel (fun s s' => T (tp (ch "{") s) (tp (ch "{") s'))); [fx|intros sp sp' H; exact H]|nat].
  - intros [[[a1 a2] a3] a4] [[[b1 b2] b3] b4] [[[H1 H2] H3] H4]. cbn in *. split; [exact H1|]. split; [exact H4|].
    cbn [fb_blocks]. destruct a2, b2; try contradiction; [constructor; assumption|exact H3].
Qed.
Lemma func_def_rel : parrel (same_stmt T) (g_func_def eoi) (g_func_def eoi').
Proof.
  unfold g_func_def. eapply map_rel.
  - eapply then_ignore_rel; [|apply eol_rel]. eapply then_rel; [|apply func_body_rel]. eapply then_rel; [|apply signature_rel].
    apply (just_span_rel (fun s s' => T (TDefine, s) (TDefine, s'))); [fx|intros sp sp' H; exact H].
  - intros [[a1 a2] a3] [[b1 b2] b3] [[H1 H2] H3]. cbn in *. auto.
Qed.
Lemma module_rel : parrel (Forall2 (same_stmt T)) (g_module eoi) (g_module eoi').
Proof.
  unfold g_module. eapply then_ignore_rel; [|apply end_rel; exact HT]. apply repeated_rel, recover_rel. unfold g_statement, g_nls. eapply padded_rel; [|nat].
  repeat apply or_rel; [apply global_var_rel|apply func_decl_rel|apply func_def_rel|apply func_deps_rel|apply dbg_annotation_rel].
Qed.
End Rel2.

(** Parsing depends only on the shape of the tokens. *)
Lemma parse_similar_exactly (T : stoken -> stoken -> Prop) src src' toks toks' : (forall a b, T a b -> resembles (fst a) (fst b)) -> Forall2 T toks toks' ->
  match parse_tokens src toks, parse_tokens src' toks' with
  | Val (ss, errs), Val (ss', errs') => both (Forall2 (same_stmt T)) ss ss' /\ Forall2 (serr (ends src) (ends src') T) errs errs'
  | Panic, Panic => True
  | _, _ => False
  end.
Proof.
  intros HT H. unfold parse_tokens, parse_recovery. fold (ends src) (ends src').
  assert (Forall2 T (filter not_comment toks) (filter not_comment toks')) as Hf.
  { induction H as [|a b l m Hab H IH]; [constructor|]. cbn [filter]. assert (not_comment a = not_comment b) as ->.
    { unfold not_comment. f_equal. apply eqb_fixed; [apply HT; exact Hab|exact I]. }
    destruct (not_comment b); [constructor; assumption|exact IH]. }
  refine ((_ : forall x y, prel (ends src) (ends src') T (Forall2 (same_stmt T)) x y ->
    match match x with POk es a _ _ => Val (Some a, map l_err es) | PErr es e => Val (None, map l_err (es ++ [e])) | PPanic => Panic end,
          match y with POk es a _ _ => Val (Some a, map l_err es) | PErr es e => Val (None, map l_err (es ++ [e])) | PPanic => Panic end with
    | Val (ss, errs), Val (ss', errs') => both (Forall2 (same_stmt T)) ss ss' /\ Forall2 (serr (ends src) (ends src') T) errs errs'
    | Panic, Panic => True
    | _, _ => False end) _ _ (module_rel (ends src) (ends src') T HT _ _ Hf)). clear Hf. intros x y G.
  destruct x as [es a alt r|es e|], y as [es' a' alt' r'|es' e'|]; cbn in G; try contradiction; try exact I.
  - destruct G as (G1 & G2 & _). split; [exact G2|]. clear - G1. induction G1 as [|x y l m Hxy _ IH]; [constructor|]. cbn. constructor; [apply Hxy|exact IH].
  - destruct G as (G1 & G2). split; [exact I|]. rewrite !map_app. apply Forall2_app; [|constructor; [apply G2|constructor]]. clear - G1. induction G1 as [|x y l m Hxy _ IH]; [constructor|]. cbn. constructor; [apply Hxy|exact IH].
Qed.
Lemma parse_similar (T : stoken -> stoken -> Prop) src src' toks toks' : (forall a b, T a b -> similar (fst a) (fst b)) -> Forall2 T toks toks' ->
  match parse_tokens src toks, parse_tokens src' toks' with
  | Val (ss, errs), Val (ss', errs') => both (Forall2 (same_stmt T)) ss ss' /\ Forall2 (same_error T (ends src) (ends src')) errs errs'
  | Panic, Panic => True
  | _, _ => False
  end.
Proof.
  intros HT H. pose proof (parse_similar_exactly T src src' toks toks' (fun a b G => similar_resembles _ _ (HT _ _ G)) H) as G.
  destruct (parse_tokens src toks) as [[ss errs]|], (parse_tokens src' toks') as [[ss' errs']|]; try exact G.
  destruct G as [G1 G2]. split; [exact G1|]. clear - G2 HT. induction G2 as [|a b l m [(E1 & E2 & E3 & _) E4] _ IH]; constructor; [|assumption].
  repeat (split; [assumption|]). destruct (e_found a), (e_found b); try exact E4. destruct E4 as (sp & sp' & E4). exact (HT _ _ E4).
Qed.
