(** Renaming to an unused name keeps the bindings. *)
From Verif Require Import Text Rope Chumsky Tokenizer Parser Numbers Index SemTok Diag Rename Cfg Backtrace Server SpecText SpecLex SpecParse SpecIndex SpecDiag SpecBacktrace SpecNumbers SpecCfg SpecView SpecRename SpecPatch SpecSimilar SpecValues SpecRebind
  PParse PParseProps PNumbers PHints PNav PIndex PIndexDoc PIndexText PDiag PRename PRelex PNatural PRetree.

(** ** Corresponding tokens of two documents are in the same order *)
Lemma counterparts_order a b : forall lo hi lo' hi', spans_in lo hi a -> spans_in lo' hi' b -> forall x x' y y', counterparts a b x x' -> counterparts a b y y' ->
  (x = y /\ x' = y') \/ (sp_end (snd x) <= sp_start (snd y) /\ sp_end (snd x') <= sp_start (snd y')) \/ (sp_end (snd y) <= sp_start (snd x) /\ sp_end (snd y') <= sp_start (snd x')).
Proof.
  unfold counterparts. revert b. induction a as [|[t s] a IH]; intros [|[t' s'] b] lo hi lo' hi' Ha Hb x x' y y' Hx Hy; try contradiction.
  destruct Ha as (A1 & A2 & A3), Hb as (B1 & B2 & B3). cbn [combine] in Hx, Hy.
  assert (forall z z', In (z, z') (combine a b) -> sp_end s <= sp_start (snd z) /\ sp_end s' <= sp_start (snd z')) as G.
  { intros z z' Hz. split; eapply spans_in_start; [exact A3|eapply in_combine_l; exact Hz|exact B3|eapply in_combine_r; exact Hz]. }
  destruct Hx as [Ex|Hx], Hy as [Ey|Hy].
  - injection Ex as <- <-. injection Ey as <- <-. auto.
  - injection Ex as <- <-. right. left. apply G, Hy.
  - injection Ey as <- <-. right. right. apply G, Hx.
  - eapply IH; eassumption.
Qed.
Lemma forall2_len {A B} (R : A -> B -> Prop) a b : Forall2 R a b -> length a = length b.
Proof. induction 1; cbn; congruence. Qed.
Lemma forall2_map {A B C D} (R : C -> D -> Prop) (f : A -> C) (g : B -> D) a b : Forall2 (fun x y => R (f x) (g y)) a b -> Forall2 R (map f a) (map g b).
Proof. induction 1; cbn; constructor; auto. Qed.
Lemma forall2_flat_map {A B C D} (R : C -> D -> Prop) (f : A -> list C) (g : B -> list D) a b : Forall2 (fun x y => Forall2 R (f x) (g y)) a b -> Forall2 R (flat_map f a) (flat_map g b).
Proof. induction 1; cbn; [constructor|apply Forall2_app; auto]. Qed.
Lemma forall2_conj {A B} (R S : A -> B -> Prop) a b : Forall2 R a b -> Forall2 S a b -> Forall2 (fun x y => R x y /\ S x y) a b.
Proof. intros H. induction H; intros G; inversion G; subst; constructor; auto. Qed.

Section Two.
Variables (toks toks' : list stoken) (ss ss' : list statement) (hi hi' : nat).
Hypothesis Hsp : spans_in 0 hi toks.
Hypothesis Hsp' : spans_in 0 hi' toks'.
Hypothesis Hk : Forall2 (fun a b => resembles (fst a) (fst b)) toks toks'.
Notation T := (counterparts toks toks').
Hypothesis Hss : Forall2 (same_stmt T) ss ss'.
Lemma order x x' y y' : T x x' -> T y y' ->
  (x = y /\ x' = y') \/ (sp_end (snd x) <= sp_start (snd y) /\ sp_end (snd x') <= sp_start (snd y')) \/ (sp_end (snd y) <= sp_start (snd x) /\ sp_end (snd y') <= sp_start (snd x')).
Proof. eapply counterparts_order; [exact Hsp|exact Hsp']. Qed.
Lemma T_in x x' : T x x' -> In x toks /\ In x' toks'.
Proof. intros H. split; [eapply in_combine_l|eapply in_combine_r]; exact H. Qed.
Lemma T_pos x x' : T x x' -> sp_start (snd x) < sp_end (snd x) /\ sp_start (snd x') < sp_end (snd x').
Proof. intros H. apply T_in in H as [H1 H2]. pose proof (spans_in_each _ _ _ _ Hsp H1). pose proof (spans_in_each _ _ _ _ Hsp' H2). lia. Qed.

Lemma instr_occs_same id i i' : same_instr T i i' -> Forall2 (same_occ T) (instr_occs id i) (instr_occs id i').
Proof.
  intros (H1 & _ & H2 & _). apply Forall2_app.
  - unfold target_occs. destruct (i_target i), (i_target i'); try contradiction; constructor; [|constructor]. split; [reflexivity|]. split; [reflexivity|]. split; [reflexivity|]. exact H1.
  - apply forall2_map. eapply forall2_impl; [|exact H2]. intros x y H. split; [reflexivity|]. split; [reflexivity|]. split; [reflexivity|]. exact H.
Qed.
Lemma block_occs_same id b b' : same_block T b b' -> Forall2 (same_occ T) (block_occs id b) (block_occs id b').
Proof.
  intros (H1 & _ & H2 & _). apply Forall2_app.
  - unfold label_occs. destruct (bb_label b), (bb_label b'); try contradiction; constructor; [|constructor]. split; [reflexivity|]. split; [reflexivity|]. split; [reflexivity|]. exact H1.
  - apply forall2_flat_map. eapply forall2_impl; [|exact H2]. intros x y. apply instr_occs_same.
Qed.
Lemma one_occ ud k b x y : (forall z, occ_token (occ ud k b z) = match k with KGlobalVar | KFunction => tglobal z | KDbgAnnotation => tdbg z | KLabel => tident z | KLocalVar => tlocal z end) /\
  (T (occ_token (occ ud k b x)) (occ_token (occ ud k b y)) -> same_occ T (occ ud k b x) (occ ud k b y)).
Proof. split; [intros z; destruct k; reflexivity|]. intros H. split; [reflexivity|]. split; [reflexivity|]. split; [reflexivity|]. exact H. Qed.
Lemma stmt_occs_same id s s' : same_stmt T s s' -> Forall2 (same_occ T) (stmt_occs id s) (stmt_occs id s').
Proof.
  destruct s as [x d|sig a g|k sig body|x l|x d], s' as [x' d'|sig' a' g'|k' sig' body'|x' l'|x' d']; try contradiction; cbn [same_stmt stmt_occs].
  - intros [H _]. constructor; [|constructor]. apply one_occ. exact H.
  - intros [(_ & _ & H & _) _]. constructor; [|constructor]. apply one_occ. exact H.
  - intros (_ & (_ & _ & H1 & H2) & (_ & _ & H3)). constructor; [apply one_occ; exact H1|]. apply Forall2_app.
    + unfold param_occs. apply forall2_map. eapply forall2_impl; [|exact H2]. intros x y [_ H]. apply one_occ. exact H.
    + apply forall2_flat_map. eapply forall2_impl; [|exact H3]. intros x y. apply block_occs_same.
  - constructor.
  - intros [H _]. constructor; [|constructor]. apply one_occ. exact H.
Qed.
Lemma tree_occs_same : forall id, Forall2 (same_occ T) (tree_occs id ss) (tree_occs id ss').
Proof.
  induction Hss as [|s s' r r' H F IH]; intros id; cbn [tree_occs]; [constructor|]. apply Forall2_app; [apply stmt_occs_same, H|].
  assert (is_def s' = is_def s) as -> by (destruct s, s'; contradiction || reflexivity). 
  apply (IH F).
Qed.

(** Two names of globals are the same in both documents or in none. *)
Hypothesis Hg : forall n s n' s' m r m' r', T (TGlobalName n, s) (TGlobalName n', s') -> T (TGlobalName m, r) (TGlobalName m', r') -> (n = m <-> n' = m').
Lemma is_function_same n s n' s' : T (TGlobalName n, s) (TGlobalName n', s') -> is_function ss n = is_function ss' n'.
Proof.
  intros H. unfold is_function. induction Hss as [|a b r r' Hab F IH]; [reflexivity|]. cbn [existsb]. rewrite (IH F). f_equal.
  assert (forall x x', named T tglobal x x' -> text_eqb (fst x) n = text_eqb (fst x') n') as G.
  { intros x x' Hx. pose proof (Hg _ _ _ _ _ _ _ _ Hx H) as E. destruct (text_eqb (fst x) n) eqn:E1, (text_eqb (fst x') n') eqn:E2; try reflexivity; exfalso.
    - apply text_eqb_eq in E1. apply text_eqb_neq in E2. tauto.
    - apply text_eqb_eq in E2. apply text_eqb_neq in E1. tauto. }
  destruct a, b; try contradiction; try reflexivity; cbn [declares].
  - destruct Hab as [(_ & _ & Hn & _) _]. apply G, Hn.
  - destruct Hab as (_ & (_ & _ & Hn & _) & _). apply G, Hn.
Qed.
Lemma start_le x x' y y' : T x x' -> T y y' -> (sp_start (snd x) <=? sp_start (snd y)) = (sp_start (snd x') <=? sp_start (snd y')).
Proof.
  intros H G. pose proof (T_pos _ _ H). pose proof (T_pos _ _ G). destruct (order _ _ _ _ H G) as [[-> ->]|E]; [rewrite !Nat.leb_refl; reflexivity|].
  destruct (Nat.leb_spec (sp_start (snd x)) (sp_start (snd y))), (Nat.leb_spec (sp_start (snd x')) (sp_start (snd y'))); reflexivity || (exfalso; lia).
Qed.
Lemma start_end x x' y y' : T x x' -> T y y' -> (sp_start (snd x) <? sp_end (snd y)) = (sp_start (snd x') <? sp_end (snd y')).
Proof.
  intros H G. pose proof (T_pos _ _ H) as P. pose proof (T_pos _ _ G) as Q.
  destruct (Nat.ltb_spec (sp_start (snd x)) (sp_end (snd y))), (Nat.ltb_spec (sp_start (snd x')) (sp_end (snd y'))); try reflexivity;
    exfalso; (destruct (order _ _ _ _ H G) as [[-> ->]|E]; lia).
Qed.
Lemma containing_same t t' : T t t' -> containing (flat_map func_ranges ss) (sp_start (snd t)) = containing (flat_map func_ranges ss') (sp_start (snd t')).
Proof.
  intros H. induction Hss as [|a b r r' Hab F IH]; [reflexivity|]. cbn [flat_map]. specialize (IH F).
  destruct a, b; try contradiction; try exact IH. cbn [func_ranges app containing sp_start sp_end]. destruct Hab as (Hk1 & _ & (_ & Hk2 & _)).
  rewrite IH. rewrite (start_le _ _ _ _ Hk1 H : (sp_start define_kw <=? sp_start (snd t)) = (sp_start define_kw0 <=? sp_start (snd t'))).
  rewrite (start_end _ _ _ _ H Hk2 : (sp_start (snd t) <? sp_end (fb_close body)) = (sp_start (snd t') <? sp_end (fb_close body0))). reflexivity.
Qed.
Lemma token_occs_same t t' : T t t' -> Forall2 (same_occ T) (token_occs ss t) (token_occs ss' t').
Proof.
  intros H. pose proof (combine_forall2 _ _ _ Hk _ _ H) as K. destruct t as [t sp], t' as [t' sp']. cbn [fst] in K. unfold token_occs. cbn [fst snd].
  pose proof (containing_same _ _ H) as C. cbn [snd] in C.
  assert (match t, t' with TGlobalName _, TGlobalName _ | TLocalName _, TLocalName _ | TDebugRef _, TDebugRef _ => True | TGlobalName _, _ | TLocalName _, _ | TDebugRef _, _ | _, TGlobalName _ | _, TLocalName _ | _, TDebugRef _ => False | _, _ => True end) as K'.
  { destruct K as [<-|K]; [destruct t; exact I|]. destruct t, t'; contradiction || exact I. }
  clear K. destruct t, t'; try contradiction K'; try (constructor; fail).
  - rewrite C. clear C. destruct (containing _ _); [|constructor]. constructor; [|constructor]. split; [reflexivity|]. split; [reflexivity|]. split; [reflexivity|]. exact H.
  - constructor; [|constructor]. rewrite (is_function_same _ _ _ _ H). split; [reflexivity|]. split; [reflexivity|]. split; [reflexivity|]. destruct (is_function _ _); exact H.
  - constructor; [|constructor]. split; [reflexivity|]. split; [reflexivity|]. split; [reflexivity|]. exact H.
Qed.
Lemma same_place_same x x' y y' : same_occ T x x' -> same_occ T y y' -> same_place x y = same_place x' y'.
Proof.
  intros (X1 & X2 & X3 & X4) (Y1 & Y2 & Y3 & Y4).
  assert (same_place x y = true <-> same_place x' y' = true) as G; [|destruct (same_place x y), (same_place x' y'); try reflexivity; [symmetry|]; tauto].
  rewrite !same_place_spec. rewrite <- X2, <- Y2, <- X3, <- Y3.
  pose proof (T_pos _ _ X4) as P1. pose proof (T_pos _ _ Y4) as P2.
  assert (o_kind x = o_kind y -> occ_token x = occ_token y -> o_name x = o_name y) as N1.
  { unfold occ_token. intros E F. rewrite E in F. destruct (o_kind y); congruence. }
  assert (o_kind x' = o_kind y' -> occ_token x' = occ_token y' -> o_name x' = o_name y') as N2.
  { unfold occ_token. intros E F. rewrite E in F. destruct (o_kind y'); congruence. }
  assert (o_span x = snd (occ_token x) /\ o_span y = snd (occ_token y) /\ o_span x' = snd (occ_token x') /\ o_span y' = snd (occ_token y')) as (S1 & S2 & S3 & S4) by (split; [|split; [|split]]; reflexivity).
  destruct (order _ _ _ _ X4 Y4) as [[E E']|E].
  - split; intros (A & B & C & D); (split; [exact A|]); (split; [exact B|]); split.
    + apply N2; congruence.
    + congruence.
    + apply N1; congruence.
    + congruence.
  - split; intros (_ & _ & _ & D); exfalso; rewrite ?S1, ?S2, ?S3, ?S4 in D; destruct E as [E|E]; rewrite D in *; lia.
Qed.
Lemma first_seen_same a b : Forall2 (same_occ T) a b -> forall s s', Forall2 (same_occ T) s s' -> Forall2 (same_occ T) (first_seen s a) (first_seen s' b).
Proof.
  induction 1 as [|x x' a b Hx _ IH]; intros s s' Hs; cbn [first_seen]; [constructor|].
  assert (existsb (same_place x) s = existsb (same_place x') s') as ->.
  { clear - Hs Hx Hsp Hsp'. induction Hs as [|y y' r r' Hy _ IH]; [reflexivity|]. cbn [existsb]. rewrite IH. f_equal. apply same_place_same; assumption. }
  destruct (existsb _ _); [apply IH, Hs|]. constructor; [exact Hx|]. apply IH, Forall2_app; [exact Hs|]. constructor; [exact Hx|constructor].
Qed.
Lemma recorded_same : Forall2 (same_occ T) (recorded ss toks) (recorded ss' toks').
Proof.
  apply first_seen_same; [|constructor]. apply Forall2_app; [apply tree_occs_same|]. apply forall2_flat_map.
  eapply forall2_impl; [intros x y H; apply token_occs_same; exact H|]. apply counterparts_self. exact (forall2_len _ _ _ Hk).
Qed.
End Two.

(** ** Symbols *)
Lemma recorded_kind hi ss toks (Hsp : spans_in 0 hi toks) (Hsub : subseq (flat_map stmt_tokens ss) toks) x : In x (recorded ss toks) -> match o_kind x with
  | KLabel | KLocalVar => exists b, o_body x = Some b | _ => o_body x = None end.
Proof.
  rewrite (recorded_eq _ _ _ Hsp Hsub), in_app_iff, filter_In. intros [H|[H _]]; [exact (tree_kind _ _ _ H)|].
  apply in_token_occs in H as [_ H]. unfold token_occs, occ_token in H. cbn [fst snd] in H.
  destruct (o_kind x) eqn:E; cbn in H; try contradiction; try (destruct H as [<-|[]]; reflexivity).
  destruct (containing _ _); [|contradiction]. destruct H as [<-|[]]. eexists; reflexivity.
Qed.
Lemma recorded_function hi ss toks (Hsp : spans_in 0 hi toks) (Hsub : subseq (flat_map stmt_tokens ss) toks) x : In x (recorded ss toks) -> o_kind x = KFunction -> is_function ss (o_name x) = true.
Proof.
  rewrite (recorded_eq _ _ _ Hsp Hsub), in_app_iff, filter_In. intros [H|[H _]] E; [pose proof (tree_kind _ _ _ H) as B; rewrite E in B; apply (function_symbols _ ss 0); exists x; auto|].
  apply in_token_occs in H as [_ H]. unfold token_occs, occ_token in H. cbn [fst snd] in H. rewrite E in H. cbn in H. destruct H as [H|[]].
  destruct (is_function ss (o_name x)) eqn:F; [reflexivity|]. rewrite <- H in E. discriminate.
Qed.
Lemma recorded_variable hi ss toks (Hsp : spans_in 0 hi toks) (Hsub : subseq (flat_map stmt_tokens ss) toks) x : In x (recorded ss toks) -> o_kind x = KGlobalVar -> existsb (defines_var (o_name x)) ss = true \/ is_function ss (o_name x) = false.
Proof.
  rewrite (recorded_eq _ _ _ Hsp Hsub), in_app_iff, filter_In. intros [H|[H _]] E; [left; eapply (tree_var ss); eassumption|].
  apply in_token_occs in H as [_ H]. unfold token_occs, occ_token in H. cbn [fst snd] in H. rewrite E in H. cbn in H. destruct H as [H|[]].
  destruct (is_function ss (o_name x)) eqn:F; [|auto]. rewrite <- H in E. discriminate.
Qed.

Section Names.
Variables (toks toks' : list stoken) (ss ss' : list statement) (hi hi' : nat).
Hypothesis Hsp : spans_in 0 hi toks.
Hypothesis Hsp' : spans_in 0 hi' toks'.
Hypothesis Hk : Forall2 (fun a b => resembles (fst a) (fst b)) toks toks'.
Hypothesis Hsub : subseq (flat_map stmt_tokens ss) toks.
Hypothesis Hrg : ranges_in_order 0 (flat_map func_ranges ss).
Notation T := (counterparts toks toks').
Hypothesis Hss : Forall2 (same_stmt T) ss ss'.
(** names that share a scope are the same in both documents or in none *)
Hypothesis Hn : forall x y t t', In x (recorded ss toks) -> In y (recorded ss toks) -> namespace (o_kind x) = namespace (o_kind y) -> o_body x = o_body y ->
  T (occ_token x) t -> T (occ_token y) t' -> (o_name x = o_name y <-> token_name (fst t) = token_name (fst t')).
Lemma global_token n sp : In (TGlobalName n, sp) toks -> exists x, In x (recorded ss toks) /\ occ_token x = (TGlobalName n, sp) /\ global (o_kind x) /\ o_name x = n.
Proof.
  intros H. destruct (recorded_covers _ _ _ Hsp Hsub Hrg _ H I) as (x & Hx & E). exists x. split; [exact Hx|].
  assert (occ_token x = (TGlobalName n, sp)) as Et by (apply (token_span_unique _ _ Hsp); [exact (recorded_token _ _ _ Hsp Hsub _ Hx)|exact H|exact E]).
  split; [exact Et|]. unfold occ_token in Et. unfold global. destruct (o_kind x); try discriminate Et; injection Et as -> _; auto.
Qed.
Lemma names_globals n s n' s' m r m' r' : T (TGlobalName n, s) (TGlobalName n', s') -> T (TGlobalName m, r) (TGlobalName m', r') -> (n = m <-> n' = m').
Proof.
  intros H G. destruct (global_token n s) as (x & Hx & Ex & Kx & Nx); [eapply in_combine_l; exact H|].
  destruct (global_token m r) as (y & Hy & Ey & Ky & Ny); [eapply in_combine_l; exact G|].
  pose proof (recorded_kind _ _ _ Hsp Hsub _ Hx) as Bx. pose proof (recorded_kind _ _ _ Hsp Hsub _ Hy) as By.
  rewrite <- Ex in H. rewrite <- Ey in G. pose proof (Hn x y (TGlobalName n', s') (TGlobalName m', r') Hx Hy) as E. cbn [fst token_name] in E. rewrite Nx, Ny in E.
  rewrite E; [split; congruence|..|exact H|exact G]; destruct Kx as [K|K], Ky as [K'|K']; rewrite K, K' in *; cbn; congruence.
Qed.
Lemma bindings_stay : same_bindings T (recorded ss toks) (recorded ss' toks').
Proof.
  pose proof (recorded_same _ _ _ _ _ _ Hsp Hsp' Hk Hss names_globals) as F. split; [exact F|].
  intros x x' y y' Hx Hy. pose proof (combine_forall2 _ _ _ F _ _ Hx) as (X1 & X2 & X3 & X4). pose proof (combine_forall2 _ _ _ F _ _ Hy) as (Y1 & Y2 & Y3 & Y4).
  apply in_combine_l in Hx as Hx1. apply in_combine_l in Hy as Hy1. unfold same_symbol. rewrite <- X2, <- Y2, <- X3, <- Y3.
  assert (o_kind x = o_kind y -> o_body x = o_body y -> (o_name x = o_name y <-> o_name x' = o_name y')) as G.
  { intros K B. rewrite (Hn x y _ _ Hx1 Hy1 ltac:(congruence) B X4 Y4). unfold occ_token. cbn [fst]. rewrite <- X2, <- Y2, <- K. destruct (o_kind x); cbn [token_name]; split; congruence. }
  split; intros (A & B & C); (split; [exact A|]); (split; [exact B|]); apply (G A B); exact C.
Qed.
End Names.
Lemma bindings_kept toks toks' ss ss' hi hi' : spans_in 0 hi toks -> spans_in 0 hi' toks' -> Forall2 (fun a b => similar (fst a) (fst b)) toks toks' ->
  subseq (flat_map stmt_tokens ss) toks -> ranges_in_order 0 (flat_map func_ranges ss) -> Forall2 (same_stmt (counterparts toks toks')) ss ss' ->
  (forall x y t t', In x (recorded ss toks) -> In y (recorded ss toks) -> namespace (o_kind x) = namespace (o_kind y) -> o_body x = o_body y ->
    counterparts toks toks' (occ_token x) t -> counterparts toks toks' (occ_token y) t' -> (o_name x = o_name y <-> token_name (fst t) = token_name (fst t'))) ->
  same_bindings (counterparts toks toks') (recorded ss toks) (recorded ss' toks').
Proof.
  intros H1 H2 H3 H4 H5 H6 H7. refine (bindings_stay _ _ _ _ _ _ H1 H2 _ H4 H5 H6 H7). eapply forall2_impl; [|exact H3]. intros a b H. apply similar_resembles. exact H.
Qed.

Lemma moves_unique n0 z a b c : moves n0 z a b -> moves n0 z a c -> b = c.
Proof.
  intros (p & ds & n & ds' & A1 & _ & _ & A4 & ->) (q & es & m & es' & B1 & _ & _ & B4 & ->). destruct (numbered_unique _ _ _ _ _ _ _ A1 B1) as (-> & _ & ->).
  rewrite (canonical_unique _ _ _ A4 B4). reflexivity.
Qed.
(** ** The two kinds of renames *)
Section Renamed.
Variables (toks toks' : list stoken) (ss : list statement) (hi : nat).
Hypothesis Hsp : spans_in 0 hi toks.
Hypothesis Hsub : subseq (flat_map stmt_tokens ss) toks.
Hypothesis Hrg : ranges_in_order 0 (flat_map func_ranges ss).
Notation T := (counterparts toks toks').
Notation l := (recorded ss toks).

Lemma occ_at x y : In x l -> In y l -> o_span x = o_span y -> occ_token x = occ_token y.
Proof. intros Hx Hy E. apply (token_span_unique _ _ Hsp); [exact (recorded_token _ _ _ Hsp Hsub _ Hx)|exact (recorded_token _ _ _ Hsp Hsub _ Hy)|exact E]. Qed.
Lemma occ_at_name x y : occ_token x = occ_token y -> o_name x = o_name y /\ (o_kind x = o_kind y \/ global (o_kind x) /\ global (o_kind y)).
Proof. unfold occ_token, global. destruct (o_kind x), (o_kind y); intros E; try discriminate E; injection E as -> _; auto 6. Qed.
Lemma with_name_token x y : token_name (with_name (fst (occ_token x)) y) = Some y.
Proof. unfold occ_token. cbn [fst]. destruct (o_kind x); reflexivity. Qed.

Section Absolute.
Variables (o : occurrence) (final : text).
Hypothesis Ho : In o l.
Hypothesis Hfree : unused l o final.
Hypothesis Hdual : global (o_kind o) -> ~ dual ss (o_name o).
Hypothesis R : retold (renamed o final) l toks toks'.

Lemma kinds_differ x y : In x l -> In y l -> global (o_kind x) -> global (o_kind y) -> o_name x = o_name y -> o_kind x <> o_kind y -> dual ss (o_name x).
Proof.
  assert (forall a b, In a l -> In b l -> o_kind a = KGlobalVar -> o_kind b = KFunction -> o_name a = o_name b -> dual ss (o_name a)) as G.
  { intros a b Ha Hb Ka Kb E. pose proof (recorded_function _ _ _ Hsp Hsub _ Hb Kb) as F. rewrite <- E in F.
    destruct (recorded_variable _ _ _ Hsp Hsub _ Ha Ka) as [V|V]; [split; assumption|congruence]. }
  intros Hx Hy [Kx|Kx] [Ky|Ky] E D; try congruence; [exact (G x y Hx Hy Kx Ky E)|]. rewrite E. exact (G y x Hy Hx Ky Kx (eq_sym E)).
Qed.
Lemma renamed_name x t : In x l -> T (occ_token x) t ->
  (same_symbol o x /\ token_name (fst t) = Some final) \/ (~ same_symbol o x /\ token_name (fst t) = Some (o_name x)).
Proof.
  intros Hx H. pose proof (combine_forall2 _ _ _ R _ _ H) as [H1 H2]. destruct (same_symbolb o x) eqn:E.
  - left. apply same_symbolb_spec in E. split; [exact E|]. rewrite (H1 x final Hx eq_refl (conj E eq_refl)). apply with_name_token.
  - right. assert (~ same_symbol o x) as N by (intros G; apply same_symbolb_spec in G; congruence). split; [exact N|].
    rewrite H2; [apply occ_token_name|]. intros z y Hz Es [Hs _]. change (o_span z = o_span x) in Es. apply N.
    pose proof (occ_at _ _ Hz Hx Es) as Et. destruct (occ_at_name _ _ Et) as [En Ek]. destruct Hs as (S1 & S2 & S3).
    assert (o_kind z = o_kind x) as Ekx.
    { destruct Ek as [Ek|[G1 G2]]; [exact Ek|]. destruct (kind_dec (o_kind z) (o_kind x)) as [D|D]; [exact D|]. exfalso.
      apply Hdual; [rewrite S1; exact G1|]. rewrite S3. exact (kinds_differ z x Hz Hx G1 G2 En D). }
    split; [congruence|]. split; [|congruence].
    destruct (recorded_unique _ _ _ Hsp Hsub Hrg _ _ Hz Hx Es) as [<-|D]; [exact S2|]. exfalso. unfold dual_token, occ_token in D. cbn [fst] in D.
    destruct (o_kind z) eqn:Kz; try contradiction; apply Hdual; (rewrite S3; exact D) || (rewrite S1; unfold global; auto).
Qed.
Lemma renamed_consistent x y t t' : In x l -> In y l -> namespace (o_kind x) = namespace (o_kind y) -> o_body x = o_body y ->
  T (occ_token x) t -> T (occ_token y) t' -> (o_name x = o_name y <-> token_name (fst t) = token_name (fst t')).
Proof.
  intros Hx Hy Ns B Tx Ty.
  assert (forall a b, In a l -> In b l -> namespace (o_kind a) = namespace (o_kind b) -> o_body a = o_body b -> same_symbol o a -> ~ same_symbol o b -> o_name a <> o_name b) as G.
  { intros a b Ha Hb Nab Bab Sa Sb E. apply Sb. destruct Sa as (S1 & S2 & S3). split; [|split; congruence].
    destruct (kind_dec (o_kind a) (o_kind b)) as [D|D]; [congruence|]. exfalso.
    assert (global (o_kind a) /\ global (o_kind b)) as [Ga Gb] by (unfold global; destruct (o_kind a), (o_kind b); cbn in Nab; try discriminate; try contradiction; auto).
    apply Hdual; [rewrite S1; exact Ga|]. rewrite S3. exact (kinds_differ a b Ha Hb Ga Gb E D). }
  assert (forall a, In a l -> same_symbol o a -> forall b, In b l -> namespace (o_kind a) = namespace (o_kind b) -> o_body a = o_body b -> o_name b <> final) as U.
  { intros a Ha (S1 & S2 & S3) b Hb Nab Bab. apply Hfree; [exact Hb|rewrite S1; congruence|congruence]. }
  destruct (renamed_name x t Hx Tx) as [[S ->]|[S ->]], (renamed_name y t' Hy Ty) as [[S' ->]|[S' ->]].
  - destruct S as (_ & _ & S), S' as (_ & _ & S'). split; congruence.
  - split; intros E; exfalso; [exact (G x y Hx Hy Ns B S S' E)|]. injection E as E. exact (U x Hx S y Hy Ns B (eq_sym E)).
  - split; intros E; exfalso; [exact (G y x Hy Hx (eq_sym Ns) (eq_sym B) S' S (eq_sym E))|]. injection E as E. exact (U y Hy S' x Hx (eq_sym Ns) (eq_sym B) E).
  - split; congruence.
Qed.
End Absolute.

Section Relative.
Variables (o : occurrence) (n0 : N) (z : Z).
Hypothesis Hlocal : o_kind o = KLocalVar \/ o_kind o = KDbgAnnotation \/ o_kind o = KLabel.
Hypothesis Hz : (0 <= z)%Z.
Hypothesis Hzero : forall x, In x l -> in_scope o x -> no_leading_zeros (o_name x).
Hypothesis Hfit : forall x n, In x l -> in_scope o x -> has_number (o_name x) n -> fits_i64 (Z.of_N n + z).
Hypothesis R : retold (moved o n0 z) l toks toks'.

Lemma unmoved x t : In x l -> ~ in_scope o x -> T (occ_token x) t -> token_name (fst t) = Some (o_name x).
Proof.
  intros Hx Hs H. pose proof (combine_forall2 _ _ _ R _ _ H) as [_ H2]. rewrite H2; [apply occ_token_name|]. intros w y Hw Es [[S1 S2] _]. change (o_span w = o_span x) in Es.
  destruct (recorded_unique _ _ _ Hsp Hsub Hrg _ _ Hw Hx Es) as [<-|D]; [apply Hs; split; assumption|].
  unfold dual_token, occ_token in D. cbn [fst] in D. rewrite S1 in D. destruct Hlocal as [K|[K|K]]; rewrite K in D; exact D.
Qed.
Lemma moved_name x t : In x l -> in_scope o x -> T (occ_token x) t -> ~ ~ exists y, token_name (fst t) = Some y /\ moves_or_stays n0 z (o_name x) y.
Proof.
  intros Hx Hs H N. pose proof (combine_forall2 _ _ _ R _ _ H) as [H1 H2].
  assert (forall y, ~ moves n0 z (o_name x) y) as M.
  { intros y G. apply N. exists y. split; [|left; exact G]. rewrite (H1 x y Hx eq_refl (conj Hs G)). apply with_name_token. }
  apply N. exists (o_name x). split.
  - rewrite H2; [apply occ_token_name|]. intros w y Hw Es [Sw Mw]. change (o_span w = o_span x) in Es. destruct (occ_at_name _ _ (occ_at _ _ Hw Hx Es)) as [En _]. rewrite En in Mw. exact (M _ Mw).
  - right. split; [|reflexivity]. intros n (p & ds & Hd & Hmax). destruct (N.lt_ge_cases n n0) as [G|G]; [exact G|]. exfalso.
    eapply M. exists p, ds, n, (render_N (Z.abs_N (Z.of_N n + z))). split; [exact Hd|]. split; [exact Hmax|]. split; [exact G|]. split; [apply render_N_canonical|reflexivity].
Qed.
Lemma option_text_dec (a b : option text) : a = b \/ a <> b.
Proof. destruct a as [a|], b as [b|]; try (right; discriminate); [|left; reflexivity]. destruct (text_dec a b) as [->|E]; [left; reflexivity|right; congruence]. Qed.
Lemma moved_consistent x y t t' : In x l -> In y l -> namespace (o_kind x) = namespace (o_kind y) -> o_body x = o_body y ->
  T (occ_token x) t -> T (occ_token y) t' -> (o_name x = o_name y <-> token_name (fst t) = token_name (fst t')).
Proof.
  intros Hx Hy Ns B Tx Ty.
  assert (in_scope o x <-> in_scope o y) as S.
  { unfold in_scope. rewrite B. destruct Hlocal as [K|[K|K]]; rewrite K; destruct (o_kind x), (o_kind y); cbn in Ns; try discriminate Ns; intuition congruence. }
  assert (in_scope o x \/ ~ in_scope o x) as [Sx|Sx].
  { unfold in_scope. destruct (kind_dec (o_kind x) (o_kind o)) as [K|K]; [|right; tauto]. destruct (body_dec (o_body x) (o_body o)) as [K'|K']; [left; auto|right; tauto]. }
  - assert (in_scope o y) as Sy by tauto. pose proof (moved_name _ _ Hx Sx Tx) as Mx. pose proof (moved_name _ _ Hy Sy Ty) as My. split; intros E.
    + destruct (option_text_dec (token_name (fst t)) (token_name (fst t'))) as [G|G]; [exact G|]. exfalso. apply Mx. intros (a & Ea & Ma). apply My. intros (b & Eb & Mb). apply G. rewrite Ea, Eb. f_equal.
      rewrite E in Ma. destruct Ma as [Ma|[Ma ->]], Mb as [Mb|[Mb ->]]; [exact (moves_unique _ _ _ _ _ Ma Mb)| | |reflexivity]; exfalso.
      * destruct Ma as (p & ds & n & ds' & A1 & A2 & A3 & _). specialize (Mb n). assert (n < n0)%N by (apply Mb; exists p, ds; auto). lia.
      * destruct Mb as (p & ds & n & ds' & A1 & A2 & A3 & _). specialize (Ma n). assert (n < n0)%N by (apply Ma; exists p, ds; auto). lia.
    + destruct (text_dec (o_name x) (o_name y)) as [G|G]; [exact G|]. exfalso. apply Mx. intros (a & Ea & Ma). apply My. intros (b & Eb & Mb). apply G.
      assert (a = b) as <- by congruence. exact (shifted_up_apart n0 z _ _ a Hz (Hzero _ Hx Sx) (Hzero _ Hy Sy) (fun n => Hfit x n Hx Sx) (fun n => Hfit y n Hy Sy) Ma Mb).
  - assert (~ in_scope o y) as Sy by tauto. rewrite (unmoved _ _ Hx Sx Tx), (unmoved _ _ Hy Sy Ty). split; congruence.
Qed.
End Relative.
End Renamed.

(** ** What is reported *)
Section Reports.
Variables (toks toks' : list stoken) (hi hi' : nat) (l l' : list occurrence).
Hypothesis Hsp : spans_in 0 hi toks.
Hypothesis Hsp' : spans_in 0 hi' toks'.
Notation T := (counterparts toks toks').
Hypothesis Hb : same_bindings T l l'.
Notation P := (fun x x' => In (x, x') (combine l l')).
Lemma combine_self {A B} (a : list A) (b : list B) : length a = length b -> Forall2 (fun x y => In (x, y) (combine a b)) a b.
Proof.
  revert b. induction a as [|x a IH]; intros [|y b] E; try discriminate; constructor; [left; reflexivity|].
  apply forall2_impl with (2 := IH b ltac:(cbn in E; congruence)). intros u v H. right. exact H.
Qed.
Lemma pairs : Forall2 P l l'.
Proof. apply combine_self. exact (forall2_len _ _ _ (proj1 Hb)). Qed.
Lemma pair_occ x x' : P x x' -> same_occ T x x'.
Proof. intros H. exact (combine_forall2 _ _ _ (proj1 Hb) _ _ H). Qed.
Lemma pair_symbol x x' y y' : P x x' -> P y y' -> same_symbolb x y = same_symbolb x' y'.
Proof.
  intros H G. pose proof (proj2 Hb _ _ _ _ H G) as E. rewrite <- !same_symbolb_spec in E. destruct (same_symbolb x y), (same_symbolb x' y'); try reflexivity; [symmetry|]; tauto.
Qed.
Lemma pair_use x x' : P x x' -> is_use x = is_use x' /\ is_definition x = is_definition x'.
Proof. intros H. destruct (pair_occ _ _ H) as (E & _). unfold is_use, is_definition. rewrite E. auto. Qed.
Lemma pair_span x x' y y' : P x x' -> P y y' -> span_eqb (o_span x) (o_span y) = span_eqb (o_span x') (o_span y').
Proof.
  intros H G. destruct (pair_occ _ _ H) as (_ & _ & _ & A), (pair_occ _ _ G) as (_ & _ & _ & B).
  pose proof (T_pos _ _ _ _ Hsp Hsp' _ _ A) as [P1 P2]. pose proof (T_pos _ _ _ _ Hsp Hsp' _ _ B) as [P3 P4]. change (snd (occ_token ?z)) with (o_span z) in *.
  assert (forall a b : span, span_eqb a b = true <-> a = b) as S by exact PDiag.span_eqb_spec.
  destruct (order _ _ _ _ Hsp Hsp' _ _ _ _ A B) as [[E E']|E].
  - rewrite (proj2 (S (o_span x) (o_span y))) by exact (f_equal snd E). rewrite (proj2 (S (o_span x') (o_span y'))) by exact (f_equal snd E'). reflexivity.
  - change (snd (occ_token ?z)) with (o_span z) in E. destruct (span_eqb (o_span x) (o_span y)) eqn:E1, (span_eqb (o_span x') (o_span y')) eqn:E2; try reflexivity; exfalso.
    + apply S in E1. rewrite E1 in *. cbn [occ_token snd] in *. lia.
    + apply S in E2. rewrite E2 in *. cbn [occ_token snd] in *. lia.
Qed.
Lemma existsb_pairs (p p' : occurrence -> bool) a b : Forall2 P a b -> (forall x x', P x x' -> p x = p' x') -> existsb p a = existsb p' b.
Proof. intros F H. induction F as [|x x' a b Hx _ IH]; [reflexivity|]. cbn [existsb]. rewrite IH, (H _ _ Hx). reflexivity. Qed.
Lemma filter_pairs (p p' : occurrence -> bool) a b : Forall2 P a b -> (forall x x', P x x' -> p x = p' x') -> Forall2 P (filter p a) (filter p' b).
Proof. intros F H. induction F as [|x x' a b Hx _ IH]; [constructor|]. cbn [filter]. rewrite (H _ _ Hx). destruct (p' x'); [constructor; assumption|assumption]. Qed.
Lemma find_pairs (p p' : occurrence -> bool) a b : Forall2 P a b -> (forall x x', P x x' -> p x = p' x') -> both P (find p a) (find p' b).
Proof. intros F H. induction F as [|x x' a b Hx _ IH]; [exact I|]. cbn [find]. rewrite (H _ _ Hx). destruct (p' x'); [exact Hx|exact IH]. Qed.
Lemma same_reports : Forall2 (same_occ T) (undefined_uses l) (undefined_uses l') /\
  Forall2 (fun a b => same_occ T (fst a) (fst b) /\ same_occ T (snd a) (snd b)) (redefinitions l) (redefinitions l').
Proof.
  split.
  - eapply forall2_impl; [intros x y H; apply pair_occ; exact H|]. apply filter_pairs; [apply pairs|]. intros x x' H. destruct (pair_use _ _ H) as [-> _]. f_equal. f_equal.
    apply existsb_pairs; [apply pairs|]. intros y y' G. destruct (pair_use _ _ G) as [-> _]. rewrite (pair_symbol _ _ _ _ G H). reflexivity.
  - unfold redefinitions. apply forall2_flat_map. eapply forall2_impl; [|apply pairs]. intros x x' H.
    pose proof (find_pairs (fun y => is_definition y && same_symbolb y x) (fun y => is_definition y && same_symbolb y x') _ _ pairs) as F.
    assert (both P (find (fun y => is_definition y && same_symbolb y x) l) (find (fun y => is_definition y && same_symbolb y x') l')) as F'.
    { apply F. intros y y' G. destruct (pair_use _ _ G) as [_ ->]. rewrite (pair_symbol _ _ _ _ G H). reflexivity. }
    destruct (find _ l) as [f|], (find _ l') as [f'|]; try contradiction F'; [|constructor]. rewrite (pair_span _ _ _ _ F' H). destruct (pair_use _ _ H) as [_ ->].
    destruct (_ && _); constructor; [|constructor]. split; apply pair_occ; assumption.
Qed.
End Reports.

(** ** Renames *)
Lemma occ_at_token hi toks ss (Hsp : spans_in 0 hi toks) (Hsub : subseq (flat_map stmt_tokens ss) toks) x t : In x (recorded ss toks) -> In t toks -> o_span x = snd t -> occ_token x = t.
Proof. intros Hx Ht E. apply (token_span_unique _ _ Hsp); [exact (recorded_token _ _ _ Hsp Hsub _ Hx)|exact Ht|exact E]. Qed.
Lemma digits_plain p ds : ds <> [] -> all_digits ds -> plain_word (p ++ ds).
Proof.
  intros Hne Hd. destruct (exists_last Hne) as (q & c & ->). assert (48 <= c <= 57)%N as Hc by (apply Hd, in_elt). rewrite app_assoc. split.
  - intros G. assert (forall w, In w special_words -> exists q' c', w = q' ++ [c'] /\ (97 <= c')%N) as Hs.
    { intros w Hw. unfold special_words in Hw. cbn [map In] in Hw. repeat (destruct Hw as [<-|Hw]; [match goal with |- exists _ _, ?w = _ /\ _ => exists (removelast w), (last w 0%N) end; split; [reflexivity|cbn; lia]|]). contradiction. }
    apply Hs in G as (q' & c' & E & Hc'). apply app_inj_tail in E as [_ ->]. lia.
  - intros (q' & E). change (str "br") with ([ch "b"] ++ [ch "r"]) in E. rewrite app_assoc in E. apply app_inj_tail in E as [_ ->]. cbn in Hc. lia.
Qed.
Lemma moves_plain n0 z a b : moves n0 z a b -> plain_word a /\ plain_word b.
Proof. intros (p & ds & n & ds' & (-> & H1 & H2 & _) & _ & _ & (G1 & G2 & _) & ->). split; apply digits_plain; assumption. Qed.
Lemma rename_keeps e s uri src d p : plain_document src -> opened e s uri src d -> p <= length src ->
  exists pr, parse_from_str (e_u e) src = Val pr /\ pr_stmts pr = doc_stmts d /\
  ((forall o, In o (recorded (pr_stmts pr) (pr_tokens pr)) -> ~ covers (o_span o) p) \/
   exists o errs, In o (recorded (pr_stmts pr) (pr_tokens pr)) /\ covers (o_span o) p /\ tokenize (e_u e) src = Val (Some (pr_tokens pr), errs) /\
     (forall new final, accepted (e_u e) (o_kind o) new final -> (forall b, final <> b ++ [ch ":"]) ->
       (o_kind o = KLabel -> errs = [] /\ free_word final /\ plain_word (o_name o) /\ plain_word final) ->
       exists edits pr', rename e s uri (lsp_position src p) new = Val (Reply edits) /\ parse_from_str (e_u e) (patched src edits) = Val pr' /\
         (retold (renamed o final) (recorded (pr_stmts pr) (pr_tokens pr)) (pr_tokens pr) (pr_tokens pr') /\
          Forall2 (same_stmt (counterparts (pr_tokens pr) (pr_tokens pr'))) (pr_stmts pr) (pr_stmts pr') /\
          (errs = [] -> Forall2 same_complaint (pr_errors pr) (pr_errors pr'))) /\
         (unused (recorded (pr_stmts pr) (pr_tokens pr)) o final -> (global (o_kind o) -> ~ dual (pr_stmts pr) (o_name o)) ->
          bound_alike pr pr'))).
Proof.
  intros Hsrc Ho Hp. destruct (rename_tokens _ _ _ _ _ _ Hsrc Ho Hp) as (pr & Hpr & Hst & H). exists pr. split; [exact Hpr|]. split; [exact Hst|].
  destruct H as [H|(o & errs & Hin & Hc & Ht & H)]; [left; exact H|]. right. exists o, errs. split; [exact Hin|]. split; [exact Hc|]. split; [exact Ht|].
  intros new final Ha Hend Hlb. destruct (H _ _ Ha Hend ltac:(intros G; destruct (Hlb G) as (G1 & G2 & _); auto)) as (edits & toks' & errs' & Er & Et & R & Hn).
  destruct (opened_indexed _ _ _ _ _ Ho) as (pr0 & Hix & _). assert (pr0 = pr) as -> by (destruct Hix as [G _]; congruence).
  destruct (indexed_ok _ _ _ _ Hix) as (_ & _ & Hsp & Hsub & Hrg).
  assert (Forall2 (fun a b => similar (fst a) (fst b)) (pr_tokens pr) toks') as Hsim.
  { eapply retold_similar; [exact R| |].
    - intros x y Hx [(S1 & _ & S3) ->] Hkx. rewrite <- S3. destruct (Hlb ltac:(congruence)) as (_ & _ & P1 & P2). auto.
    - intros x t Hx Hit Es. exact (occ_at_token _ _ _ Hsp Hsub _ _ Hx Hit Es). }
  destruct (reparsed _ _ _ _ _ _ _ Hpr Ht Et Hsim Hn) as (pr' & Hp' & <- & Hs & He). exists edits, pr'. split; [exact Er|]. split; [exact Hp'|].
  split; [split; [exact R|split; [exact Hs|exact He]]|]. intros Hu Hd.
  pose proof (proj1 (parse_from_str_module _ _ _ Hp')) as Hsp'.
  assert (same_bindings (counterparts (pr_tokens pr) (pr_tokens pr')) (recorded (pr_stmts pr) (pr_tokens pr)) (recorded (pr_stmts pr') (pr_tokens pr'))) as B.
  { eapply bindings_kept; [exact Hsp|exact Hsp'|exact Hsim|exact Hsub|exact Hrg|exact Hs|]. eapply renamed_consistent; eassumption. }
  split; [exact B|]. eapply same_reports; [exact Hsp|exact Hsp'|exact B].
Qed.
Lemma shift_keeps e s uri src d p : plain_document src -> visits_all (e_ord e) -> opened e s uri src d -> p <= length src ->
  exists pr, parse_from_str (e_u e) src = Val pr /\ pr_stmts pr = doc_stmts d /\
  ((forall o, In o (recorded (pr_stmts pr) (pr_tokens pr)) -> ~ covers (o_span o) p) \/
   exists o errs, In o (recorded (pr_stmts pr) (pr_tokens pr)) /\ covers (o_span o) p /\ tokenize (e_u e) src = Val (Some (pr_tokens pr), errs) /\
     (forall new z n, asks_shift new z -> has_number (o_name o) n -> no_overflow (recorded (pr_stmts pr) (pr_tokens pr)) o n z ->
       (o_kind o = KLabel -> errs = [] /\ forall x y, In x (recorded (pr_stmts pr) (pr_tokens pr)) -> moved o n z x y -> free_word y) ->
       exists edits pr', rename e s uri (lsp_position src p) new = Val (Reply edits) /\ parse_from_str (e_u e) (patched src edits) = Val pr' /\
         (retold (moved o n z) (recorded (pr_stmts pr) (pr_tokens pr)) (pr_tokens pr) (pr_tokens pr') /\
          Forall2 (same_stmt (counterparts (pr_tokens pr) (pr_tokens pr'))) (pr_stmts pr) (pr_stmts pr') /\
          (errs = [] -> Forall2 same_complaint (pr_errors pr) (pr_errors pr'))) /\
         ((0 <= z)%Z -> ~ global (o_kind o) ->
          (forall x, In x (recorded (pr_stmts pr) (pr_tokens pr)) -> in_scope o x -> no_leading_zeros (o_name x) /\ forall m, has_number (o_name x) m -> fits_i64 (Z.of_N m + z)) ->
          bound_alike pr pr'))).
Proof.
  intros Hsrc Hv Ho Hp. destruct (shift_tokens _ _ _ _ _ _ Hsrc Hv Ho Hp) as (pr & Hpr & Hst & H). exists pr. split; [exact Hpr|]. split; [exact Hst|].
  destruct H as [H|(o & errs & Hin & Hc & Ht & H)]; [left; exact H|]. right. exists o, errs. split; [exact Hin|]. split; [exact Hc|]. split; [exact Ht|].
  intros new z n Ha Hnum Hov Hlb. destruct (H _ _ _ Ha Hnum Hov Hlb) as (edits & toks' & errs' & Er & Et & R & Hn).
  destruct (opened_indexed _ _ _ _ _ Ho) as (pr0 & Hix & _). assert (pr0 = pr) as -> by (destruct Hix as [G _]; congruence).
  destruct (indexed_ok _ _ _ _ Hix) as (_ & _ & Hsp & Hsub & Hrg).
  assert (Forall2 (fun a b => similar (fst a) (fst b)) (pr_tokens pr) toks') as Hsim.
  { eapply retold_similar; [exact R| |].
    - intros x y Hx [_ Hm] Hkx. exact (moves_plain _ _ _ _ Hm).
    - intros x t Hx Hit Es. exact (occ_at_token _ _ _ Hsp Hsub _ _ Hx Hit Es). }
  destruct (reparsed _ _ _ _ _ _ _ Hpr Ht Et Hsim Hn) as (pr' & Hp' & <- & Hs & He). exists edits, pr'. split; [exact Er|]. split; [exact Hp'|].
  split; [split; [exact R|split; [exact Hs|exact He]]|]. intros Hz Hd Hx.
  pose proof (proj1 (parse_from_str_module _ _ _ Hp')) as Hsp'.
  assert (same_bindings (counterparts (pr_tokens pr) (pr_tokens pr')) (recorded (pr_stmts pr) (pr_tokens pr)) (recorded (pr_stmts pr') (pr_tokens pr'))) as B.
  { eapply bindings_kept; [exact Hsp|exact Hsp'|exact Hsim|exact Hsub|exact Hrg|exact Hs|]. eapply moved_consistent; try eassumption.
    - unfold global in Hd. destruct (o_kind o); tauto.
    - intros x Hi Hsc. apply (Hx x Hi Hsc).
    - intros x m Hi Hsc. apply (Hx x Hi Hsc). }
  split; [exact B|]. eapply same_reports; [exact Hsp|exact Hsp'|exact B].
Qed.

(** the tree *)
Lemma rename_tree e s uri src d p : plain_document src -> opened e s uri src d -> p <= length src ->
  exists pr, parse_from_str (e_u e) src = Val pr /\ pr_stmts pr = doc_stmts d /\
  ((forall o, In o (recorded (pr_stmts pr) (pr_tokens pr)) -> ~ covers (o_span o) p) \/
   exists o errs, In o (recorded (pr_stmts pr) (pr_tokens pr)) /\ covers (o_span o) p /\ tokenize (e_u e) src = Val (Some (pr_tokens pr), errs) /\
     (forall new final, accepted (e_u e) (o_kind o) new final -> (forall b, final <> b ++ [ch ":"]) ->
       (o_kind o = KLabel -> errs = [] /\ free_word final /\ plain_word (o_name o) /\ plain_word final) ->
       exists edits pr', rename e s uri (lsp_position src p) new = Val (Reply edits) /\ parse_from_str (e_u e) (patched src edits) = Val pr' /\
         retold (renamed o final) (recorded (pr_stmts pr) (pr_tokens pr)) (pr_tokens pr) (pr_tokens pr') /\
         Forall2 (same_stmt (counterparts (pr_tokens pr) (pr_tokens pr'))) (pr_stmts pr) (pr_stmts pr') /\
         (errs = [] -> Forall2 same_complaint (pr_errors pr) (pr_errors pr')))).
Proof.
  intros Hsrc Ho Hp. destruct (rename_keeps _ _ _ _ _ _ Hsrc Ho Hp) as (pr & Hpr & Hst & H). exists pr. split; [exact Hpr|]. split; [exact Hst|].
  destruct H as [H|(o & errs & Hin & Hc & Ht & H)]; [left; exact H|]. right. exists o, errs. split; [exact Hin|]. split; [exact Hc|]. split; [exact Ht|].
  intros new final Ha Hend Hlb. destruct (H _ _ Ha Hend Hlb) as (edits & pr' & E & Ep & R & _). exists edits, pr'. auto.
Qed.
Lemma shift_tree e s uri src d p : plain_document src -> visits_all (e_ord e) -> opened e s uri src d -> p <= length src ->
  exists pr, parse_from_str (e_u e) src = Val pr /\ pr_stmts pr = doc_stmts d /\
  ((forall o, In o (recorded (pr_stmts pr) (pr_tokens pr)) -> ~ covers (o_span o) p) \/
   exists o errs, In o (recorded (pr_stmts pr) (pr_tokens pr)) /\ covers (o_span o) p /\ tokenize (e_u e) src = Val (Some (pr_tokens pr), errs) /\
     (forall new z n, asks_shift new z -> has_number (o_name o) n -> no_overflow (recorded (pr_stmts pr) (pr_tokens pr)) o n z ->
       (o_kind o = KLabel -> errs = [] /\ forall x y, In x (recorded (pr_stmts pr) (pr_tokens pr)) -> moved o n z x y -> free_word y) ->
       exists edits pr', rename e s uri (lsp_position src p) new = Val (Reply edits) /\ parse_from_str (e_u e) (patched src edits) = Val pr' /\
         retold (moved o n z) (recorded (pr_stmts pr) (pr_tokens pr)) (pr_tokens pr) (pr_tokens pr') /\
         Forall2 (same_stmt (counterparts (pr_tokens pr) (pr_tokens pr'))) (pr_stmts pr) (pr_stmts pr') /\
         (errs = [] -> Forall2 same_complaint (pr_errors pr) (pr_errors pr')))).
Proof.
  intros Hsrc Hv Ho Hp. destruct (shift_keeps _ _ _ _ _ _ Hsrc Hv Ho Hp) as (pr & Hpr & Hst & H). exists pr. split; [exact Hpr|]. split; [exact Hst|].
  destruct H as [H|(o & errs & Hin & Hc & Ht & H)]; [left; exact H|]. right. exists o, errs. split; [exact Hin|]. split; [exact Hc|]. split; [exact Ht|].
  intros new z n Ha Hn Hov Hk. destruct (H _ _ _ Ha Hn Hov Hk) as (edits & pr' & E & Ep & R & _). exists edits, pr'. auto.
Qed.
(** the bindings *)
Lemma rename_bindings e s uri src d p : plain_document src -> opened e s uri src d -> p <= length src ->
  exists pr, parse_from_str (e_u e) src = Val pr /\ pr_stmts pr = doc_stmts d /\
  ((forall o, In o (recorded (pr_stmts pr) (pr_tokens pr)) -> ~ covers (o_span o) p) \/
   exists o errs, In o (recorded (pr_stmts pr) (pr_tokens pr)) /\ covers (o_span o) p /\ tokenize (e_u e) src = Val (Some (pr_tokens pr), errs) /\
     (forall new final, accepted (e_u e) (o_kind o) new final -> (forall b, final <> b ++ [ch ":"]) ->
       (o_kind o = KLabel -> errs = [] /\ free_word final /\ plain_word (o_name o) /\ plain_word final) ->
       unused (recorded (pr_stmts pr) (pr_tokens pr)) o final -> (global (o_kind o) -> ~ dual (pr_stmts pr) (o_name o)) ->
       exists edits pr', rename e s uri (lsp_position src p) new = Val (Reply edits) /\ parse_from_str (e_u e) (patched src edits) = Val pr' /\
         retold (renamed o final) (recorded (pr_stmts pr) (pr_tokens pr)) (pr_tokens pr) (pr_tokens pr') /\ bound_alike pr pr')).
Proof.
  intros Hsrc Ho Hp. destruct (rename_keeps _ _ _ _ _ _ Hsrc Ho Hp) as (pr & Hpr & Hst & H). exists pr. split; [exact Hpr|]. split; [exact Hst|].
  destruct H as [H|(o & errs & Hin & Hc & Ht & H)]; [left; exact H|]. right. exists o, errs. split; [exact Hin|]. split; [exact Hc|]. split; [exact Ht|].
  intros new final Ha Hend Hlb Hu Hd. destruct (H _ _ Ha Hend Hlb) as (edits & pr' & E & Ep & (R & _) & B). exists edits, pr'. auto.
Qed.
Lemma shift_bindings e s uri src d p : plain_document src -> visits_all (e_ord e) -> opened e s uri src d -> p <= length src ->
  exists pr, parse_from_str (e_u e) src = Val pr /\ pr_stmts pr = doc_stmts d /\
  ((forall o, In o (recorded (pr_stmts pr) (pr_tokens pr)) -> ~ covers (o_span o) p) \/
   exists o errs, In o (recorded (pr_stmts pr) (pr_tokens pr)) /\ covers (o_span o) p /\ tokenize (e_u e) src = Val (Some (pr_tokens pr), errs) /\
     (forall new z n, asks_shift new z -> has_number (o_name o) n -> no_overflow (recorded (pr_stmts pr) (pr_tokens pr)) o n z ->
       (o_kind o = KLabel -> errs = [] /\ forall x y, In x (recorded (pr_stmts pr) (pr_tokens pr)) -> moved o n z x y -> free_word y) ->
       (0 <= z)%Z -> ~ global (o_kind o) ->
       (forall x, In x (recorded (pr_stmts pr) (pr_tokens pr)) -> in_scope o x -> no_leading_zeros (o_name x) /\ forall m, has_number (o_name x) m -> fits_i64 (Z.of_N m + z)) ->
       exists edits pr', rename e s uri (lsp_position src p) new = Val (Reply edits) /\ parse_from_str (e_u e) (patched src edits) = Val pr' /\
         retold (moved o n z) (recorded (pr_stmts pr) (pr_tokens pr)) (pr_tokens pr) (pr_tokens pr') /\ bound_alike pr pr')).
Proof.
  intros Hsrc Hv Ho Hp. destruct (shift_keeps _ _ _ _ _ _ Hsrc Hv Ho Hp) as (pr & Hpr & Hst & H). exists pr. split; [exact Hpr|]. split; [exact Hst|].
  destruct H as [H|(o & errs & Hin & Hc & Ht & H)]; [left; exact H|]. right. exists o, errs. split; [exact Hin|]. split; [exact Hc|]. split; [exact Ht|].
  intros new z n Ha Hn Hov Hk Hz Hg Hx. destruct (H _ _ _ Ha Hn Hov Hk) as (edits & pr' & E & Ep & (R & _) & B). exists edits, pr'. auto.
Qed.
