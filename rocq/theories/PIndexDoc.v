(** The index of a document. *)
From Verif Require Import Text Chumsky Tokenizer Parser Numbers Index SpecLex SpecParse SpecIndex PParseProps PIndex.

Lemma subseq_map {A B} (f : A -> B) a b : subseq a b -> subseq (map f a) (map f b).
Proof. induction 1; cbn; [constructor|apply sub_skip; assumption|apply sub_keep; assumption]. Qed.
Lemma subseq_flat_map {A B} (f g : A -> list B) l : (forall a, In a l -> subseq (f a) (g a)) -> subseq (flat_map f l) (flat_map g l).
Proof. induction l as [|a l IH]; cbn; intros H; [constructor|]. apply subseq_app; auto. Qed.
Lemma subseq_nodup {A} (a b : list A) : subseq a b -> NoDup b -> NoDup a.
Proof.
  induction 1 as [|l x r H IH|x l r H IH]; intros Hn; [exact Hn| |]; inversion Hn; subst; auto.
  constructor; [|auto]. intros Hin. eapply subseq_in in Hin; [|exact H]. contradiction.
Qed.
Lemma map_flat_map {A B C} (f : B -> C) (g : A -> list B) l : map f (flat_map g l) = flat_map (fun a => map f (g a)) l.
Proof. induction l as [|a l IH]; cbn; [reflexivity|]. rewrite map_app, IH. reflexivity. Qed.

Lemma instr_occ_tokens id i : subseq (map occ_token (instr_occs id i)) (instr_tokens i).
Proof.
  unfold instr_occs, instr_tokens. rewrite map_app. apply subseq_app; [destruct (i_target i); apply subseq_refl|].
  apply subseq_app_l. apply subseq_app_r. rewrite map_map. apply subseq_refl.
Qed.
Lemma block_occ_tokens id b : subseq (map occ_token (block_occs id b)) (bb_tokens b).
Proof.
  unfold block_occs, bb_tokens. rewrite map_app. apply subseq_app; [destruct (bb_label b); apply subseq_refl|].
  apply subseq_app_l. rewrite map_flat_map. apply subseq_flat_map. intros i _. apply instr_occ_tokens.
Qed.
Lemma sig_occ_tokens x sig ps : subseq ps (flat_map (fun a => [ttype (fa_type a); tlocal (fa_name a)]) (fs_args sig)) -> x = tglobal (fs_name sig) ->
  subseq (x :: ps) (sig_tokens sig).
Proof. intros H ->. unfold sig_tokens. apply subseq_app_l. cbn [app]. apply sub_skip, sub_keep. exact H. Qed.
Lemma stmt_occ_tokens id s : subseq (map occ_token (stmt_occs id s)) (stmt_tokens s).
Proof.
  destruct s; cbn [stmt_occs stmt_tokens map].
  - apply sub_keep, subseq_nil.
  - apply subseq_app_r. apply sig_occ_tokens; [apply subseq_nil|reflexivity].
  - apply sub_skip. rewrite map_app, app_comm_cons. apply subseq_app.
    + apply sig_occ_tokens; [|reflexivity]. unfold param_occs. rewrite map_map.
      induction (fs_args sig) as [|a l IH]; cbn; [constructor|]. apply sub_skip, sub_keep. exact IH.
    + apply subseq_app_l, subseq_app_r. rewrite map_flat_map. apply subseq_flat_map. intros b _. apply block_occ_tokens.
  - apply subseq_nil.
  - apply sub_keep, subseq_nil.
Qed.
Lemma tree_occ_tokens ss : forall id, subseq (map occ_token (tree_occs id ss)) (flat_map stmt_tokens ss).
Proof.
  induction ss as [|s ss IH]; intros id; cbn; [constructor|]. rewrite map_app. apply subseq_app; [apply stmt_occ_tokens|apply IH].
Qed.
Lemma token_occ_tokens ss toks : subseq (map occ_token (flat_map (token_occs ss) toks)) toks.
Proof.
  induction toks as [|[t sp] toks IH]; cbn; [constructor|]. rewrite map_app.
  change ((t, sp) :: toks) with ([(t, sp)] ++ toks). apply subseq_app; [|exact IH].
  unfold token_occs. cbn. destruct t; try apply subseq_nil.
  - destruct (containing _ _); [apply subseq_refl|apply subseq_nil].
  - destruct (is_function ss n); apply subseq_refl.
  - apply subseq_refl.
Qed.

Lemma spans_in_start toks : forall lo hi t, spans_in lo hi toks -> In t toks -> lo <= sp_start (snd t).
Proof.
  induction toks as [|[t sp] toks IH]; intros lo hi x H Hin; [contradiction|]. destruct H as (H1 & H2 & H3).
  destruct Hin as [<-|Hin]; [exact H1|]. specialize (IH _ _ _ H3 Hin). lia.
Qed.
Lemma spans_in_each toks : forall lo hi t, spans_in lo hi toks -> In t toks ->
  lo <= sp_start (snd t) /\ sp_start (snd t) < sp_end (snd t) /\ sp_end (snd t) <= hi.
Proof.
  induction toks as [|[t sp] toks IH]; intros lo hi x H Hin; [contradiction|]. destruct H as (H1 & H2 & H3).
  destruct Hin as [<-|Hin]; [cbn; pose proof (spans_in_le _ _ _ H3); lia|]. specialize (IH _ _ _ H3 Hin). lia.
Qed.
(** two tokens of a document are the same or do not overlap *)
Lemma spans_in_disjoint toks : forall lo hi a b, spans_in lo hi toks -> In a toks -> In b toks ->
  a = b \/ sp_end (snd a) <= sp_start (snd b) \/ sp_end (snd b) <= sp_start (snd a).
Proof.
  induction toks as [|[t sp] toks IH]; intros lo hi a b H Ha Hb; [contradiction|]. destruct H as (H1 & H2 & H3).
  destruct Ha as [<-|Ha], Hb as [<-|Hb].
  - auto.
  - right. left. eapply spans_in_start in Hb; [exact Hb|exact H3].
  - right. right. eapply spans_in_start in Ha; [exact Ha|exact H3].
  - eapply IH; eassumption.
Qed.
Lemma spans_in_nodup toks : forall lo hi, spans_in lo hi toks -> NoDup (map snd toks).
Proof.
  induction toks as [|[t sp] toks IH]; intros lo hi H; [constructor|]. destruct H as (H1 & H2 & H3). cbn. constructor; [|eapply IH; exact H3].
  intros Hin. apply in_map_iff in Hin as (x & E & Hin). eapply spans_in_start in Hin; [|exact H3]. rewrite E in Hin. lia.
Qed.

Lemma in_map_snd {A B} (a : A) b (l : list (A * B)) : In (a, b) l -> In b (map snd l).
Proof. intros H. apply (in_map snd) in H. exact H. Qed.

(** ** First occurrences *)
Lemma same_place_span a b : same_place a b = true -> o_span a = o_span b.
Proof. intros H. apply same_place_spec in H. tauto. Qed.
Lemma first_seen_nodup l : forall seen, NoDup (map o_span l) ->
  first_seen seen l = filter (fun o => negb (existsb (same_place o) seen)) l.
Proof.
  induction l as [|o l IH]; intros seen H; cbn; [reflexivity|]. inversion H; subst.
  destruct (existsb (same_place o) seen) eqn:E; cbn; [apply IH; assumption|]. f_equal. rewrite IH by assumption.
  apply filter_ext_in. intros x Hx. rewrite existsb_app. cbn. destruct (same_place x o) eqn:Es; [|rewrite !orb_false_r; reflexivity].
  exfalso. apply same_place_span in Es. apply H2. rewrite <- Es. apply in_map. exact Hx.
Qed.
Lemma first_seen_app a : forall seen b, first_seen seen (a ++ b) = first_seen seen a ++ first_seen (seen ++ first_seen seen a) b.
Proof.
  induction a as [|x a IH]; intros seen b; cbn; [rewrite app_nil_r; reflexivity|].
  destruct (existsb _ _); [apply IH|]. rewrite IH. cbn. rewrite <- app_assoc. reflexivity.
Qed.

Lemma tree_kind ss o : forall id, In o (tree_occs id ss) -> match o_kind o with
  | KLabel | KLocalVar => exists b, o_body o = Some b | _ => o_body o = None end.
Proof.
  induction ss as [|s l IH]; intros id; [contradiction|]. cbn [tree_occs]. rewrite in_app_iff. intros [H|H]; [|eapply IH; exact H].
  clear IH. destruct s; cbn [stmt_occs] in H.
  - destruct H as [<-|[]]. reflexivity.
  - destruct H as [<-|[]]. reflexivity.
  - destruct H as [<-|H]; [reflexivity|]. apply in_app_iff in H as [H|H].
    + unfold param_occs in H. apply in_map_iff in H as (a & <- & _). cbn. eauto.
    + apply in_flat_map in H as (x & _ & H). unfold block_occs in H. apply in_app_iff in H as [H|H].
      * destruct (bb_label x); cbn in H; [destruct H as [<-|[]]; cbn; eauto|contradiction].
      * apply in_flat_map in H as (i & _ & H). unfold instr_occs in H. apply in_app_iff in H as [H|H].
        -- destruct (i_target i); cbn in H; [destruct H as [<-|[]]; cbn; eauto|contradiction].
        -- apply in_map_iff in H as (r & <- & _). cbn. eauto.
  - contradiction.
  - destruct H as [<-|[]]. reflexivity.
Qed.

Section Doc.
Variables (hi : nat) (toks : list stoken) (ss : list statement).
Hypothesis Hsp : spans_in 0 hi toks.
Hypothesis Hsub : subseq (flat_map stmt_tokens ss) toks.
Hypothesis Hrg : ranges_in_order 0 (flat_map func_ranges ss).

Lemma tree_nodup : NoDup (map o_span (tree_occs 0 ss)).
Proof.
  assert (map o_span (tree_occs 0 ss) = map snd (map occ_token (tree_occs 0 ss))) as -> by (rewrite map_map; reflexivity).
  eapply subseq_nodup; [apply subseq_map; eapply subseq_trans; [apply tree_occ_tokens|exact Hsub]|]. eapply spans_in_nodup. exact Hsp.
Qed.
Lemma token_nodup : NoDup (map o_span (flat_map (token_occs ss) toks)).
Proof.
  assert (map o_span (flat_map (token_occs ss) toks) = map snd (map occ_token (flat_map (token_occs ss) toks))) as -> by (rewrite map_map; reflexivity).
  eapply subseq_nodup; [apply subseq_map; apply token_occ_tokens|]. eapply spans_in_nodup. exact Hsp.
Qed.
Definition fresh (o : occurrence) : bool := negb (existsb (same_place o) (tree_occs 0 ss)).
Lemma recorded_eq : recorded ss toks = tree_occs 0 ss ++ filter fresh (flat_map (token_occs ss) toks).
Proof.
  unfold recorded. rewrite first_seen_app. rewrite (first_seen_nodup _ []) by apply tree_nodup. cbn [existsb negb].
  assert (forall l : list occurrence, filter (fun _ => true) l = l) as Ht by (intros l; induction l; cbn; congruence).
  rewrite !Ht. cbn [app]. rewrite first_seen_nodup by apply token_nodup. reflexivity.
Qed.
Lemma recorded_token o : In o (recorded ss toks) -> In (occ_token o) toks.
Proof.
  rewrite recorded_eq, in_app_iff. intros [H|H].
  - eapply subseq_in; [eapply subseq_trans; [apply (tree_occ_tokens ss 0)|exact Hsub]|]. apply in_map. exact H.
  - apply filter_In in H as [H _]. eapply subseq_in; [apply (token_occ_tokens ss)|]. apply in_map. exact H.
Qed.
Lemma token_span_unique t t' : In t toks -> In t' toks -> snd t = snd t' -> t = t'.
Proof.
  intros H H' E. destruct (spans_in_disjoint _ _ _ _ _ Hsp H H') as [G|G]; [exact G|].
  pose proof (spans_in_each _ _ _ _ Hsp H) as Hb. rewrite E in *. lia.
Qed.

(** locals of the tree lie in their function *)
Lemma func_range_bounds kw sig body lo : ranges_in_order lo (map snd (stmt_tokens (SFuncDef kw sig body))) ->
  forall t, In t (stmt_tokens (SFuncDef kw sig body)) -> inside (snd t) (mkSpan (sp_start kw) (sp_end (fb_close body))).
Proof.
  cbn [stmt_tokens]. intros H t Ht. set (l := sig_tokens sig ++ _) in *. 
  assert (exists l', l = l' ++ [tp (ch "}") (fb_close body)]) as (l' & El).
  { unfold l. rewrite !app_assoc. eexists. reflexivity. }
  rewrite El in *. clear l El. cbn [map] in H. inversion H as [|n s q H1 H2 H3]; subst. cbn [snd] in *.
  assert (forall lo', ranges_in_order lo' (map snd (l' ++ [tp (ch "}") (fb_close body)])) -> lo' <= sp_end (fb_close body) /\
     forall x, In x (l' ++ [tp (ch "}") (fb_close body)]) -> lo' <= sp_start (snd x) /\ sp_end (snd x) <= sp_end (fb_close body)) as Hgen.
  { clear. induction l' as [|y l' IH]; intros lo' H; cbn [app map] in H.
    - inversion H; subst. cbn in *. split; [lia|]. intros x [<-|[]]. cbn. lia.
    - inversion H as [|n s q H1 H2 H3]; subst. destruct (IH _ H3) as [G1 G2]. split; [lia|].
      intros x [<-|Hx]; [lia|]. specialize (G2 x Hx). lia. }
  destruct (Hgen _ H3) as [G1 G2]. unfold inside. cbn. destruct Ht as [<-|Ht]; [cbn; lia|]. specialize (G2 t Ht). lia.
Qed.
Lemma in_order_app l1 l2 : forall lo, ranges_in_order lo (l1 ++ l2) -> exists lo', ranges_in_order lo l1 /\ ranges_in_order lo' l2.
Proof.
  induction l1 as [|x l1 IH]; cbn; intros lo H; [exists lo; split; [constructor|exact H]|]. inversion H; subst.
  destruct (IH _ H5) as (lo' & G1 & G2). exists lo'. split; [constructor; assumption|exact G2].
Qed.
Lemma stmt_occ_body id s o : In o (stmt_occs id s) -> forall b, o_body o = Some b -> b = id /\ exists kw sig body, s = SFuncDef kw sig body.
Proof.
  destruct s; cbn [stmt_occs]; intros H b Hb.
  - destruct H as [<-|[]]. discriminate.
  - destruct H as [<-|[]]. discriminate.
  - split; [|eauto]. destruct H as [<-|H]; [discriminate|]. apply in_app_iff in H as [H|H].
    + unfold param_occs in H. apply in_map_iff in H as (a & <- & _). cbn in Hb. congruence.
    + apply in_flat_map in H as (x & _ & H). unfold block_occs in H. apply in_app_iff in H as [H|H].
      * destruct (bb_label x); cbn in H; [destruct H as [<-|[]]; cbn in Hb; congruence|contradiction].
      * apply in_flat_map in H as (i & _ & H). unfold instr_occs in H. apply in_app_iff in H as [H|H].
        -- destruct (i_target i); cbn in H; [destruct H as [<-|[]]; cbn in Hb; congruence|contradiction].
        -- apply in_map_iff in H as (r & <- & _). cbn in Hb. congruence.
  - contradiction.
  - destruct H as [<-|[]]. discriminate.
Qed.
Lemma tree_body_range_gen l : forall id lo o b, ranges_in_order lo (map snd (flat_map stmt_tokens l)) ->
  In o (tree_occs id l) -> o_body o = Some b ->
  exists k r, b = id + k /\ nth_error (flat_map func_ranges l) k = Some r /\ inside (o_span o) r.
Proof.
  induction l as [|s l IH]; intros id lo o b Ho Hin Hb; [contradiction|]. cbn in Ho. rewrite map_app in Ho.
  apply in_order_app in Ho as (lo' & Ho1 & Ho2). cbn [tree_occs] in Hin. apply in_app_iff in Hin as [Hin|Hin].
  - pose proof (stmt_occ_body _ _ _ Hin _ Hb) as (-> & kw & sig & body & ->).
    exists 0, (mkSpan (sp_start kw) (sp_end (fb_close body))). split; [lia|]. split; [reflexivity|].
    change (o_span o) with (snd (occ_token o)). eapply func_range_bounds; [exact Ho1|].
    eapply subseq_in; [apply (stmt_occ_tokens id)|]. apply in_map. exact Hin.
  - destruct (IH _ _ _ _ Ho2 Hin Hb) as (k & r & -> & Hn & Hi). exists (is_def s + k), r. split; [lia|]. split; [|exact Hi].
    cbn [flat_map]. destruct s; exact Hn.
Qed.
Lemma tree_order : ranges_in_order 0 (map snd (flat_map stmt_tokens ss)).
Proof. eapply tiles_order; [apply tiles_sub; exact Hsub|exact Hsp]. Qed.
Lemma tree_body_range o b : In o (tree_occs 0 ss) -> o_body o = Some b ->
  exists r, nth_error (flat_map func_ranges ss) b = Some r /\ inside (o_span o) r.
Proof.
  intros H Hb. destruct (tree_body_range_gen ss 0 0 o b tree_order H Hb) as (k & r & -> & H1 & H2). exists r. auto.
Qed.
Lemma contains_start o r : In o (recorded ss toks) \/ In o (tree_occs 0 ss) -> inside (o_span o) r -> span_contains r (sp_start (o_span o)) = true.
Proof.
  intros H [H1 H2]. assert (In (occ_token o) toks) as Hin.
  { destruct H as [H|H]; [apply recorded_token; exact H|]. apply recorded_token. rewrite recorded_eq. apply in_app_iff. auto. }
  apply (spans_in_each _ _ _ _ Hsp) in Hin. cbn in Hin. unfold span_contains. apply andb_true_iff.
  split; [apply Nat.leb_le|apply Nat.ltb_lt]; lia.
Qed.

Lemma tree_token o : In o (tree_occs 0 ss) -> In (occ_token o) toks.
Proof. intros H. apply recorded_token. rewrite recorded_eq. apply in_app_iff. auto. Qed.
Lemma tree_var o : forall id, In o (tree_occs id ss) -> o_kind o = KGlobalVar -> existsb (defines_var (o_name o)) ss = true.
Proof.
  clear Hsub Hrg. induction ss as [|s l IH]; intros id H Hk; [contradiction|]. cbn [tree_occs existsb] in *. apply orb_true_iff.
  apply in_app_iff in H as [H|H]; [|right; eapply IH; [exact H|exact Hk]]. left. clear IH.
  destruct s; cbn [stmt_occs] in H.
  - destruct H as [<-|[]]. cbn. apply text_eqb_refl.
  - destruct H as [<-|[]]. discriminate.
  - exfalso. destruct H as [<-|H]; [discriminate|]. apply in_app_iff in H as [H|H].
    + unfold param_occs in H. apply in_map_iff in H as (a & <- & _). discriminate.
    + apply in_flat_map in H as (x & _ & H). unfold block_occs in H. apply in_app_iff in H as [H|H].
      * destruct (bb_label x); cbn in H; [destruct H as [<-|[]]; discriminate|contradiction].
      * apply in_flat_map in H as (i & _ & H). unfold instr_occs in H. apply in_app_iff in H as [H|H].
        -- destruct (i_target i); cbn in H; [destruct H as [<-|[]]; discriminate|contradiction].
        -- apply in_map_iff in H as (r & <- & _). discriminate.
  - contradiction.
  - destruct H as [<-|[]]. discriminate.
Qed.
Lemma mixed t o o' : In t toks -> In o (token_occs ss t) -> In o' (tree_occs 0 ss) -> o_span o' = snd t ->
  dual_token ss t \/ same_place o o' = true.
Proof.
  intros Ht Ho Ho' E. assert (occ_token o' = t) as Et by (apply token_span_unique; [apply tree_token; exact Ho'|exact Ht|exact E]).
  subst t. unfold token_occs, occ_token in Ho. cbn [fst snd] in Ho. pose proof (tree_kind _ _ _ Ho') as Hk. rewrite same_place_spec.
  destruct (o_kind o') eqn:Ek; cbn [fst snd] in *.
  - destruct Ho as [<-|[]]. cbn. destruct (is_function ss (o_name o')) eqn:Ef; [left|right; auto].
    unfold occ_token, dual_token. rewrite Ek. cbn. split; [|exact Ef]. eapply tree_var; [exact Ho'|exact Ek].
  - destruct Ho as [<-|[]]. cbn. right. assert (is_function ss (o_name o') = true) as ->; [|auto].
    apply (function_symbols _ ss 0). exists o'. auto.
  - destruct Ho as [<-|[]]. cbn. auto.
  - contradiction.
  - destruct Hk as [b Hb]. destruct (tree_body_range _ _ Ho' Hb) as (r & Hr & Hi).
    rewrite (containing_unique _ _ 0 b r Hrg Hr) in Ho; [|apply contains_start; [right; exact Ho'|exact Hi]].
    destruct Ho as [<-|[]]. cbn. auto.
Qed.
Lemma in_token_occs o : In o (flat_map (token_occs ss) toks) -> In (occ_token o) toks /\ In o (token_occs ss (occ_token o)).
Proof.
  intros H. apply in_flat_map in H as ([t sp] & Ht & H). pose proof H as H'. unfold token_occs in H. cbn in H. 
  assert (occ_token o = (t, sp)) as ->; [|auto]. unfold occ_token. destruct t; try contradiction.
  - destruct (containing _ _); [|contradiction]. destruct H as [<-|[]]. reflexivity.
  - destruct H as [<-|[]]. cbn. destruct (is_function ss n); reflexivity.
  - destruct H as [<-|[]]. reflexivity.
Qed.
Lemma nodup_map_inj {A B} (f : A -> B) l a b : NoDup (map f l) -> In a l -> In b l -> f a = f b -> a = b.
Proof.
  induction l as [|x l IH]; cbn; [contradiction|]. intros H. inversion H; subst. intros [->|Ha] [->|Hb] E; auto.
  - exfalso. apply H2. rewrite E. apply in_map. exact Hb.
  - exfalso. apply H2. rewrite <- E. apply in_map. exact Ha.
Qed.
Lemma recorded_unique o o' : In o (recorded ss toks) -> In o' (recorded ss toks) -> o_span o = o_span o' ->
  o = o' \/ dual_token ss (occ_token o).
Proof.
  intros H1 H2 E0. assert (occ_token o = occ_token o') as Et by (apply token_span_unique; [apply recorded_token; exact H1|apply recorded_token; exact H2|exact E0]).
  revert H1 H2 E0. rewrite recorded_eq, !in_app_iff, !filter_In. intros [H|[H Hf]] [H'|[H' Hf']] E.
  - left. eapply nodup_map_inj; [apply tree_nodup|exact H|exact H'|exact E].
  - destruct (in_token_occs _ H') as [G1 G2]. destruct (mixed _ _ _ G1 G2 H E) as [G|G]; [rewrite Et; auto|].
    exfalso. unfold fresh in Hf'. apply negb_true_iff in Hf'. assert (existsb (same_place o') (tree_occs 0 ss) = true); [|congruence].
    apply existsb_exists. eauto.
  - destruct (in_token_occs _ H) as [G1 G2]. destruct (mixed _ _ _ G1 G2 H' (eq_sym E)) as [G|G]; [auto|].
    exfalso. unfold fresh in Hf. apply negb_true_iff in Hf. assert (existsb (same_place o) (tree_occs 0 ss) = true); [|congruence].
    apply existsb_exists. eauto.
  - left. eapply nodup_map_inj; [apply token_nodup|exact H|exact H'|exact E].
Qed.
Lemma nodup_app {A} (a b : list A) : NoDup a -> NoDup b -> (forall x, In x a -> ~ In x b) -> NoDup (a ++ b).
Proof.
  induction a as [|x a IH]; cbn; intros Ha Hb Hd; [exact Hb|]. inversion Ha; subst. constructor.
  - rewrite in_app_iff. intros [H|H]; [contradiction|]. exact (Hd x (or_introl eq_refl) H).
  - apply IH; auto. 
Qed.
Lemma recorded_nodup : NoDup (recorded ss toks).
Proof.
  rewrite recorded_eq. apply nodup_app.
  - eapply NoDup_map_inv. apply tree_nodup.
  - apply NoDup_filter. eapply NoDup_map_inv. apply token_nodup.
  - intros x H H'. apply filter_In in H' as [_ H']. unfold fresh in H'. apply negb_true_iff in H'.
    assert (existsb (same_place x) (tree_occs 0 ss) = true); [|congruence]. apply existsb_exists. exists x. split; [exact H|].
    apply same_place_spec. auto.
Qed.
Lemma range_close r b : nth_error (flat_map func_ranges ss) b = Some r -> exists c, In (tp (ch "}") c) toks /\ sp_end c = sp_end r.
Proof.
  intros H. apply nth_error_In in H. apply in_flat_map in H as (s & Hs & H). destruct s; try contradiction. destruct H as [<-|[]].
  exists (fb_close body). split; [|reflexivity]. eapply subseq_in; [exact Hsub|]. apply in_flat_map. eexists. split; [exact Hs|].
  cbn [stmt_tokens]. right. apply in_app_iff. right. apply in_app_iff. right. apply in_app_iff. right. left. reflexivity.
Qed.
Lemma starts_inside t r b : In t toks -> (match fst t with TPunct _ => False | _ => True end) -> nth_error (flat_map func_ranges ss) b = Some r ->
  span_contains r (sp_start (snd t)) = true -> inside (snd t) r.
Proof.
  intros Ht Hn Hr Hc. unfold span_contains in Hc. apply andb_true_iff in Hc as [H1 H2]. apply Nat.leb_le in H1. apply Nat.ltb_lt in H2.
  destruct (range_close _ _ Hr) as (c & Hcin & Ec). split; [exact H1|].
  destruct (spans_in_disjoint _ _ _ _ _ Hsp Ht Hcin) as [->|[G|G]]; [contradiction| |cbn in G; lia].
  pose proof (spans_in_each _ _ _ _ Hsp Hcin). cbn in *. lia.
Qed.
Lemma recorded_body o b : In o (recorded ss toks) -> o_body o = Some b ->
  exists r, nth_error (flat_map func_ranges ss) b = Some r /\ inside (o_span o) r.
Proof.
  intros H Hb. pose proof (recorded_token _ H) as Ht. rewrite recorded_eq, in_app_iff, filter_In in H. destruct H as [H|[H _]].
  - apply tree_body_range; assumption.
  - destruct (in_token_occs _ H) as [_ G]. unfold token_occs, occ_token in G. cbn [fst snd] in G.
    destruct (o_kind o) eqn:Ek; cbn in G; try contradiction; try (destruct G as [G|[]]; rewrite <- G in Hb; discriminate Hb).
    destruct (containing _ _) as [id|] eqn:Ec; [|contradiction]. destruct G as [G|[]]. assert (id = b) as -> by (rewrite <- G in Hb; cbn in Hb; congruence).
    apply containing_some in Ec as (r & Hr & Hc). exists r. split; [exact Hr|].
    apply (starts_inside (occ_token o) r b Ht); [unfold occ_token; rewrite Ek; exact I|exact Hr|exact Hc].
Qed.
Lemma recorded_covers t : In t toks -> names_symbol ss t -> exists o, In o (recorded ss toks) /\ o_span o = snd t.
Proof.
  intros Ht Hn.
  assert (exists o, In o (token_occs ss t) /\ o_span o = snd t) as (o & Ho & Eo).
  { destruct t as [t sp]. unfold names_symbol in Hn. cbn [fst snd] in Hn. unfold token_occs. cbn [fst snd]. destruct t; try contradiction.
    - destruct Hn as (r & Hr & Hi). apply In_nth_error in Hr as (b & Hr).
      rewrite (containing_unique _ _ 0 b r Hrg Hr); [eexists; split; [left; reflexivity|reflexivity]|].
      destruct Hi as [H1 H2]. apply (spans_in_each _ _ _ _ Hsp) in Ht. cbn in *. unfold span_contains. apply andb_true_iff.
      split; [apply Nat.leb_le|apply Nat.ltb_lt]; lia.
    - eexists. split; [left; reflexivity|reflexivity].
    - eexists. split; [left; reflexivity|reflexivity]. }
  destruct (fresh o) eqn:Ef.
  - exists o. split; [|exact Eo]. rewrite recorded_eq. apply in_app_iff. right. apply filter_In. split; [|exact Ef].
    apply in_flat_map. eauto.
  - unfold fresh in Ef. apply negb_false_iff, existsb_exists in Ef as (o' & Ho' & E). exists o'.
    split; [rewrite recorded_eq; apply in_app_iff; auto|]. apply same_place_span in E. congruence.
Qed.
End Doc.

(** ** Cursor lookup *)
Section Rev.
Context {X : Type} (key : X -> nat).
Definition bt_of (l : list X) : list (nat * X) := fold_left (fun m x => bt_insert (key x) x m) l [].
Fixpoint keys_sorted (m : list (nat * X)) : Prop :=
  match m with [] => True | (k, _) :: r => Forall (fun e => k < fst e) r /\ keys_sorted r end.
Lemma bt_insert_in k x m k' x' : keys_sorted m -> In (k', x') (bt_insert k x m) <-> (k', x') = (k, x) \/ (In (k', x') m /\ k' <> k).
Proof.
  induction m as [|[a y] m IH]; cbn [bt_insert]; intros Hs.
  - cbn. intuition.
  - destruct Hs as [H1 H2]. rewrite Forall_forall in H1.
    destruct (Nat.ltb_spec k a) as [Hlt|Hge]; [|destruct (Nat.eqb_spec k a) as [->|Hne]].
    + cbn [In]. split; [intros [E|[E|E]]; [left; congruence| |]; right|].
      * injection E as -> ->. split; [auto|lia].
      * split; [auto|]. specialize (H1 _ E). cbn in H1. lia.
      * intros [E|[E _]]; [left; congruence|right; exact E].
    + cbn [In]. split; [intros [E|E]; [left; congruence|right]|].
      * split; [auto|]. specialize (H1 _ E). cbn in H1. lia.
      * intros [E|[[E|E] Hk]]; [left; congruence| |right; exact E]. injection E as <- <-. congruence.
    + cbn [In]. rewrite (IH H2). split.
      * intros [E|[E|[E Hk]]]; [right; injection E as <- <-; split; [left; reflexivity|congruence]|left; exact E|right; split; [right; exact E|exact Hk]].
      * intros [E|[[E|E] Hk]]; [right; left; exact E|left; exact E|right; right; split; assumption].
Qed.
Lemma bt_insert_sorted k x m : keys_sorted m -> keys_sorted (bt_insert k x m).
Proof.
  induction m as [|[a y] m IH]; cbn [bt_insert]; intros Hs; [cbn; auto|]. destruct Hs as [H1 H2].
  destruct (Nat.ltb_spec k a) as [Hlt|Hge]; [|destruct (Nat.eqb_spec k a) as [->|Hne]].
  - cbn. split; [|auto]. constructor; [exact Hlt|]. eapply Forall_impl; [|exact H1]. cbn. intros e He. lia.
  - cbn. auto.
  - cbn [keys_sorted]. split; [|apply IH; exact H2]. apply Forall_forall. intros [k' x'] Hin.
    apply (bt_insert_in k x m k' x' H2) in Hin as [E|[Hin _]]; [injection E as -> ->; cbn; lia|].
    rewrite Forall_forall in H1. exact (H1 _ Hin).
Qed.
Lemma bt_of_snoc l x : bt_of (l ++ [x]) = bt_insert (key x) x (bt_of l).
Proof. unfold bt_of. rewrite fold_left_app. reflexivity. Qed.
Lemma bt_of_sorted l : keys_sorted (bt_of l).
Proof. induction l as [|x l IH] using rev_ind; [exact I|]. rewrite bt_of_snoc. apply bt_insert_sorted. exact IH. Qed.
(** each key maps to the last element with this key *)
Lemma bt_of_in l k x : In (k, x) (bt_of l) <-> key x = k /\ find (fun y => key y =? k) (rev l) = Some x.
Proof.
  revert k x. induction l as [|y l IH] using rev_ind; intros k x; [cbn; split; [contradiction|intros [_ H]; discriminate]|].
  rewrite bt_of_snoc, bt_insert_in by apply bt_of_sorted. rewrite IH, rev_app_distr. cbn [rev app find].
  destruct (Nat.eqb_spec (key y) k) as [<-|Hn].
  - split.
    + intros [E|[_ E]]; [inversion E; subst; auto|congruence].
    + intros [Hk E]. injection E as ->. left. reflexivity.
  - split.
    + intros [E|[E _]]; [inversion E; subst; congruence|exact E].
    + intros E. right. split; [exact E|congruence].
Qed.
End Rev.

Lemma find_ext_in {A} (f : A -> bool) l x : In x l -> f x = true -> exists y, find f l = Some y.
Proof.
  intros H E. destruct (find f l) as [y|] eqn:F; [eauto|]. eapply find_none in F; [|exact H]. congruence.
Qed.
Lemma find_ext_span {A} (f g : A -> bool) l : (forall x, In x l -> f x = g x) -> find f l = find g l.
Proof.
  induction l as [|a l IH]; cbn; intros H; [reflexivity|]. rewrite (H a (or_introl eq_refl)). destruct (g a); [reflexivity|]. auto.
Qed.
(** If spans are equal or disjoint, the lookup gives the last occurrence that contains the position. *)
Lemma find_reverse l p :
  (forall a b, In a l -> In b l -> o_span a = o_span b \/ sp_end (o_span a) <= sp_start (o_span b) \/ sp_end (o_span b) <= sp_start (o_span a)) ->
  (forall a, In a l -> sp_start (o_span a) < sp_end (o_span a)) ->
  find (fun o => span_contains (o_span o) p) (map snd (rev_of l)) = find (fun o => span_contains (o_span o) p) (rev l).
Proof.
  intros Hd Hne. change (rev_of l) with (bt_of (fun o => sp_start (o_span o)) l).
  assert (Hin : forall o, In o (map snd (bt_of (fun o => sp_start (o_span o)) l)) <->
     find (fun y => sp_start (o_span y) =? sp_start (o_span o)) (rev l) = Some o).
  { intros o. rewrite in_map_iff. split.
    - intros ([k x] & <- & H). cbn [snd]. apply bt_of_in in H as [-> H]. exact H.
    - intros H. exists (sp_start (o_span o), o). split; [reflexivity|]. apply bt_of_in. auto. }
  assert (Hc : forall a b, In a l -> In b l -> span_contains (o_span a) p = true -> span_contains (o_span b) p = true -> o_span a = o_span b).
  { intros a b Ha Hb Ea Eb. unfold span_contains in *. apply andb_true_iff in Ea as [A1 A2], Eb as [B1 B2].
    apply Nat.leb_le in A1, B1. apply Nat.ltb_lt in A2, B2. destruct (Hd a b Ha Hb) as [E|[E|E]]; [exact E|lia|lia]. }
  assert (Hlast : forall o, find (fun o => span_contains (o_span o) p) (rev l) = Some o ->
     find (fun y => sp_start (o_span y) =? sp_start (o_span o)) (rev l) = Some o).
  { intros o H. pose proof (find_some _ _ H) as [Ho Eo]. 
    rewrite <- H. apply find_ext_span; clear H.
    intros x Hx. apply in_rev in Hx, Ho. apply eq_true_iff_eq. rewrite Nat.eqb_eq. split.
    - intros E. assert (o_span x = o_span o) as ->; [|exact Eo]. destruct (Hd x o Hx Ho) as [G|[G|G]]; [exact G| |];
        pose proof (Hne x Hx); pose proof (Hne o Ho); lia.
    - intros E. rewrite (Hc x o Hx Ho E Eo). reflexivity. }
  destruct (find _ (rev l)) as [o|] eqn:E.
  - pose proof (find_some _ _ E) as [Ho Eo]. pose proof (proj2 (Hin o) (Hlast o eq_refl)) as Hm.
    destruct (find_ext_in (fun o => span_contains (o_span o) p) _ _ Hm Eo) as (y & Hy). rewrite Hy. f_equal. apply find_some in Hy as [Hy Ey].
    apply Hin in Hy. pose proof (find_some _ _ Hy) as [Hy' _]. apply in_rev in Hy', Ho.
    specialize (Hlast o eq_refl). rewrite (Hc y o Hy' Ho Ey Eo) in Hy. congruence.
  - destruct (find _ (map snd _)) as [y|] eqn:F; [|reflexivity]. exfalso. apply find_some in F as [Hy Ey]. apply Hin in Hy.
    apply find_some in Hy as [Hy _]. eapply find_none in E; [|exact Hy]. congruence.
Qed.

(** ** Documents *)
Definition indexed (u : uclass) (src : text) (pr : parser_result) (ix : hir_index) : Prop :=
  parse_from_str u src = Val pr /\ create_index src (pr_tokens pr) (pr_stmts pr) = Val ix.
Lemma indexed_ok u src pr ix : indexed u src pr ix ->
  index_of src (pr_stmts pr) (pr_tokens pr) ix /\ index_is ix (recorded (pr_stmts pr) (pr_tokens pr)) /\
  spans_in 0 (length src) (pr_tokens pr) /\ subseq (flat_map stmt_tokens (pr_stmts pr)) (pr_tokens pr) /\
  ranges_in_order 0 (flat_map func_ranges (pr_stmts pr)).
Proof.
  intros [H1 H2]. pose proof (layout _ _ _ H1) as (_ & Hr & _). pose proof (provenance _ _ _ H1) as Hs.
  apply parse_from_str_module in H1 as [Hsp _].
  destruct (create_index_ok src (pr_tokens pr) (pr_stmts pr) Hr) as [[_ E]|[_ (ix' & E & G1 & G2)]]; [congruence|].
  assert (ix' = ix) as -> by congruence. auto.
Qed.
Lemma listed_recorded ix l o : index_is ix l -> (listed ix o <-> In o l).
Proof.
  intros [I1 I2 I3 I4 I5 I6].
  assert (Hm : forall m, table_of ix (o_kind o) (o_body o) = Some m -> table_is m l (o_kind o) (o_body o)).
  { intros m. unfold table_of. destruct (o_kind o), (o_body o) as [id|]; try discriminate; try (intros H; injection H as <-; assumption).
    - destruct (nth_error (function_bodies ix) id) as [fb|] eqn:E; [|discriminate]. intros H; injection H as <-. apply (I5 _ _ E).
    - destruct (nth_error (function_bodies ix) id) as [fb|] eqn:E; [|discriminate]. intros H; injection H as <-. apply (I5 _ _ E). }
  assert (Hsp : forall m e, table_is m l (o_kind o) (o_body o) -> alookup (o_name o) m = Some e ->
     get_use_def_kind e (o_ud o) = spans_of l (o_ud o) (o_kind o) (o_body o) (o_name o)).
  { intros m e [_ Ht] E. specialize (Ht (o_name o)). rewrite E in Ht. destruct (o_ud o); cbn; tauto. }
  split.
  - intros (m & e & H1 & H2 & H3). rewrite (Hsp m e (Hm m H1) H2) in H3. apply in_spans_of in H3 as (x & Hx & E1 & E2 & E3 & E4 & E5).
    assert (x = o) as <-; [|exact Hx]. destruct x, o. cbn in *. congruence.
  - intros H. pose proof (I6 o H) as Hsc.
    assert (exists m, table_of ix (o_kind o) (o_body o) = Some m) as (m & Em).
    { unfold scope_ok in Hsc. unfold table_of. destruct (o_kind o), (o_body o) as [id|]; try contradiction; try (eexists; reflexivity);
        (destruct (nth_error (function_bodies ix) id) eqn:E; [eexists; reflexivity|apply nth_error_None in E; lia]). }
    pose proof (Hm m Em) as Ht. destruct (alookup (o_name o) m) as [e|] eqn:Ee.
    + exists m, e. split; [exact Em|]. split; [exact Ee|]. rewrite (Hsp m e Ht Ee). apply in_spans_of. exists o. auto 10.
    + exfalso. destruct Ht as [_ Ht]. specialize (Ht (o_name o)). rewrite Ee in Ht. apply Ht. exists o. auto.
Qed.

(** C16 *)
Lemma symbol_indexed u src pr ix t : indexed u src pr ix -> In t (pr_tokens pr) -> names_symbol (pr_stmts pr) t ->
  exists o, listed ix o /\ occ_token o = t /\
    forall o', listed ix o' -> o_span o' = snd t -> o' = o \/ dual_token (pr_stmts pr) t.
Proof.
  intros H Ht Hn. apply indexed_ok in H as (_ & Hi & Hsp & Hsub & Hr).
  destruct (recorded_covers _ _ _ Hsp Hsub Hr t Ht Hn) as (o & Ho & Eo).
  assert (occ_token o = t) as Et by (eapply token_span_unique; [exact Hsp|eapply recorded_token; eassumption|exact Ht|exact Eo]).
  exists o. rewrite (listed_recorded _ _ _ Hi). split; [exact Ho|]. split; [exact Et|].
  intros o' Ho' E'. apply (listed_recorded _ _ _ Hi) in Ho'. rewrite <- Et. 
  destruct (recorded_unique _ _ _ Hsp Hsub Hr o o' Ho Ho') as [<-|G]; [congruence|auto|auto].
Qed.
(** no entry is repeated in a list *)
Lemma lists_nodup u src pr ix k b m n e ud : indexed u src pr ix -> table_of ix k b = Some m -> alookup n m = Some e ->
  NoDup (get_use_def_kind e ud).
Proof.
  intros H Hm He. apply indexed_ok in H as (_ & [I1 I2 I3 I4 I5 I6] & Hsp & Hsub & Hr).
  assert (table_is m (recorded (pr_stmts pr) (pr_tokens pr)) k b) as Ht.
  { unfold table_of in Hm. destruct k, b as [id|]; try discriminate; try (injection Hm as <-; assumption);
      (destruct (nth_error (function_bodies ix) id) as [fb|] eqn:E; [|discriminate]; injection Hm as <-; apply (I5 _ _ E)). }
  assert (get_use_def_kind e ud = spans_of (recorded (pr_stmts pr) (pr_tokens pr)) ud k b n) as ->.
  { destruct Ht as [_ Ht]. specialize (Ht n). rewrite He in Ht. destruct ud; cbn; tauto. }
  unfold spans_of. assert (forall l, NoDup l -> (forall x, In x l -> In x (recorded (pr_stmts pr) (pr_tokens pr)) /\ entry_is ud k b n x = true) -> NoDup (map o_span l)) as Hg.
  { induction l as [|x l IH]; intros Hn Hl; cbn; [constructor|]. inversion Hn; subst. constructor; [|apply IH; [assumption|intros y Hy; apply Hl; right; exact Hy]].
    intros Hin. apply in_map_iff in Hin as (y & E & Hy). destruct (Hl x (or_introl eq_refl)) as [_ E1]. destruct (Hl y (or_intror Hy)) as [_ E2].
    apply entry_is_spec in E1, E2. assert (x = y) as ->; [|contradiction]. destruct x, y. cbn in *. intuition congruence. }
  apply Hg; [apply NoDup_filter; eapply recorded_nodup; eassumption|]. intros x Hx. apply filter_In in Hx. exact Hx.
Qed.
(** C17 *)
Lemma listed_token u src pr ix o : indexed u src pr ix -> listed ix o -> In (occ_token o) (pr_tokens pr).
Proof.
  intros H Ho. apply indexed_ok in H as (_ & Hi & Hsp & Hsub & Hr). apply (listed_recorded _ _ _ Hi) in Ho.
  eapply recorded_token; eassumption.
Qed.
(** C18 *)
Lemma rev_nodup_find u src pr ix p : indexed u src pr ix ->
  find_symbol_at_position ix p = find (fun o => span_contains (o_span o) p) (rev (recorded (pr_stmts pr) (pr_tokens pr))).
Proof.
  intros H. apply indexed_ok in H as (_ & Hi & Hsp & Hsub & Hr). unfold find_symbol_at_position. rewrite (ii_rev _ _ Hi).
  apply find_reverse.
  - intros a b Ha Hb. eapply recorded_token in Ha; [|eassumption|eassumption]. eapply recorded_token in Hb; [|eassumption|eassumption].
    destruct (spans_in_disjoint _ _ _ _ _ Hsp Ha Hb) as [E|E]; [left|right; exact E]. apply (f_equal snd) in E. exact E.
  - intros a Ha. eapply recorded_token in Ha; [|eassumption|eassumption]. apply (spans_in_each _ _ _ _ Hsp) in Ha. cbn in Ha. lia.
Qed.
Lemma lookup_some u src pr ix p o : indexed u src pr ix -> find_symbol_at_position ix p = Some o ->
  listed ix o /\ span_contains (o_span o) p = true.
Proof.
  intros H E. rewrite (rev_nodup_find _ _ _ _ _ H) in E. apply indexed_ok in H as (_ & Hi & _).
  apply find_some in E as [E1 E2]. apply in_rev in E1. split; [apply (listed_recorded _ _ _ Hi); exact E1|exact E2].
Qed.
Lemma lookup_none u src pr ix p : indexed u src pr ix -> find_symbol_at_position ix p = None ->
  forall o, listed ix o -> span_contains (o_span o) p = false.
Proof.
  intros H E o Ho. rewrite (rev_nodup_find _ _ _ _ _ H) in E. apply indexed_ok in H as (_ & Hi & _).
  apply (listed_recorded _ _ _ Hi) in Ho. eapply find_none in E; [exact E|]. apply in_rev in Ho. exact Ho.
Qed.
Lemma lookup_unique u src pr ix p o : indexed u src pr ix -> listed ix o -> span_contains (o_span o) p = true ->
  ~ dual_token (pr_stmts pr) (occ_token o) -> find_symbol_at_position ix p = Some o.
Proof.
  intros H Ho Hc Hd. destruct (find_symbol_at_position ix p) as [o'|] eqn:E.
  - f_equal. apply (lookup_some _ _ _ _ _ _ H) in E as [Ho' Hc']. pose proof (listed_token _ _ _ _ _ H Ho) as Ht.
    pose proof (listed_token _ _ _ _ _ H Ho') as Ht'. apply indexed_ok in H as (_ & Hi & Hsp & Hsub & Hr).
    apply (listed_recorded _ _ _ Hi) in Ho, Ho'.
    assert (o_span o = o_span o') as Es.
    { destruct (spans_in_disjoint _ _ _ _ _ Hsp Ht Ht') as [Et|Et]; [apply (f_equal snd) in Et; exact Et|].
      cbn in Et. unfold span_contains in *. apply andb_true_iff in Hc as [A1 A2], Hc' as [B1 B2].
      apply Nat.leb_le in A1, B1. apply Nat.ltb_lt in A2, B2. lia. }
    destruct (recorded_unique _ _ _ Hsp Hsub Hr o o' Ho Ho' Es) as [G|G]; [congruence|contradiction].
  - rewrite (lookup_none _ _ _ _ _ H E o Ho) in Hc. discriminate.
Qed.
(** C19 *)
Lemma listed_scope u src pr ix o : indexed u src pr ix -> listed ix o ->
  match o_kind o with
  | KLabel | KLocalVar => exists id fb, o_body o = Some id /\ nth_error (function_bodies ix) id = Some fb /\
      inside (o_span o) (complete_range fb) /\
      forall id' fb', nth_error (function_bodies ix) id' = Some fb' -> id' <> id ->
        sp_end (complete_range fb') <= sp_start (o_span o) \/ sp_end (o_span o) <= sp_start (complete_range fb')
  | _ => o_body o = None
  end.
Proof.
  intros H Ho. apply indexed_ok in H as (Hio & Hi & Hsp & Hsub & Hr). apply (listed_recorded _ _ _ Hi) in Ho.
  pose proof (ii_scope _ _ Hi _ Ho) as Hsc. unfold scope_ok in Hsc.
  assert (forall id, o_body o = Some id -> id < length (function_bodies ix) ->
     exists id fb, o_body o = Some id /\ nth_error (function_bodies ix) id = Some fb /\ inside (o_span o) (complete_range fb) /\
      forall id' fb', nth_error (function_bodies ix) id' = Some fb' -> id' <> id ->
        sp_end (complete_range fb') <= sp_start (o_span o) \/ sp_end (o_span o) <= sp_start (complete_range fb')) as Hb.
  { intros id Hb Hlt. destruct (recorded_body _ _ _ Hsp Hsub o id Ho Hb) as (r & Hn & Hin).
    exists id. destruct (nth_error (function_bodies ix) id) as [fb|] eqn:E; [|apply nth_error_None in E; lia].
    exists fb. split; [exact Hb|]. split; [reflexivity|].
    assert (r = complete_range fb) as ->.
    { rewrite <- (io_ranges _ _ _ _ Hio) in Hn. apply (map_nth_error complete_range) in E. congruence. }
    split; [exact Hin|]. intros id' fb' E' Hne.
    assert (nth_error (flat_map func_ranges (pr_stmts pr)) id' = Some (complete_range fb')) as Hn'.
    { rewrite <- (io_ranges _ _ _ _ Hio). apply map_nth_error. exact E'. }
    assert (forall l lo i j a b, ranges_in_order lo l -> nth_error l i = Some a -> nth_error l j = Some b -> i < j -> sp_end a <= sp_start b) as Hdis.
    { clear. induction l as [|x l IH]; intros lo [|i] [|j] a b Ho Ha Hb Hlt; try discriminate; try lia; inversion Ho; subst; cbn in *.
      - injection Ha as <-. apply nth_error_In in Hb. eapply in_order_start; eassumption.
      - eapply IH; [eassumption|eassumption|eassumption|lia]. }
    destruct Hin as [A1 A2]. destruct (Nat.lt_trichotomy id id') as [Hlt'|[Heq|Hlt']]; [| congruence|].
    - right. specialize (Hdis _ _ _ _ _ _ Hr Hn Hn' Hlt'). lia.
    - left. specialize (Hdis _ _ _ _ _ _ Hr Hn' Hn Hlt'). lia. }
  destruct (o_kind o), (o_body o) as [id|]; try contradiction; try reflexivity; eapply Hb; [reflexivity|exact Hsc|reflexivity|exact Hsc].
Qed.
(** C20 *)
Lemma listed_exact u src pr ix o : indexed u src pr ix ->
  (listed ix o <-> In o (tree_occs 0 (pr_stmts pr)) \/
    (exists t, In t (pr_tokens pr) /\ In o (token_occs (pr_stmts pr) t) /\
       forall o', In o' (tree_occs 0 (pr_stmts pr)) -> occ_token o' = t -> o_kind o' = o_kind o -> False)).
Proof.
  intros H. apply indexed_ok in H as (Hio & Hi & Hsp & Hsub & Hr). rewrite (listed_recorded _ _ _ Hi), (recorded_eq _ _ _ Hsp Hsub), in_app_iff, filter_In.
  split; (intros [H|H]; [left; exact H|]).
  - destruct H as [H Hf]. right. destruct (in_token_occs _ _ _ H) as [G1 G2]. exists (occ_token o). split; [exact G1|]. split; [exact G2|].
    intros o' Ho' Et Ek. unfold fresh in Hf. apply negb_true_iff in Hf.
    assert (existsb (same_place o) (tree_occs 0 (pr_stmts pr)) = true); [|congruence]. apply existsb_exists. exists o'. split; [exact Ho'|].
    destruct (mixed _ _ _ Hsp Hsub Hr _ _ _ G1 G2 Ho' (f_equal snd Et)) as [G|G]; [|exact G].
    apply same_place_spec. unfold occ_token in Et. rewrite Ek in Et. pose proof (f_equal snd Et) as Es. cbn in Es.
    pose proof (tree_kind _ _ _ Ho') as Hk. rewrite Ek in Hk. unfold dual_token, occ_token in G. unfold token_occs, occ_token in G2. cbn [fst snd] in *.
    destruct (o_kind o); try contradiction; (destruct G2 as [G2|[]]; rewrite <- G2; cbn; repeat split; [|congruence| |congruence]);
      try (rewrite <- G2 in Ek; cbn in Ek; congruence); congruence.
  - destruct H as (t & Ht & H & Hno). right. split; [apply in_flat_map; eauto|]. unfold fresh. apply negb_true_iff.
    destruct (existsb _ _) eqn:E; [|reflexivity]. exfalso. apply existsb_exists in E as (o' & Ho' & E). apply same_place_spec in E as (E1 & E2 & E3 & E4).
    apply (Hno o' Ho'); [|congruence]. assert (In o (flat_map (token_occs (pr_stmts pr)) (pr_tokens pr))) as H' by (apply in_flat_map; eauto).
    assert (occ_token o = t) as <-.
    { clear - H. unfold token_occs in H. destruct t as [t sp]. unfold occ_token. cbn in *. destruct t; try contradiction.
      - destruct (containing _ _); [|contradiction]. destruct H as [<-|[]]. reflexivity.
      - destruct H as [<-|[]]. cbn. destruct (is_function _ n); reflexivity.
      - destruct H as [<-|[]]. reflexivity. }
    unfold occ_token. rewrite E1, E3, E4. reflexivity.
Qed.
Lemma indexed_contents u src pr ix : indexed u src pr ix -> index_of src (pr_stmts pr) (pr_tokens pr) ix.
Proof. intros H. exact (proj1 (indexed_ok u src pr ix H)). Qed.
