(** Putting documents one behind the other: names, undefined uses and redefinitions. *)
From Verif Require Import Text Rope Chumsky Tokenizer Parser Index Diag SpecText SpecLex SpecParse SpecIndex SpecDiag SpecSum
  PText PParse PParseProps PIndex PIndexDoc PDiag PDiagDoc PSum.

(** ** Moved trees *)
Lemma sig_moved_occs d k id sig : param_occs (k + id) (move_sig d sig) = map (move_occ d k) (param_occs id sig).
Proof. unfold param_occs. cbn [move_sig fs_args]. rewrite !map_map. apply map_ext. intros a. reflexivity. Qed.
Lemma instr_moved_occs d k id i : instr_occs (k + id) (move_instr d i) = map (move_occ d k) (instr_occs id i).
Proof.
  unfold instr_occs. cbn [move_instr i_target i_refs]. rewrite map_app, !map_map. f_equal; destruct (i_target i); reflexivity.
Qed.
Lemma flat_map_map {A B C} (f : B -> list C) (g : A -> B) l : flat_map f (map g l) = flat_map (fun a => f (g a)) l.
Proof. induction l as [|a l IH]; [reflexivity|]. cbn. rewrite IH. reflexivity. Qed.
Lemma map_flat {A B C} (f : B -> C) (g : A -> list B) l : map f (flat_map g l) = flat_map (fun a => map f (g a)) l.
Proof. induction l as [|a l IH]; [reflexivity|]. cbn. rewrite map_app, IH. reflexivity. Qed.
Lemma block_moved_occs d k id b : block_occs (k + id) (move_block d b) = map (move_occ d k) (block_occs id b).
Proof.
  unfold block_occs. cbn [move_block bb_label bb_instrs]. rewrite map_app. f_equal; [destruct (bb_label b); reflexivity|].
  rewrite flat_map_map, map_flat. apply flat_map_ext. intros i. apply instr_moved_occs.
Qed.
Lemma stmt_moved_occs d k id s : stmt_occs (k + id) (move_stmt d s) = map (move_occ d k) (stmt_occs id s).
Proof.
  destruct s; cbn [stmt_occs move_stmt]; try reflexivity. cbn [map]. f_equal. rewrite map_app, sig_moved_occs. f_equal.
  cbn [move_body fb_blocks]. rewrite flat_map_map, map_flat. apply flat_map_ext. intros b. apply block_moved_occs.
Qed.
Lemma tree_moved d k ss : forall id, tree_occs (k + id) (map (move_stmt d) ss) = map (move_occ d k) (tree_occs id ss).
Proof.
  induction ss as [|s ss IH]; intros id; [reflexivity|]. cbn [map tree_occs]. rewrite map_app, stmt_moved_occs. f_equal.
  replace (k + id + is_def (move_stmt d s)) with (k + (id + is_def s)) by (destruct s; cbn; lia). apply IH.
Qed.
Lemma function_defs_app a b : function_defs (a ++ b) = function_defs a ++ function_defs b.
Proof. apply flat_map_app. Qed.
Lemma tree_app a b : forall id, tree_occs id (a ++ b) = tree_occs id a ++ tree_occs (id + length (function_defs a)) b.
Proof.
  induction a as [|s a IH]; intros id; [cbn; rewrite Nat.add_0_r; reflexivity|]. cbn [app tree_occs]. rewrite IH, <- app_assoc. do 2 f_equal.
  change (function_defs (s :: a)) with (function_defs ([s] ++ a)). rewrite function_defs_app, app_length. f_equal. destruct s; cbn; lia.
Qed.
Lemma ranges_moved d ss : flat_map func_ranges (map (move_stmt d) ss) = map (shift_span d) (flat_map func_ranges ss).
Proof. rewrite flat_map_map, map_flat. apply flat_map_ext. intros []; reflexivity. Qed.
Lemma ranges_count ss : length (flat_map func_ranges ss) = length (function_defs ss).
Proof. induction ss as [|s ss IH]; [reflexivity|]. destruct s; cbn; auto. Qed.
Definition move_def (d : nat) (f : func_sig * func_body) : func_sig * func_body := (move_sig d (fst f), move_body d (snd f)).
Lemma defs_moved d ss : function_defs (map (move_stmt d) ss) = map (move_def d) (function_defs ss).
Proof. unfold function_defs. rewrite flat_map_map, map_flat. apply flat_map_ext. intros []; reflexivity. Qed.
Lemma existsb_map {A B} (f : B -> bool) (g : A -> B) l : existsb f (map g l) = existsb (fun a => f (g a)) l.
Proof. induction l as [|a l IH]; [reflexivity|]. cbn. rewrite IH. reflexivity. Qed.
Lemma existsb_ext' {A} (f g : A -> bool) l : (forall a, f a = g a) -> existsb f l = existsb g l.
Proof. intros H. induction l as [|a l IH]; [reflexivity|]. cbn. rewrite H, IH. reflexivity. Qed.
Lemma declares_moved d n s : declares n (move_stmt d s) = declares n s. Proof. destruct s; reflexivity. Qed.
Lemma defines_moved d n s : defines_var n (move_stmt d s) = defines_var n s. Proof. destruct s; reflexivity. Qed.
Lemma annotates_moved d n s : annotates n (move_stmt d s) = annotates n s. Proof. destruct s; reflexivity. Qed.
Lemma function_moved d n ss : is_function (map (move_stmt d) ss) n = is_function ss n.
Proof. unfold is_function. rewrite existsb_map. apply existsb_ext'. intros s. apply declares_moved. Qed.
Lemma function_app a b n : is_function (a ++ b) n = is_function a n || is_function b n.
Proof. apply existsb_app. Qed.

(** ** The function a place is in *)
Lemma containing_app l m p : containing (l ++ m) p = match containing l p with Some i => Some i | None => option_map (Nat.add (length l)) (containing m p) end.
Proof.
  induction l as [|s l IH]; cbn [app containing length].
  - destruct (containing m p); reflexivity.
  - destruct (_ && _); [reflexivity|]. rewrite IH. destruct (containing l p); [reflexivity|]. destruct (containing m p); reflexivity.
Qed.
Lemma containing_shift d l p : containing (map (shift_span d) l) (p + d) = containing l p.
Proof.
  induction l as [|s l IH]; [reflexivity|]. cbn [map containing shift_span sp_start sp_end]. rewrite IH.
  replace (sp_start s + d <=? p + d) with (sp_start s <=? p) by (destruct (Nat.leb_spec (sp_start s) p), (Nat.leb_spec (sp_start s + d) (p + d)); lia).
  replace (p + d <? sp_end s + d) with (p <? sp_end s); [reflexivity|]. destruct (Nat.ltb_spec p (sp_end s)), (Nat.ltb_spec (p + d) (sp_end s + d)); lia.
Qed.
Lemma containing_low d l p : p < d -> containing (map (shift_span d) l) p = None.
Proof.
  intros H. induction l as [|s l IH]; [reflexivity|]. cbn [map containing shift_span sp_start sp_end]. rewrite IH.
  replace (sp_start s + d <=? p) with false; [reflexivity|]. symmetry. apply Nat.leb_gt. lia.
Qed.
Lemma containing_high d l p : Forall (fun s => sp_end s <= d) l -> d <= p -> containing l p = None.
Proof.
  intros H Hp. induction H as [|s l H _ IH]; [reflexivity|]. cbn [containing]. rewrite IH.
  replace (p <? sp_end s) with false; [rewrite andb_false_r; reflexivity|]. symmetry. apply Nat.ltb_ge. lia.
Qed.
Lemma containing_lt l p i : containing l p = Some i -> i < length l.
Proof.
  revert i. induction l as [|s l IH]; intros i; cbn [containing length]; [discriminate|]. destruct (_ && _); [intros E; injection E as <-; lia|].
  destruct (containing l p); [|discriminate]. intros E. injection E as <-. specialize (IH _ eq_refl). lia.
Qed.

Lemma tree_body_lt ss : forall id o b, In o (tree_occs id ss) -> o_body o = Some b -> id <= b < id + length (function_defs ss).
Proof.
  induction ss as [|s ss IH]; intros id o b; cbn [tree_occs]; [contradiction|]. rewrite in_app_iff.
  change (function_defs (s :: ss)) with (function_defs ([s] ++ ss)). rewrite function_defs_app, app_length. intros [H|H] Hb.
  - apply stmt_occ_body with (b := b) in H as [-> (kw & sig & body & ->)]; [|exact Hb]. cbn. lia.
  - apply IH with (b := b) in H; [|exact Hb]. destruct s; cbn in *; lia.
Qed.

Lemma find_min (f : occurrence -> bool) l : (exists x, In x l /\ f x = true) ->
  exists x, In x l /\ f x = true /\ forall y, In y l -> f y = true -> sp_start (o_span x) <= sp_start (o_span y).
Proof.
  induction l as [|a l IH]; intros (x & Hx & Fx); [contradiction|].
  destruct (existsb f l) eqn:E.
  - apply existsb_exists in E. destruct (IH E) as (m & Hm & Fm & Mm). destruct (f a) eqn:Fa.
    + destruct (Nat.le_gt_cases (sp_start (o_span a)) (sp_start (o_span m))) as [L|L].
      * exists a. split; [left; reflexivity|]. split; [exact Fa|]. intros y [<-|Hy] Fy; [lia|]. specialize (Mm _ Hy Fy). lia.
      * exists m. split; [right; exact Hm|]. split; [exact Fm|]. intros y [<-|Hy] Fy; [lia|]. exact (Mm _ Hy Fy).
    + exists m. split; [right; exact Hm|]. split; [exact Fm|]. intros y [<-|Hy] Fy; [congruence|]. exact (Mm _ Hy Fy).
  - assert (forall y, In y l -> f y = false) as N.
    { intros y Hy. destruct (f y) eqn:Fy; [|reflexivity]. exfalso. apply not_true_iff_false in E. apply E. apply existsb_exists. eauto. }
    destruct Hx as [->|Hx]; [|rewrite (N _ Hx) in Fx; discriminate]. exists x. split; [left; reflexivity|]. split; [exact Fx|]. intros y [<-|Hy] Fy; [lia|]. rewrite (N _ Hy) in Fy. discriminate.
Qed.

Section Sum.
Variables (sa sb : list statement) (ta tb : list stoken) (d : nat) (hb : nat).
Hypothesis Sa : spans_in 0 d ta.
Hypothesis Sb : spans_in 0 hb tb.
Hypothesis Pa : subseq (flat_map stmt_tokens sa) ta.
Hypothesis Pb : subseq (flat_map stmt_tokens sb) tb.
Notation k := (length (function_defs sa)).
Notation sb' := (map (move_stmt d) sb).
Notation tb' := (map (shift_tok d) tb).

Lemma left_tokens t : In t ta -> sp_start (snd t) < d /\ sp_end (snd t) <= d.
Proof. intros H. apply (spans_in_each _ _ _ _ Sa) in H. lia. Qed.
Lemma left_ranges : Forall (fun s => sp_end s <= d) (flat_map func_ranges sa).
Proof.
  apply Forall_forall. intros s Hs. apply In_nth_error in Hs as (n & Hs).
  destruct (range_close _ _ Pa _ _ Hs) as (c & Hc & <-). apply left_tokens in Hc. cbn in Hc. lia.
Qed.

(** names introduced in the whole *)
Lemma tree_sum : tree_occs 0 (sa ++ sb') = tree_occs 0 sa ++ map (move_occ d k) (tree_occs 0 sb).
Proof. rewrite tree_app. f_equal. cbn [Nat.add]. rewrite <- (Nat.add_0_r k) at 1. apply tree_moved. Qed.
Lemma introduced_left o : (forall i, o_body o = Some i -> i < k) -> (introduced (sa ++ sb') o <-> introduced sa o \/ (o_body o = None /\ introduced sb o)).
Proof.
  intros Hk. rewrite !introduced_iff, tree_sum. split.
  - intros (x & Hx & Hu & E1 & E2 & E3). apply in_app_iff in Hx as [Hx|Hx]; [left; exists x; repeat split; assumption|].
    apply in_map_iff in Hx as (y & <- & Hy). cbn in *. destruct (o_body y) as [i|] eqn:Ei; cbn in E2.
    + symmetry in E2. apply Hk in E2. lia.
    + right. split; [symmetry; exact E2|]. exists y. repeat split; try assumption. congruence.
  - intros [(x & Hx & Hu & E)|[Hb (y & Hy & Hu & E1 & E2 & E3)]].
    + exists x. split; [apply in_app_iff; left; exact Hx|auto].
    + exists (move_occ d k y). split; [apply in_app_iff; right; apply in_map; exact Hy|]. split; [exact Hu|]. repeat split; cbn; try assumption.
      rewrite E2, Hb. reflexivity.
Qed.
Lemma introduced_right x : introduced (sa ++ sb') (move_occ d k x) <-> introduced sb x \/ (o_body x = None /\ introduced sa x).
Proof.
  rewrite !introduced_iff, tree_sum. split.
  - intros (y & Hy & Hu & E1 & E2 & E3). cbn in *. apply in_app_iff in Hy as [Hy|Hy].
    + right. destruct (o_body x) as [i|] eqn:Ei; cbn in E2; [apply (tree_body_lt _ _ _ _ Hy) in E2; lia|]. split; [reflexivity|]. exists y. repeat split; try assumption. congruence.
    + left. apply in_map_iff in Hy as (z & <- & Hz). cbn in *. exists z. repeat split; try assumption.
      destruct (o_body z), (o_body x); cbn in E2; try discriminate; [|reflexivity]. f_equal. injection E2 as E2. lia.
  - intros [(z & Hz & Hu & E1 & E2 & E3)|[Hb (y & Hy & Hu & E1 & E2 & E3)]].
    + exists (move_occ d k z). split; [apply in_app_iff; right; apply in_map; exact Hz|]. split; [exact Hu|]. repeat split; cbn; try assumption. rewrite E2. reflexivity.
    + exists y. split; [apply in_app_iff; left; exact Hy|]. split; [exact Hu|]. repeat split; cbn; try assumption. rewrite E2, Hb. reflexivity.
Qed.
Lemma supplies_global ss o : o_kind o = KGlobalVar -> o_body o = None -> supplies ss o = false <-> ~ introduced ss o /\ is_function ss (o_name o) = false.
Proof.
  intros Hk Hb. unfold supplies, introduced, is_function. rewrite Hk, Hb. split.
  - intros H. split.
    + intros (y & x & Hin & E). apply not_true_iff_false in H. apply H. apply existsb_exists. exists (SGlobalVar x y). split; [exact Hin|]. cbn. rewrite E. apply text_eqb_refl.
    + apply not_true_iff_false. intros G. apply not_true_iff_false in H. apply H. apply existsb_exists in G as (s & G1 & G2). apply existsb_exists. exists s. rewrite G2. auto.
  - intros [H1 H2]. apply not_true_iff_false. intros H. apply existsb_exists in H as (s & Hs & H). apply orb_true_iff in H as [H|H].
    + apply not_true_iff_false in H2. apply H2. apply existsb_exists. eauto.
    + apply H1. destruct s; try discriminate. cbn in H. exists def, name. split; [exact Hs|]. apply text_eqb_eq. exact H.
Qed.
Lemma supplies_dbg ss o : o_kind o = KDbgAnnotation -> o_body o = None -> supplies ss o = false <-> ~ introduced ss o.
Proof.
  intros Hk Hb. unfold supplies, introduced. rewrite Hk, Hb. rewrite <- not_true_iff_false, existsb_exists. apply not_iff_compat. split.
  - intros (s & Hs & H). destruct s; try discriminate. exists def, name. split; [exact Hs|]. apply text_eqb_eq. exact H.
  - intros (y & x & Hin & E). eexists. split; [exact Hin|]. cbn. rewrite E. apply text_eqb_refl.
Qed.

(** occurrences in the tokens of the whole *)
Lemma function_sum n : is_function (sa ++ sb') n = is_function sa n || is_function sb n.
Proof. rewrite function_app, function_moved. reflexivity. Qed.
Lemma ranges_sum : flat_map func_ranges (sa ++ sb') = flat_map func_ranges sa ++ map (shift_span d) (flat_map func_ranges sb).
Proof. rewrite flat_map_app, ranges_moved. reflexivity. Qed.
Lemma containing_left p : p < d -> containing (flat_map func_ranges (sa ++ sb')) p = containing (flat_map func_ranges sa) p.
Proof. intros H. rewrite ranges_sum, containing_app, (containing_low d _ _ H). destruct (containing _ p); reflexivity. Qed.
Lemma containing_right p : containing (flat_map func_ranges (sa ++ sb')) (p + d) = option_map (Nat.add k) (containing (flat_map func_ranges sb) p).
Proof.
  rewrite ranges_sum, containing_app, (containing_high d _ _ left_ranges) by lia. rewrite containing_shift, ranges_count. reflexivity.
Qed.
(** global uses may turn out to be uses of functions *)
Definition retag (ss : list statement) (o : occurrence) : occurrence :=
  match o_kind o with KGlobalVar => if is_function ss (o_name o) then mkOcc (o_span o) (o_ud o) KFunction (o_name o) (o_body o) else o | _ => o end.
Lemma tokens_left t : In t ta -> token_occs (sa ++ sb') t = map (retag sb) (token_occs sa t).
Proof.
  intros H. apply left_tokens in H as [H _]. unfold token_occs. destruct (fst t); try reflexivity.
  - rewrite (containing_left _ H). destruct (containing _ _); reflexivity.
  - rewrite function_sum. destruct (is_function sa n) eqn:E; [reflexivity|]. cbn [map retag o_kind o_name orb]. unfold retag. cbn [o_kind o_name o_span o_ud o_body]. destruct (is_function sb n); reflexivity.
Qed.
Lemma tokens_right t : token_occs (sa ++ sb') (shift_tok d t) = map (fun o => retag sa (move_occ d k o)) (token_occs sb t).
Proof.
  unfold token_occs, shift_tok. cbn [fst snd shift_span sp_start]. destruct (fst t); try reflexivity.
  - rewrite containing_right. destruct (containing _ _); reflexivity.
  - rewrite function_sum. cbn [map]. unfold retag, move_occ. cbn [o_kind o_name o_span o_ud o_body option_map]. destruct (is_function sb n); [rewrite orb_true_r; reflexivity|].
    rewrite orb_false_r. destruct (is_function sa n); reflexivity.
Qed.
Lemma token_shape ss t o : In o (token_occs ss t) -> o_ud o = Use /\
  match o_kind o with
  | KGlobalVar => o_body o = None /\ is_function ss (o_name o) = false
  | KFunction => o_body o = None /\ introduced ss o
  | KDbgAnnotation => o_body o = None
  | KLocalVar => exists i, o_body o = Some i /\ i < length (function_defs ss)
  | KLabel => False
  end.
Proof.
  unfold token_occs. destruct (fst t); try contradiction.
  - destruct (containing _ _) as [i|] eqn:E; [|contradiction]. intros [<-|[]]. cbn. apply containing_lt in E. rewrite ranges_count in E. eauto.
  - intros [<-|[]]. cbn. destruct (is_function ss n) eqn:E; cbn; auto. split; [reflexivity|]. split; [reflexivity|]. unfold introduced. cbn.
    unfold is_function in E. apply existsb_exists in E. exact E.
  - intros [<-|[]]. cbn. auto.
Qed.
Lemma tree_use_shape ss o : In o (tree_occs 0 ss) -> o_ud o = Use -> o_kind o = KLabel /\ exists i, o_body o = Some i /\ i < length (function_defs ss).
Proof.
  intros H Hu. pose proof (tree_use_label _ _ H Hu) as Hk. split; [exact Hk|]. pose proof (tree_kind _ _ _ H) as G. rewrite Hk in G.
  destruct G as (i & E). exists i. split; [exact E|]. apply (tree_body_lt _ _ _ _ H) in E. lia.
Qed.

(** ** Undefined uses *)
Lemma use_sum o : o_ud o = Use /\ ~ introduced (sa ++ sb') o /\ (In o (tree_occs 0 (sa ++ sb')) \/ exists t, In t (ta ++ tb') /\ In o (token_occs (sa ++ sb') t)) <->
  (o_ud o = Use /\ ~ introduced sa o /\ (In o (tree_occs 0 sa) \/ exists t, In t ta /\ In o (token_occs sa t))) /\ supplies sb o = false \/
  exists x, (o_ud x = Use /\ ~ introduced sb x /\ (In x (tree_occs 0 sb) \/ exists t, In t tb /\ In x (token_occs sb t))) /\ supplies sa x = false /\ o = move_occ d k x.
Proof.
  assert (forall ss o, o_kind o = KLabel \/ o_kind o = KLocalVar -> supplies ss o = false) as Hl by (intros ss x [E|E]; unfold supplies; rewrite E; reflexivity).
  split.
  - intros (Hu & Hn & [H|(t & Ht & H)]).
    + rewrite tree_sum, in_app_iff in H. destruct H as [H|H].
      * left. destruct (tree_use_shape _ _ H Hu) as (Hk & i & Hb & Hi). rewrite introduced_left in Hn by (intros j Ej; congruence). split; [tauto|]. apply Hl. auto.
      * right. apply in_map_iff in H as (x & <- & H). exists x. rewrite introduced_right in Hn. destruct (tree_use_shape _ _ H Hu) as (Hk & _). split; [cbn in Hu; tauto|]. split; [apply Hl; auto|reflexivity].
    + apply in_app_iff in Ht as [Ht|Ht].
      * left. rewrite (tokens_left _ Ht) in H. apply in_map_iff in H as (x & Ex & H). destruct (token_shape _ _ _ H) as [_ S].
        assert (retag sb x = x) as Er.
        { destruct (o_kind x) eqn:Ek; try (unfold retag; rewrite Ek; reflexivity). unfold retag in *. rewrite Ek in *.
          destruct (is_function sb (o_name x)) eqn:Ef; [|reflexivity]. exfalso. apply Hn. rewrite <- Ex. rewrite introduced_left by (cbn; destruct S; congruence).
          right. destruct S as [S _]. cbn. split; [exact S|]. unfold introduced. cbn. rewrite S. unfold is_function in Ef. apply existsb_exists in Ef. exact Ef. }
        rewrite Er in Ex. subst x. assert (forall i, o_body o = Some i -> i < k) as Hk.
        { intros i Ei. destruct (o_kind o); try (destruct S; congruence); try congruence. destruct S as (j & S1 & S2). congruence. }
        rewrite (introduced_left _ Hk) in Hn. split; [split; [exact Hu|]; split; [tauto|right; eauto]|].
        destruct (o_kind o) eqn:Ek; [|exfalso; tauto| |contradiction|apply Hl; auto].
        -- apply supplies_global; [exact Ek|tauto|]. split; [tauto|]. unfold retag in Er. rewrite Ek in Er. destruct (is_function sb (o_name o)); [|reflexivity].
           apply (f_equal o_kind) in Er. cbn in Er. congruence.
        -- apply supplies_dbg; [exact Ek|exact S|tauto].
      * right. apply in_map_iff in Ht as (t' & <- & Ht). rewrite tokens_right in H. apply in_map_iff in H as (x & Ex & H). exists x. destruct (token_shape _ _ _ H) as [Hux S].
        assert (retag sa (move_occ d k x) = move_occ d k x) as Er.
        { unfold retag in *. cbn [o_kind move_occ o_name] in *. destruct (o_kind x) eqn:Ek; try reflexivity.
          destruct (is_function sa (o_name x)) eqn:Ef; [|reflexivity]. exfalso. apply Hn. rewrite <- Ex. destruct S as [S _].
          rewrite introduced_left by (cbn; rewrite S; discriminate). left. unfold introduced. cbn. rewrite S. cbn [option_map]. unfold is_function in Ef. apply existsb_exists in Ef. exact Ef. }
        rewrite Er in Ex. subst o. rewrite introduced_right in Hn. split; [split; [exact Hux|]; split; [tauto|right; eauto]|]. split; [|reflexivity].
        destruct (o_kind x) eqn:Ek; [|exfalso; tauto| |contradiction|apply Hl; auto].
        -- apply supplies_global; [exact Ek|tauto|]. split; [tauto|]. unfold retag in Er. cbn [o_kind move_occ o_name] in Er. rewrite Ek in Er. destruct (is_function sa (o_name x)); [|reflexivity].
           apply (f_equal o_kind) in Er. cbn in Er. congruence.
        -- apply supplies_dbg; [exact Ek|exact S|tauto].
  - intros [((Hu & Hn & H) & Hs)|(x & (Hu & Hn & H) & Hs & ->)].
    + split; [exact Hu|]. destruct H as [H|(t & Ht & H)].
      * destruct (tree_use_shape _ _ H Hu) as (Hk & i & Hb & Hi). rewrite introduced_left by (intros j Ej; congruence). split; [intros [G|[G _]]; [tauto|congruence]|].
        left. rewrite tree_sum, in_app_iff. auto.
      * destruct (token_shape _ _ _ H) as [_ S]. assert (forall i, o_body o = Some i -> i < k) as Hk.
        { intros i Ei. destruct (o_kind o); try (destruct S; congruence); try congruence. destruct S as (j & S1 & S2). congruence. }
        assert (retag sb o = o /\ ~ (o_body o = None /\ introduced sb o)) as [Er Hni].
        { unfold retag. destruct (o_kind o) eqn:Ek; [|exfalso; tauto| |contradiction|].
          - destruct S as [S _]. apply (supplies_global _ _ Ek S) in Hs as [H1 H2]. rewrite H2. tauto.
          - apply (supplies_dbg _ _ Ek S) in Hs. tauto.
          - destruct S as (j & S1 & S2). split; [reflexivity|]. intros [G _]. congruence. }
        rewrite (introduced_left _ Hk). split; [tauto|]. right. exists t. split; [apply in_app_iff; auto|]. rewrite (tokens_left _ Ht). apply in_map_iff. eauto.
    + split; [exact Hu|]. rewrite introduced_right. destruct H as [H|(t & Ht & H)].
      * destruct (tree_use_shape _ _ H Hu) as (Hk & i & Hb & Hi). split; [intros [G|[G _]]; [tauto|congruence]|]. left. rewrite tree_sum, in_app_iff. right. apply in_map. exact H.
      * destruct (token_shape _ _ _ H) as [_ S].
        assert (retag sa (move_occ d k x) = move_occ d k x /\ ~ (o_body x = None /\ introduced sa x)) as [Er Hni].
        { unfold retag. cbn [o_kind o_name move_occ]. destruct (o_kind x) eqn:Ek; [|exfalso; tauto| |contradiction|].
          - destruct S as [S _]. apply (supplies_global _ _ Ek S) in Hs as [H1 H2]. rewrite H2. tauto.
          - apply (supplies_dbg _ _ Ek S) in Hs. tauto.
          - destruct S as (j & S1 & S2). split; [reflexivity|]. intros [G _]. congruence. }
        split; [tauto|]. right. exists (shift_tok d t). split; [apply in_app_iff; right; apply in_map; exact Ht|]. rewrite tokens_right. apply in_map_iff. eauto.
Qed.

(** ** Redefinitions *)
Lemma left_start o : In o (tree_occs 0 sa) -> sp_start (o_span o) < d.
Proof. intros H. apply (tree_token _ _ _ Sa Pa) in H. apply left_tokens in H. cbn in H. tauto. Qed.
Lemma same_moved x y : same_symbol (move_occ d k x) (move_occ d k y) <-> same_symbol x y.
Proof.
  unfold same_symbol. cbn. split; intros (E1 & E2 & E3); repeat split; try assumption; [|rewrite E2; reflexivity].
  destruct (o_body x), (o_body y); cbn in E2; try discriminate; [|reflexivity]. f_equal. injection E2 as E2. lia.
Qed.
Lemma same_across x f : In f (tree_occs 0 sa) -> (same_symbol (move_occ d k x) f <-> o_body x = None /\ same_symbol x f).
Proof.
  intros Hf. unfold same_symbol. cbn. split.
  - intros (E1 & E2 & E3). destruct (o_body x) as [i|] eqn:Ei; cbn in E2; [symmetry in E2; apply (tree_body_lt _ _ _ _ Hf) in E2; lia|auto].
  - intros (E0 & E1 & E2 & E3). rewrite E0 in *. auto.
Qed.
Lemma same_sym a b : same_symbol a b -> same_symbol b a.
Proof. intros (E1 & E2 & E3). repeat split; congruence. Qed.
Lemma move_inj x y : move_occ d k x = move_occ d k y -> x = y.
Proof.
  destruct x as [[s e] u kd n b], y as [[s' e'] u' kd' n' b']. unfold move_occ, shift_span. cbn. intros H.
  injection H as H1 H2 H3 H4 H5 H6. assert (s = s') as -> by lia. assert (e = e') as -> by lia. subst. f_equal.
  destruct b, b'; cbn in H6; try discriminate; [|reflexivity]. injection H6 as H6. f_equal. lia.
Qed.
Lemma redefinition_sum o f :
  In o (tree_occs 0 (sa ++ sb')) /\ o_ud o = Def /\ first_defined (sa ++ sb') o f /\ o <> f <->
  (In o (tree_occs 0 sa) /\ o_ud o = Def /\ first_defined sa o f /\ o <> f) \/
  exists x, In x (tree_occs 0 sb) /\ o_ud x = Def /\ o = move_occ d k x /\
    ((o_body x = None /\ first_defined sa x f) \/
     (~ (o_body x = None /\ exists g, first_defined sa x g) /\ exists y, first_defined sb x y /\ x <> y /\ f = move_occ d k y)).
Proof.
  rewrite tree_sum, in_app_iff. split.
  - intros ([Ho|Ho] & Hu & (Hf & Hfu & Hs & Hmin) & Hne); rewrite tree_sum in Hf, Hmin; rewrite in_app_iff in Hf.
    + left. assert (sp_start (o_span f) <= sp_start (o_span o)) as Hle by (apply Hmin; [apply in_app_iff; auto|exact Hu|repeat split]).
      pose proof (left_start _ Ho). destruct Hf as [Hf|Hf]; [|apply in_map_iff in Hf as (y & <- & _); cbn in Hle; lia].
      repeat split; try assumption; try apply Hs. intros g Hg. apply Hmin. apply in_app_iff. auto.
    + right. apply in_map_iff in Ho as (x & <- & Ho). exists x. split; [exact Ho|]. split; [exact Hu|]. split; [reflexivity|]. destruct Hf as [Hf|Hf].
      * left. apply (same_across _ _ Hf) in Hs as [Hb Hs]. split; [exact Hb|]. repeat split; try assumption; try apply Hs.
        intros g Hg Hgu Hgs. apply Hmin; [apply in_app_iff; auto|exact Hgu|]. apply same_sym, (same_across _ _ Hg). split; [exact Hb|apply same_sym; exact Hgs].
      * right. apply in_map_iff in Hf as (y & <- & Hf). rewrite same_moved in Hs. split.
        -- intros [Hb (g & Hg & Hgu & Hgs & _)]. assert (sp_start (o_span (move_occ d k y)) <= sp_start (o_span g)) as Hle.
           { apply Hmin; [apply in_app_iff; auto|exact Hgu|]. apply same_sym, (same_across _ _ Hg). auto. }
           apply left_start in Hg. cbn in Hle. lia.
        -- exists y. split; [|split; [congruence|reflexivity]]. split; [exact Hf|]. split; [exact Hfu|]. split; [exact Hs|].
           intros g Hg Hgu Hgs. specialize (Hmin (move_occ d k g)). cbn in Hmin. assert (sp_start (o_span y) + d <= sp_start (o_span g) + d); [|lia].
           apply Hmin; [apply in_app_iff; right; apply in_map; exact Hg|exact Hgu|apply same_moved; exact Hgs].
  - intros [(Ho & Hu & (Hf & Hfu & Hs & Hmin) & Hne)|(x & Ho & Hu & -> & [(Hb & Hf & Hfu & Hs & Hmin)|(Hno & y & (Hf & Hfu & Hs & Hmin) & Hne & ->)])].
    + split; [auto|]. split; [exact Hu|]. split; [|exact Hne]. unfold first_defined. rewrite tree_sum. split; [apply in_app_iff; auto|]. split; [exact Hfu|]. split; [exact Hs|].
      intros g Hg Hgu Hgs. apply in_app_iff in Hg as [Hg|Hg]; [apply Hmin; assumption|]. apply in_map_iff in Hg as (y & <- & _). cbn. apply left_start in Hf. lia.
    + split; [right; apply in_map; exact Ho|]. split; [exact Hu|]. split.
      * unfold first_defined. rewrite tree_sum. split; [apply in_app_iff; auto|]. split; [exact Hfu|]. split; [apply (same_across _ _ Hf); auto|].
        intros g Hg Hgu Hgs. apply in_app_iff in Hg as [Hg|Hg].
        -- apply Hmin; [exact Hg|exact Hgu|]. apply same_sym, (same_across _ _ Hg) in Hgs as [_ Hgs]. apply same_sym. exact Hgs.
        -- apply in_map_iff in Hg as (y & <- & _). cbn. apply left_start in Hf. lia.
      * intros <-. apply left_start in Hf. cbn in Hf. lia.
    + split; [right; apply in_map; exact Ho|]. split; [exact Hu|]. split.
      * unfold first_defined. rewrite tree_sum. split; [apply in_app_iff; right; apply in_map; exact Hf|]. split; [exact Hfu|]. split; [apply same_moved; exact Hs|].
        intros g Hg Hgu Hgs. apply in_app_iff in Hg as [Hg|Hg].
        -- exfalso. apply same_sym, (same_across _ _ Hg) in Hgs as [Hb Hgs]. apply Hno. split; [exact Hb|].
           assert (exists g', first_defined sa x g') as Hex; [|exact Hex].
           destruct (find_min (fun g' => match o_ud g' with Def => same_symbolb g' x | _ => false end) (tree_occs 0 sa)) as (g' & G1 & G2 & G3).
           { exists g. split; [exact Hg|]. rewrite Hgu. apply same_symbolb_spec, same_sym, Hgs. }
           exists g'. destruct (o_ud g') eqn:Eg; try discriminate. apply same_symbolb_spec in G2. split; [exact G1|]. split; [exact Eg|]. split; [apply same_sym; exact G2|].
           intros h H1 H2 H3. apply G3; [exact H1|]. rewrite H2. apply same_symbolb_spec. exact H3.
        -- apply in_map_iff in Hg as (g' & <- & Hg). rewrite same_moved in Hgs. cbn. apply Nat.add_le_mono_r. apply Hmin; assumption.
      * intros E. apply Hne. exact (move_inj _ _ E).
Qed.
End Sum.
