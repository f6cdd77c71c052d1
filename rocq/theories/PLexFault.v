(** The places of lexical errors. *)
From Verif Require Import Text Chumsky Tokenizer SpecLex PChumsky PText PLex PLexSpec PTokens PLexProps SpecLexFault.

Section Spot.
Variable src : text.
Notation n := (length src).
Notation eoi := (mkSpan n (n + 1)).

(** the error is at the place with [m] characters left *)
Definition spot (e : located char) (m : nat) : Prop :=
  l_rem e = m /\ m <= n /\ marks src (n - m) (l_err e).

Lemma spot_max a b x y : spot a x -> spot b y -> spot (loc_max a (Some b)) (Nat.min x y).
Proof.
  intros (H1 & H2 & H3) (H4 & H5 & H6). unfold loc_max. rewrite H1, H4.
  destruct (Nat.ltb_spec x y); [rewrite Nat.min_l by lia; repeat split; try assumption; apply H3|].
  destruct (Nat.ltb_spec y x); [rewrite Nat.min_r by lia; repeat split; try assumption; apply H6|].
  rewrite Nat.min_l by lia. destruct H3 as (A & B & C). repeat split; assumption.
Qed.

(** a stream that is the rest of [src] *)
Definition at_ (i : nat) (t : text) : Prop := i <= n /\ t = skipn i src.
Lemma at_len i t : at_ i t -> length t = n - i.
Proof. intros [H ->]. apply skipn_length. Qed.
Lemma at_skip i t k : at_ i t -> k <= length t -> at_ (i + k) (skipn k t).
Proof.
  intros H Hk. pose proof (at_len _ _ H) as Hl. destruct H as [H ->]. split; [lia|].
  rewrite skipn_skipn. f_equal. lia.
Qed.
Lemma at_tl i c t : at_ i (c :: t) -> at_ (i + 1) t.
Proof. intros H. apply (at_skip i (c :: t) 1 H). cbn. lia. Qed.
Lemma at_nth i t : at_ i t -> nth_error src i = hd_error t.
Proof.
  intros [H ->]. rewrite <- (firstn_skipn i src) at 1.
  rewrite nth_error_app2; rewrite firstn_length_le by exact H; [|lia].
  rewrite Nat.sub_diag. destruct (skipn i src); reflexivity.
Qed.

Lemma spot_here i t exp : at_ i t -> spot (err_here eoi (enum_from i t) exp) (length t).
Proof.
  intros H. pose proof (at_len _ _ H) as Hl. pose proof (at_nth _ _ H) as Hn. destruct H as [H _].
  assert (E : n - length t = i) by lia.
  split; [|split; [lia|]].
  - destruct t as [|c t]; [reflexivity|]. cbn [enum_from err_here l_rem].
    change ((c, mkSpan i (i + 1)) :: enum_from (i + 1) t) with (enum_from i (c :: t)).
    apply enum_length.
  - rewrite E. destruct t as [|c t]; cbn in *; repeat split; try assumption; try (symmetry; assumption).
    replace i with n by lia. reflexivity.
Qed.

(** ** Alternative errors *)
Definition alt_ge (alt : option (located char)) (m : nat) : Prop :=
  match alt with None => True | Some e => exists x, spot e x /\ m <= x end.
Lemma alt_ge_le alt m m' : alt_ge alt m -> m' <= m -> alt_ge alt m'.
Proof. destruct alt as [e|]; [|auto]. intros (x & H & Hx) Hm. exists x. split; [exact H|lia]. Qed.
Lemma alt_merge a b m : alt_ge a m -> alt_ge b m -> alt_ge (merge_alts a b) m.
Proof.
  destruct a as [a|], b as [b|]; cbn; auto. intros (x & Hx & Hm) (y & Hy & Hm').
  exists (Nat.min x y). split; [apply spot_max; assumption|lia].
Qed.
Lemma max_alt e x alt m : spot e x -> alt_ge alt m -> x <= m -> spot (loc_max e alt) x.
Proof.
  intros He Ha Hm. destruct alt as [a|]; [|exact He]. destruct Ha as (y & Hy & Hle).
  rewrite <- (Nat.min_l x y) by lia. apply spot_max; assumption.
Qed.

(** failing exactly at [m] / succeeding with alternatives not further than [m] left *)
Definition fails {O} (r : pres char O) (m : nat) : Prop := exists e, r = PErr [] e /\ spot e m.
Definition near {O} (r : pres char O) (m : nat) : Prop :=
  match r with POk es _ alt _ => es = [] /\ alt_ge alt m | PErr es e => es = [] /\ exists x, spot e x /\ m <= x | PPanic => False end.

Lemma fails_near {O} (r : pres char O) m k : fails r m -> k <= m -> near r k.
Proof. intros (e & -> & H) Hk. cbn. eauto. Qed.
Lemma near_le {O} (r : pres char O) m k : near r m -> k <= m -> near r k.
Proof.
  destruct r; cbn; auto; intros [-> H] Hk.
  - split; [reflexivity|]. eapply alt_ge_le; eassumption.
  - destruct H as (x & Hx & Hm). split; [reflexivity|]. exists x. split; [exact Hx|lia].
Qed.
Lemma near_map {A B} (p : parser A) (f : A -> B) st m : near (p st) m -> near (p_map p f st) m.
Proof. unfold p_map. destruct (p st); auto. Qed.
Lemma fails_map {A B} (p : parser A) (f : A -> B) st m : fails (p st) m -> fails (p_map p f st) m.
Proof. unfold p_map. intros (e & -> & H). exists e. auto. Qed.
Lemma fails_then {A B} (p : parser A) (q : parser B) st m : fails (p st) m -> fails (p_then p q st) m.
Proof. unfold p_then. intros (e & -> & H). exists e. auto. Qed.

Lemma near_then {A B} (p : parser A) (q : parser B) st m : near (p st) m ->
  (forall es a alt r, p st = POk es a alt r -> near (q r) m) -> near (p_then p q st) m.
Proof.
  unfold p_then. intros H Hq. destruct (p st) as [es a alt r|es e|] eqn:E; [|exact H|exact H].
  specialize (Hq _ _ _ _ eq_refl). destruct H as [-> Ha].
  destruct (q r) as [es' b alt' r'|es' e'|]; [| |exact Hq]; cbn in *.
  - destruct Hq as [-> Hq]. split; [reflexivity|]. apply alt_merge; assumption.
  - destruct Hq as [-> (x & Hx & Hm)]. split; [reflexivity|].
    destruct alt as [a'|]; [|exists x; auto]. destruct Ha as (y & Hy & Hle).
    exists (Nat.min x y). split; [apply spot_max; assumption|lia].
Qed.

(** ** The basic parsers *)
Lemma just_fails x i t : at_ i t -> hd_error t <> Some x -> fails (p_just N.eqb eoi x (enum_from i t)) (length t).
Proof.
  intros H Hx. destruct t as [|c t].
  - eexists. split; [reflexivity|]. exact (spot_here i [] [Some x] H).
  - assert (E : p_just N.eqb eoi x (enum_from i (c :: t)) = PErr [] (err_here eoi (enum_from i (c :: t)) [Some x])).
    { cbn [enum_from p_just]. destruct (N.eqb_spec c x) as [->|]; [|reflexivity]. cbn in Hx. congruence. }
    rewrite E. eexists. split; [reflexivity|]. apply spot_here. exact H.
Qed.
Lemma just_near x i t : at_ i t -> near (p_just N.eqb eoi x (enum_from i t)) (length t).
Proof.
  intros H. destruct t as [|c t].
  - eapply fails_near; [apply just_fails; [exact H|discriminate]|apply le_n].
  - destruct (N.eq_dec c x) as [->|Hn].
    + cbn. rewrite N.eqb_refl. cbn. auto.
    + eapply fails_near; [apply just_fails; [exact H|cbn; congruence]|apply le_n].
Qed.
Lemma filter_fails f i t : at_ i t -> match t with c :: _ => f c = false | [] => True end ->
  fails (p_filter eoi f (enum_from i t)) (length t).
Proof.
  intros H Hf.
  assert (E : p_filter eoi f (enum_from i t) = PErr [] (err_here eoi (enum_from i t) [])).
  { destruct t as [|c t]; [reflexivity|]. cbn [enum_from p_filter]. rewrite Hf. reflexivity. }
  rewrite E. eexists. split; [reflexivity|]. apply spot_here. exact H.
Qed.
Lemma filter_near f i t : at_ i t -> near (p_filter eoi f (enum_from i t)) (length t).
Proof.
  intros H. destruct t as [|c t].
  - eapply fails_near; [apply filter_fails; [exact H|exact Logic.I]|apply le_n].
  - destruct (f c) eqn:E.
    + cbn. rewrite E. cbn. auto.
    + eapply fails_near; [apply filter_fails; [exact H|exact E]|apply le_n].
Qed.
Lemma one_of_fails xs i t : at_ i t -> match t with c :: _ => existsb (N.eqb c) xs = false | [] => True end ->
  fails (p_one_of N.eqb eoi xs (enum_from i t)) (length t).
Proof.
  intros H Hf.
  assert (E : p_one_of N.eqb eoi xs (enum_from i t) = PErr [] (err_here eoi (enum_from i t) (map Some xs))).
  { destruct t as [|c t]; [reflexivity|]. cbn [enum_from p_one_of]. rewrite Hf. reflexivity. }
  rewrite E. eexists. split; [reflexivity|]. apply spot_here. exact H.
Qed.
Lemma one_of_near xs i t : at_ i t -> near (p_one_of N.eqb eoi xs (enum_from i t)) (length t).
Proof.
  intros H. destruct t as [|c t].
  - eapply fails_near; [apply one_of_fails; [exact H|exact Logic.I]|apply le_n].
  - destruct (existsb (N.eqb c) xs) eqn:E.
    + cbn [enum_from p_one_of]. rewrite E. cbn. auto.
    + eapply fails_near; [apply one_of_fails; [exact H|exact E]|apply le_n].
Qed.

(** ** Composite parsers *)
Lemma near_or {A} (p q : parser A) st m : near (p st) m -> near (q st) m -> near (p_or p q st) m.
Proof.
  unfold p_or. intros Hp Hq.
  destruct (p st) as [es a alt r|es e|] eqn:E; [|destruct Hp as [-> (x & Hx & Hm)]|destruct Hp].
  - destruct Hp as [-> Hp]. cbn. auto.
  - destruct (q st) as [es' b alt r|es' e'|] eqn:E'; [|destruct Hq as [-> (y & Hy & Hm')]|destruct Hq].
    + destruct Hq as [-> Hq]. cbn. auto.
    + destruct (l_rem e' <? l_rem e); [cbn; eauto|]. destruct (l_rem e <? l_rem e'); [cbn; eauto|].
      cbn [near]. split; [reflexivity|]. exists (Nat.min x y). split; [apply spot_max; assumption|lia].
Qed.
Lemma fails_or {A} (p q : parser A) st m k : fails (p st) m -> fails (q st) k -> fails (p_or p q st) (Nat.min m k).
Proof.
  unfold p_or. intros (e & -> & H) (e' & -> & H').
  pose proof (spot_max _ _ _ _ H H') as Hm. unfold loc_max in *.
  destruct H as (E1 & A1), H' as (E2 & A2). rewrite E1, E2 in *.
  destruct (Nat.ltb_spec k m).
  - exists e'. split; [reflexivity|]. rewrite Nat.min_r by lia. split; [exact E2|exact A2].
  - destruct (Nat.ltb_spec m k).
    + exists e. split; [reflexivity|]. rewrite Nat.min_l by lia. split; [exact E1|exact A1].
    + eexists. split; [reflexivity|]. exact Hm.
Qed.

Lemma near_rep {A} (p : parser A) M (Q : list (char * span) -> Prop) :
  (forall st, Q st -> near (p st) M /\ forall es a alt r, p st = POk es a alt r -> Q r) ->
  forall fuel old outs alt st, Q st -> alt_ge alt M ->
  p_rep fuel p 0 old [] outs alt st <> PPanic -> near (p_rep fuel p 0 old [] outs alt st) M.
Proof.
  intros Hp. induction fuel as [|fuel IH]; intros old outs alt st HQ Ha Hn; [cbn in Hn; congruence|].
  cbn [p_rep] in *. destruct (Hp st HQ) as [H1 H2].
  destruct (p st) as [es a alt' r|es e|] eqn:E; [| |congruence].
  - destruct H1 as [-> H1]. destruct (match old with Some _ => _ | None => _ end); [congruence|].
    cbn [app] in *. apply IH; [eapply H2; reflexivity | apply alt_merge; assumption | exact Hn].
  - cbn [Nat.ltb Nat.leb length] in *. destruct H1 as [-> H1].
    change (length outs <? 0) with false in *. cbn. split; [reflexivity|]. apply alt_merge; [exact Ha|exact H1].
Qed.
Lemma near_repeated {A} (p : parser A) M (Q : list (char * span) -> Prop) st :
  (forall st, Q st -> near (p st) M /\ forall es a alt r, p st = POk es a alt r -> Q r) ->
  Q st -> vw (p_repeated p st) <> VPanic -> near (p_repeated p st) M.
Proof.
  intros Hp HQ Hn. unfold p_repeated, p_repeated_at_least in *.
  eapply near_rep; [exact Hp | exact HQ | exact Logic.I|]. intros E. rewrite E in Hn. apply Hn. reflexivity.
Qed.

(** streams from which the scan with [f] stops with [M] characters left *)
Definition scan (f : char -> bool) (M : nat) (st : list (char * span)) : Prop :=
  exists j s, st = enum_from j s /\ at_ j s /\ M = length s - span_len f s.
Lemma scan_step f M j c s : scan f M (enum_from j (c :: s)) -> f c = true -> scan f M (enum_from (j + 1) s).
Proof.
  intros (j' & s' & E & H & HM) Hf. destruct s' as [|c' s']; [discriminate|].
  cbn [enum_from] in E. injection E as -> <- _ E. exists (j + 1), s. split; [reflexivity|].
  assert (s' = s). { rewrite <- (enum_chars s' (j + 1)), <- E. apply enum_chars. } subst s'.
  split; [eapply at_tl; exact H|]. rewrite HM. cbn [span_len length]. rewrite Hf. lia.
Qed.
Lemma rep_filter_near f i t : at_ i t ->
  near (p_repeated (p_filter eoi f) (enum_from i t)) (length t - span_len f t).
Proof.
  intros H. apply near_repeated with (Q := scan f (length t - span_len f t)).
  - intros st HQ. pose proof HQ as (j & s & -> & Hs & HM). split.
    + eapply near_le; [apply filter_near; exact Hs | lia].
    + intros es a alt r E. destruct s as [|c s]; [discriminate|]. cbn [enum_from p_filter] in E.
      destruct (f c) eqn:Ef; [|discriminate]. injection E as _ _ _ <-.
      apply (scan_step f _ j c s HQ Ef).
  - exists i, t. auto.
  - rewrite v_rep_filter. discriminate.
Qed.
Lemma rep_just_near x i t : at_ i t ->
  near (p_repeated (p_just N.eqb eoi x) (enum_from i t)) (length t - span_len (fun c => (c =? x)%N) t).
Proof.
  intros H. apply near_repeated with (Q := scan (fun c => (c =? x)%N) (length t - span_len (fun c => (c =? x)%N) t)).
  - intros st HQ. pose proof HQ as (j & s & -> & Hs & HM). split.
    + eapply near_le; [apply just_near; exact Hs | lia].
    + intros es a alt r E. destruct s as [|c s]; [discriminate|]. cbn [enum_from p_just] in E.
      destruct (c =? x)%N eqn:Ef; [|discriminate]. injection E as _ _ _ <-.
      apply (scan_step _ _ j c s HQ). exact Ef.
  - exists i, t. auto.
  - rewrite (vw_repeated0 _ _ _ _ _ (consumes_just _ x) (iter_just _ x _)). discriminate.
Qed.
Lemma padding_near i t : at_ i t -> near (t_padding eoi (enum_from i t)) (length t - lead t).
Proof.
  intros H. unfold t_padding. apply near_repeated with (Q := scan is_blank (length t - lead t)).
  - intros st HQ. pose proof HQ as (j & s & -> & Hs & HM). split.
    + eapply near_le; [apply one_of_near; exact Hs | lia].
    + intros es a alt r E. destruct s as [|c s]; [discriminate|]. cbn [enum_from p_one_of] in E.
      change (existsb (N.eqb c) [SPACE; TAB]) with (is_blank c) in E.
      destruct (is_blank c) eqn:Ef; [|discriminate]. injection E as _ _ _ <-.
      apply (scan_step _ _ j c s HQ). exact Ef.
  - exists i, t. auto.
  - change (p_repeated (p_one_of N.eqb eoi [SPACE; TAB])) with (t_padding eoi). rewrite v_padding. discriminate.
Qed.

(** what [vw] says about the rest *)
Lemma near_ok {A} (p : parser A) st m k a r : near (p st) m -> vw (p st) = VOk k a r ->
  exists alt, p st = POk [] a alt r /\ alt_ge alt m /\ k = 0.
Proof.
  intros Hn Hv. destruct (p st) as [es a' alt r'|es e|]; cbn in Hv; try discriminate.
  injection Hv as <- -> ->. destruct Hn as [-> Hn]. eauto.
Qed.

(** comments *)
Lemma until_near t : forall i outs alt, at_ i t ->
  alt_ge alt (length t - span_len (fun d => negb (d =? LF)%N) t) ->
  near (p_take_until_from eoi (p_rewind (p_or (p_just N.eqb eoi LF) (p_to (p_end eoi) LF))) outs alt (enum_from i t))
       (length t - span_len (fun d => negb (d =? LF)%N) t).
Proof.
  induction t as [|c t IH]; intros i outs alt H Ha.
  - cbn. split; [reflexivity|]. apply alt_merge; [exact Ha | exact Logic.I].
  - cbn [span_len] in *. destruct (N.eqb_spec c LF) as [->|Hc]; cbn [negb] in *.
    + cbn. split; [reflexivity|]. apply alt_merge; [exact Ha | exact Logic.I].
    + assert (Hf : fails (p_rewind (p_or (p_just N.eqb eoi LF) (p_to (p_end eoi) LF)) (enum_from i (c :: t))) (length (c :: t))).
      { unfold p_rewind. destruct (fails_or (p_just N.eqb eoi LF) (p_to (p_end eoi) LF) (enum_from i (c :: t)) (length (c :: t)) (length (c :: t))) as (e & -> & He).
        - apply just_fails; [exact H|]. cbn. congruence.
        - apply fails_map. eexists. split; [reflexivity|]. exact (spot_here i (c :: t) [None] H).
        - rewrite Nat.min_id in He. exists e. auto. }
      destruct Hf as (e & Ef & He).
      change (enum_from i (c :: t)) with ((c, mkSpan i (i + 1)) :: enum_from (i + 1) t) in *.
      cbn [p_take_until_from]. rewrite Ef. cbn [length] in *.
      replace (S (length t) - S (span_len (fun d => negb (d =? LF)%N) t))
        with (length t - span_len (fun d => negb (d =? LF)%N) t) in * by lia.
      apply IH; [eapply at_tl; exact H|]. apply alt_merge; [exact Ha|]. exists (S (length t)). split; [exact He|lia].
Qed.
Lemma comment_near i t : at_ i t ->
  near (t_comment eoi (enum_from i t))
       (match lx_comment' t with Some (_, k) => length t - k | None => length t end).
Proof.
  intros H. unfold t_comment. apply near_map.
  destruct t as [|c t]; [apply near_then; [exact (just_near (ch "#") i [] H)|cbn; discriminate]|].
  cbn [lx_comment']. destruct (N.eqb_spec c (ch "#")) as [->|Hc].
  - apply near_then.
    + eapply near_le; [apply just_near; exact H | lia].
    + intros es a alt r E. cbn [enum_from p_just] in E. rewrite N.eqb_refl in E. injection E as _ _ _ <-.
      cbn [length Nat.sub]. apply until_near; [eapply at_tl; exact H | exact Logic.I].
  - eapply fails_near; [|apply le_n]. apply fails_then, just_fails; [exact H|]. cbn [hd_error]. congruence.
Qed.

(** numbers *)
Lemma int_near dig i t : at_ i t ->
  near (text_int eoi dig (enum_from i t)) (match int_len dig t with Some k => length t - k | None => length t end).
Proof.
  intros H. unfold text_int. apply near_or; apply near_map.
  - destruct t as [|c t].
    + apply near_then; [exact (filter_near _ i [] H)|cbn; discriminate].
    + cbn [int_len]. unfold nzero. destruct (dig c && negb (c =? 48)%N) eqn:E.
      * apply near_then; [eapply near_le; [apply filter_near; exact H | lia]|].
        intros es a alt r Er. cbn [enum_from p_filter] in Er. rewrite E in Er. injection Er as _ _ _ <-.
        cbn [length Nat.sub]. apply rep_filter_near. eapply at_tl; exact H.
      * eapply fails_near; [apply fails_then, filter_fails; [exact H|exact E]|].
        destruct (c =? 48)%N; cbn [length]; lia.
  - eapply near_le; [apply just_near; exact H|].
    destruct (int_len dig t); lia.
Qed.
Lemma int_fails dig i t : at_ i t -> int_len dig t = None -> fails (text_int eoi dig (enum_from i t)) (length t).
Proof.
  intros H E. unfold text_int. rewrite <- (Nat.min_id (length t)).
  apply fails_or; apply fails_map.
  - apply fails_then, filter_fails; [exact H|]. destruct t as [|c t]; [exact Logic.I|].
    cbn [int_len] in E. unfold nzero in E. destruct (dig c && negb (c =? 48)%N); [discriminate|reflexivity].
  - apply just_fails; [exact H|]. destruct t as [|c t]; [discriminate|].
    cbn [int_len] in E. cbn [hd_error]. intros Ec. injection Ec as ->. rewrite N.eqb_refl in E.
    destruct (_ && _) in E; discriminate.
Qed.
Lemma num_near i t : at_ i t ->
  near (t_num eoi (enum_from i t)) (match lx_num' t with Some (_, k) => length t - k | None => length t end).
Proof.
  intros H. unfold t_num. apply near_map. pose proof (int_near is_digit10 i t H) as Hn.
  unfold lx_num'. destruct (int_len is_digit10 t); exact Hn.
Qed.
Lemma num_fails i t : at_ i t -> lx_num' t = None -> fails (t_num eoi (enum_from i t)) (length t).
Proof.
  intros H E. unfold t_num. apply fails_map, int_fails; [exact H|].
  unfold lx_num' in E. destruct (int_len is_digit10 t); [discriminate|reflexivity].
Qed.
Lemma seq_near a b i t : at_ i t ->
  near (p_just_seq N.eqb eoi [a; b] (enum_from i t))
    (match t with
     | c :: d :: _ => if (c =? a)%N then if (d =? b)%N then length t - 2 else length t - 1 else length t
     | c :: [] => if (c =? a)%N then length t - 1 else length t
     | [] => length t
     end).
Proof.
  intros H. cbn [p_just_seq]. destruct t as [|c t].
  - destruct (just_fails a i [] H) as (e & -> & He); [discriminate|]. cbn. eauto.
  - destruct (N.eqb_spec c a) as [->|Hc].
    + cbn [enum_from p_just]. rewrite N.eqb_refl. pose proof (at_tl _ _ _ H) as Ht.
      destruct t as [|d t].
      * destruct (just_fails b _ [] Ht) as (e & E & He); [discriminate|]. rewrite E. cbn. eauto.
      * destruct (N.eqb_spec d b) as [->|Hd].
        -- cbn [enum_from p_just]. rewrite N.eqb_refl. cbn. auto.
        -- destruct (just_fails b _ _ Ht) as (e & E & He); [cbn [hd_error]; congruence|]. rewrite E. cbn.
           split; [reflexivity|]. eexists. split; [exact He|]. cbn. lia.
    + destruct (just_fails a i (c :: t) H) as (e & E & He); [cbn [hd_error]; congruence|].
      rewrite E. destruct t; cbn; eauto.
Qed.
Lemma hex_near i t : at_ i t ->
  near (t_hexnum eoi (enum_from i t))
    (match lx_hex' t with
     | Some (_, k) => length t - k
     | None => match t with
               | c :: d :: _ => if (c =? ch "0")%N then if (d =? ch "x")%N then length t - 2 else length t - 1 else length t
               | c :: [] => if (c =? ch "0")%N then length t - 1 else length t
               | [] => length t
               end
     end).
Proof.
  intros H. unfold t_hexnum, p_ignore_then. do 2 apply near_map.
  pose proof (seq_near (ch "0") (ch "x") i t H) as Hs.
  change (str "0x") with [ch "0"; ch "x"].
  apply near_then.
  - eapply near_le; [exact Hs|]. unfold lx_hex'. destruct t as [|c [|d t]]; [lia|lia|].
    destruct (c =? ch "0")%N, (d =? ch "x")%N; cbn [andb]; try lia.
    destruct (int_len is_digit16 t); cbn [option_map]; lia.
  - intros es a alt r E. cbn [p_just_seq] in E.
    destruct t as [|c t]; [discriminate|]. cbn [enum_from p_just] in E.
    destruct (N.eqb_spec c (ch "0")) as [->|]; [|discriminate].
    destruct t as [|d t]; [discriminate|]. cbn [enum_from p_just] in E.
    destruct (N.eqb_spec d (ch "x")) as [->|]; [|discriminate]. injection E as _ _ _ <-.
    unfold lx_hex'. rewrite !N.eqb_refl. cbn [andb].
    pose proof (int_near is_digit16 _ _ (at_tl _ _ _ (at_tl _ _ _ H))) as Hn.
    destruct (int_len is_digit16 t); cbn [option_map length] in *; eapply near_le; try exact Hn; lia.
Qed.
Lemma hex_fails i t : at_ i t -> hd_error t <> Some (ch "0") -> fails (t_hexnum eoi (enum_from i t)) (length t).
Proof.
  intros H E. unfold t_hexnum, p_ignore_then. do 2 apply fails_map. apply fails_then.
  change (str "0x") with [ch "0"; ch "x"]. cbn [p_just_seq].
  destruct (just_fails (ch "0") i t H E) as (e & -> & He). exists e. auto.
Qed.

(** strings *)
Lemma str_fails i t : at_ i t -> hd_error t <> Some DQUOTE -> fails (t_str eoi (enum_from i t)) (length t).
Proof.
  intros H E. unfold t_str, p_then_ignore, p_ignore_then. do 2 apply fails_map. apply fails_then, fails_map, fails_then.
  apply just_fails; assumption.
Qed.
Lemma quote_parts i t : at_ i (DQUOTE :: t) -> let k := span_len (fun c => negb (c =? DQUOTE)%N) t in
  exists (alt : option (located char)), p_ignore_then (p_just N.eqb eoi DQUOTE) (p_repeated (p_filter eoi (fun c => negb (c =? DQUOTE)%N))) (enum_from i (DQUOTE :: t) : list (char * span))
    = POk [] (firstn k t) alt (enum_from (i + 1 + k) (skipn k t)) /\ alt_ge alt (length t - k) /\
    at_ (i + 1 + k) (skipn k t).
Proof.
  intros H k. pose proof (at_tl _ _ _ H) as Ht.
  destruct (near_ok (p_repeated (p_filter eoi (fun c => negb (c =? DQUOTE)%N))) (enum_from (i + 1) t) (length t - k) 0 (firstn k t) (enum_from (i + 1 + k) (skipn k t))) as (alt & E & Ha & _).
  - apply rep_filter_near. exact Ht.
  - rewrite v_rep_filter, enum_chars, skipn_enum. reflexivity.
  - exists alt. split; [|split; [exact Ha|apply at_skip; [exact Ht|apply span_len_le]]].
    unfold p_ignore_then, p_map, p_then. cbn [enum_from p_just]. rewrite N.eqb_refl, E. reflexivity.
Qed.
Lemma str_near i t : at_ i (DQUOTE :: t) -> forall tok k, lx_str' (DQUOTE :: t) = Some (tok, k) ->
  near (t_str eoi (enum_from i (DQUOTE :: t))) (length (DQUOTE :: t) - k).
Proof.
  intros H tok k E. destruct (quote_parts i t H) as (alt & Ep & Ha & Hat).
  unfold t_str. apply near_map. apply near_map. set (k' := span_len _ t) in *.
  cbn [lx_str'] in E. rewrite N.eqb_refl in E. fold k' in E.
  destruct (Nat.ltb_spec k' (length t)) as [Hk|]; [|discriminate]. injection E as _ <-.
  apply near_then.
  - rewrite Ep. cbn [near]. split; [reflexivity|]. eapply alt_ge_le; [exact Ha|cbn [length]; lia].
  - intros es a alt' r E. rewrite Ep in E. injection E as _ _ _ <-.
    eapply near_le; [apply just_near; exact Hat|]. rewrite skipn_length. cbn [length]. lia.
Qed.
Lemma str_open i t : at_ i (DQUOTE :: t) -> lx_str' (DQUOTE :: t) = None ->
  fails (t_str eoi (enum_from i (DQUOTE :: t))) 0.
Proof.
  intros H E. destruct (quote_parts i t H) as (alt & Ep & Ha & Hat).
  unfold t_str. apply fails_map, fails_map. set (k' := span_len _ t) in *.
  cbn [lx_str'] in E. rewrite N.eqb_refl in E. fold k' in E.
  destruct (Nat.ltb_spec k' (length t)) as [Hk|Hk]; [discriminate|].
  rewrite skipn_all2 in Hat, Ep by lia. unfold p_then. rewrite Ep.
  destruct (just_fails DQUOTE _ [] Hat) as (e & -> & He); [discriminate|].
  eexists. split; [reflexivity|]. eapply max_alt; [exact He|exact Ha|cbn; lia].
Qed.

(** names *)
Section Names.
Variable u : uclass.
Definition tail_stop (t : text) : nat :=
  length t - tail_len u t 0 - span_len colon (skipn (tail_len u t 0) t).
Definition tscan (M : nat) (st : list (char * span)) : Prop :=
  exists j s, st = enum_from j s /\ at_ j s /\ M = tail_stop s.
Lemma step_near i t : at_ i t -> near (tail_step u eoi (enum_from i t)) (length t - span_len colon t).
Proof.
  intros H. unfold tail_step. apply near_then.
  - apply (rep_just_near (ch ":") i t H).
  - intros es a alt r E. assert (Ev := f_equal vw E).
    rewrite (vw_repeated0 _ _ _ _ _ (consumes_just _ (ch ":")) (iter_just _ (ch ":") _)) in Ev. cbn [vw] in Ev.
    injection Ev as _ _ <-. rewrite enum_chars, skipn_enum.
    eapply near_le; [apply filter_near; apply at_skip; [exact H|apply span_len_le]|].
    rewrite skipn_length. apply le_n.
Qed.
Lemma tail_near i t : at_ i t -> near (t_ident_tail u eoi (enum_from i t)) (tail_stop t).
Proof.
  intros H. unfold t_ident_tail. apply near_map. fold (tail_step u eoi).
  apply near_repeated with (Q := tscan (tail_stop t)).
  - intros st (j & s & -> & Hs & HM).
    assert (Hle : tail_stop s <= length s - span_len colon s).
    { unfold tail_stop. rewrite (tail_len_colons u s 0).
      destruct (nth_error s (span_len colon s)) as [c|]; [|cbn [skipn]; lia].
      destruct (is_ident_char u c); [|cbn [skipn]; lia]. lia. }
    split.
    + eapply near_le; [apply step_near; exact Hs | rewrite HM; exact Hle].
    + intros es a alt r E. assert (Ev := f_equal vw E). rewrite v_tail_step, enum_chars in Ev. cbn [vw] in Ev.
      destruct (nth_error s (span_len colon s)) as [c|] eqn:Ec; [|discriminate].
      destruct (is_ident_char u c) eqn:Ei; [|discriminate].
      assert (Er : r = skipn (S (span_len colon s)) (enum_from j s)) by congruence.
      rewrite skipn_enum in Er. subst r.
      assert (Hl : S (span_len colon s) <= length s) by (apply nth_error_Some; congruence).
      do 2 eexists. split; [reflexivity|]. split; [apply at_skip; [exact Hs|exact Hl]|].
      rewrite HM. unfold tail_stop. rewrite (tail_len_colons u s 0), Ec, Ei.
      set (q := skipn (S (span_len colon s)) s).
      assert (Hq : length q = length s - S (span_len colon s)) by apply skipn_length.
      replace (0 + span_len colon s + S (tail_len u q 0)) with (tail_len u q 0 + S (span_len colon s)) by lia.
      rewrite <- skipn_skipn. fold q. lia.
  - exists i, t. auto.
  - destruct (iter_tail u eoi (length (enum_from i t)) (enum_from i t) (le_n _)) as (l & Hl & _).
    rewrite (vw_repeated0 _ _ _ _ _ (consumes_tail_step u eoi) Hl). discriminate.
Qed.
Definition name_stop (t : text) (k : nat) : nat := length t - k - span_len colon (skipn k t).
Lemma ident_near i t : at_ i t ->
  near (t_ident u eoi (enum_from i t)) (match lx_ident' u t with Some (_, k) => name_stop t k | None => length t end).
Proof.
  intros H. unfold t_ident. apply near_map.
  destruct t as [|c t]; [apply near_then; [exact (filter_near _ i [] H)|cbn; discriminate]|].
  cbn [lx_ident']. destruct (is_ident_head u c) eqn:E.
  - apply near_then; [eapply near_le; [apply filter_near; exact H|unfold name_stop; lia]|].
    intros es a alt r Er. cbn [enum_from p_filter] in Er. rewrite E in Er. injection Er as _ _ _ <-.
    apply tail_near. eapply at_tl; exact H.
  - eapply fails_near; [|apply le_n]. apply fails_then, filter_fails; [exact H|exact E].
Qed.
Lemma ident_fails i t : at_ i t -> lx_ident' u t = None -> fails (t_ident u eoi (enum_from i t)) (length t).
Proof.
  intros H E. unfold t_ident. apply fails_map, fails_then, filter_fails; [exact H|].
  destruct t as [|c t]; [exact Logic.I|]. cbn [lx_ident'] in E. destruct (is_ident_head u c); [discriminate|reflexivity].
Qed.
Lemma sigil_near s mk i t : at_ i t ->
  near (t_sigil u eoi s mk (enum_from i t)) (match lx_sigil' u s mk t with Some (_, k) => name_stop t k | None => length t end).
Proof.
  intros H. unfold t_sigil. apply near_map.
  destruct t as [|c t]; [apply near_then; [exact (just_near _ i [] H)|cbn; discriminate]|].
  cbn [lx_sigil']. destruct (c =? s)%N eqn:E.
  - apply near_then; [eapply near_le; [apply just_near; exact H|unfold name_stop; lia]|].
    intros es a alt r Er. cbn [enum_from p_just] in Er. rewrite E in Er. injection Er as _ _ _ <-.
    apply tail_near. eapply at_tl; exact H.
  - eapply fails_near; [|apply le_n]. apply fails_then, just_fails; [exact H|].
    apply N.eqb_neq in E. cbn [hd_error]. congruence.
Qed.
Lemma sigil_fails s mk i t : at_ i t -> lx_sigil' u s mk t = None -> fails (t_sigil u eoi s mk (enum_from i t)) (length t).
Proof.
  intros H E. unfold t_sigil. apply fails_map, fails_then, just_fails; [exact H|].
  destruct t as [|c t]; [discriminate|]. cbn [lx_sigil'] in E. destruct (N.eqb_spec c s); [discriminate|].
  cbn [hd_error]. congruence.
Qed.
End Names.

(** punctuation and line ends *)
Lemma punct_near i t : at_ i t ->
  near (t_punctuation eoi (enum_from i t)) (length t).
Proof. intros H. apply near_map, one_of_near. exact H. Qed.
Lemma punct_fails i t : at_ i t -> lx_punct' t = None -> fails (t_punctuation eoi (enum_from i t)) (length t).
Proof.
  intros H E. apply fails_map, one_of_fails; [exact H|]. destruct t as [|c t]; [exact Logic.I|].
  cbn [lx_punct'] in E. destruct (existsb (N.eqb c) punctuation_chars); [discriminate|reflexivity].
Qed.
Lemma newline_fails i t : at_ i t -> hd_error t <> Some CR -> lx_newline' t = None ->
  fails (t_newline eoi (enum_from i t)) (length t).
Proof.
  intros H Hc E. unfold t_newline. apply fails_map. rewrite <- (Nat.min_id (length t)). apply fails_or.
  - apply just_fails; [exact H|]. destruct t as [|c t]; [discriminate|]. cbn [lx_newline'] in E.
    destruct (N.eqb_spec c LF); [discriminate|]. cbn [hd_error]. congruence.
  - unfold p_then_ignore. apply fails_map, fails_then, just_fails; assumption.
Qed.
Lemma newline_cr i t : at_ i (CR :: t) -> lx_newline' (CR :: t) = None ->
  fails (t_newline eoi (enum_from i (CR :: t))) (length t).
Proof.
  intros H E. unfold t_newline. apply fails_map.
  replace (length t) with (Nat.min (length (CR :: t)) (length t)) by (cbn [length]; lia).
  apply fails_or.
  - apply just_fails; [exact H|discriminate].
  - unfold p_then_ignore. apply fails_map. unfold p_then. cbn [enum_from p_just]. rewrite N.eqb_refl.
    destruct (just_fails LF _ t (at_tl _ _ _ H)) as (e & Ee & He).
    { destruct t as [|d t]; [discriminate|]. cbn [lx_newline'] in E. change (CR =? LF)%N with false in E.
      rewrite N.eqb_refl in E. destruct (N.eqb_spec d LF); [discriminate|]. cbn [hd_error]. congruence. }
    rewrite Ee. exists e. auto.
Qed.
Lemma newline_near i t : at_ i t -> near (t_newline eoi (enum_from i t))
  (match lx_newline' t with Some (_, k) => length t - k | None => match t with c :: r => if (c =? CR)%N then length r else length t | [] => length t end end).
Proof.
  intros H. destruct (lx_newline' t) as [[tok k]|] eqn:E.
  - destruct t as [|c t]; [discriminate|]. cbn [lx_newline'] in E.
    destruct (N.eqb_spec c LF) as [->|Hc].
    + injection E as _ <-. cbn. auto.
    + destruct (N.eqb_spec c CR) as [->|]; [|discriminate]. destruct t as [|d t]; [discriminate|].
      destruct (N.eqb_spec d LF) as [->|]; [|discriminate]. injection E as _ <-. cbn. auto.
  - destruct t as [|c t].
    + eapply fails_near; [apply newline_fails; [exact H|discriminate|exact E]|apply le_n].
    + destruct (N.eqb_spec c CR) as [->|Hc].
      * eapply fails_near; [apply newline_cr; assumption|apply le_n].
      * eapply fails_near; [apply newline_fails; [exact H|cbn [hd_error]; congruence|exact E]|apply le_n].
Qed.

(** ** One token *)
Section Token.
Variable u : uclass.

Lemma choice_step {A} (p : parser A) ps alt st M : vw (p st) = VFail -> near (p st) M -> alt_ge alt M ->
  (forall alt', alt_ge alt' M -> near (p_choice_from eoi alt' ps st) M) ->
  near (p_choice_from eoi alt (p :: ps) st) M.
Proof.
  intros Hv Hn Ha Hk. cbn [p_choice_from]. destruct (p st) as [es a a' r|es e|]; [discriminate| |discriminate].
  destruct Hn as [_ Hn]. apply Hk, alt_merge; [exact Ha|exact Hn].
Qed.
Lemma choice_hit {A} (p : parser A) ps alt st M k a r : vw (p st) = VOk k a r -> near (p st) M -> alt_ge alt M ->
  near (p_choice_from eoi alt (p :: ps) st) M.
Proof.
  intros Hv Hn Ha. cbn [p_choice_from]. destruct (p st) as [es a' alt' r'|es e|]; [|discriminate|discriminate].
  exact Hn.
Qed.

(** how far a token may have looked at what follows it *)
Definition look (t : text) : nat :=
  match t with c :: _ => if (c =? ch "x")%N then 1 else span_len colon t | [] => 0 end.
Lemma look_colon t : span_len colon t <= look t.
Proof.
  destruct t as [|c t]; [cbn; lia|]. cbn [look]. destruct (N.eqb_spec c (ch "x")) as [->|]; [cbn; lia|lia].
Qed.

Lemma token_near i t tok k : at_ i t -> lex u t = Some (tok, k) ->
  near (t_token u eoi (enum_from i t)) (length t - k - look (skipn k t)).
Proof.
  intros H E. pose proof (lex_sound _ _ _ _ E) as [[Hk1 Hk2] _].
  set (M := length t - k - look (skipn k t)).
  assert (HM : M <= length t - 1) by (unfold M; lia).
  assert (Hstop : forall k', k' = k -> M <= name_stop t k').
  { intros k' ->. unfold M, name_stop. pose proof (look_colon (skipn k t)). lia. }
  unfold t_token, p_choice. unfold lex in E. cbn [first_some] in E.
  pose proof (v_comment eoi (enum_from i t)) as V. rewrite enum_chars in V. pose proof (comment_near i t H) as N.
  destruct (lx_comment' t) as [[tok' k']|] eqn:E1; cbn [as_view] in V.
  { injection E as -> ->. eapply choice_hit; [exact V|eapply near_le; [exact N|unfold M; lia]|exact Logic.I]. }
  apply choice_step; [exact V|eapply near_le; [exact N|lia]|exact Logic.I|intros alt1 A1]. clear V N.
  pose proof (v_hex eoi (enum_from i t)) as V. rewrite enum_chars in V. pose proof (hex_near i t H) as N.
  destruct (lx_hex' t) as [[tok' k']|] eqn:E2; cbn [as_view] in V.
  { injection E as -> ->. eapply choice_hit; [exact V|eapply near_le; [exact N|unfold M; lia]|exact A1]. }
  apply choice_step; [exact V| |exact A1|intros alt2 A2].
  { eapply near_le; [exact N|]. destruct t as [|c [|d t]]; [lia|destruct (_ =? _)%N; lia|].
    destruct (N.eqb_spec c (ch "0")) as [->|]; [|lia]. destruct (N.eqb_spec d (ch "x")) as [->|]; [|lia].
    change (lx_num' (ch "0" :: ch "x" :: t)) with (Some (TNum [ch "0"], 1)) in E. injection E as _ <-.
    unfold M. cbn [skipn look]. rewrite N.eqb_refl. cbn [length]. lia. }
  clear V N.
  pose proof (v_num eoi (enum_from i t)) as V. rewrite enum_chars in V. pose proof (num_near i t H) as N.
  destruct (lx_num' t) as [[tok' k']|] eqn:E3; cbn [as_view] in V.
  { injection E as -> ->. eapply choice_hit; [exact V|eapply near_le; [exact N|unfold M; lia]|exact A2]. }
  apply choice_step; [exact V|eapply near_le; [exact N|lia]|exact A2|intros alt3 A3]. clear V N.
  pose proof (v_str eoi (enum_from i t)) as V. rewrite enum_chars in V.
  destruct (lx_str' t) as [[tok' k']|] eqn:E4; cbn [as_view] in V.
  { injection E as -> ->. destruct t as [|c t]; [discriminate|].
    assert (c = DQUOTE) as ->. { cbn [lx_str'] in E4. destruct (N.eqb_spec c DQUOTE); [assumption|discriminate]. }
    eapply choice_hit; [exact V|eapply near_le; [eapply str_near; [exact H|exact E4]|unfold M; lia]|exact A3]. }
  assert (Hdq : hd_error t <> Some DQUOTE).
  { destruct t as [|c t]; [discriminate|]. cbn [hd_error]. intros Hc. injection Hc as ->.
    destruct t; cbn in E; discriminate. }
  apply choice_step; [exact V|eapply fails_near; [apply str_fails; [exact H|exact Hdq]|lia]|exact A3|intros alt4 A4]. clear V.
  pose proof (v_punct eoi (enum_from i t)) as V. rewrite enum_chars in V. pose proof (punct_near i t H) as N.
  destruct (lx_punct' t) as [[tok' k']|] eqn:E5; cbn [as_view] in V.
  { eapply choice_hit; [exact V|eapply near_le; [exact N|lia]|exact A4]. }
  apply choice_step; [exact V|eapply near_le; [exact N|lia]|exact A4|intros alt5 A5]. clear V N.
  pose proof (v_ident u eoi (enum_from i t)) as V. rewrite enum_chars in V. pose proof (ident_near u i t H) as N.
  destruct (lx_ident' u t) as [[tok' k']|] eqn:E6; cbn [as_view] in V.
  { injection E as -> ->. eapply choice_hit; [exact V|eapply near_le; [exact N|apply Hstop; reflexivity]|exact A5]. }
  apply choice_step; [exact V|eapply near_le; [exact N|lia]|exact A5|intros alt6 A6]. clear V N.
  pose proof (v_sigil u eoi (ch "@") TGlobalName (enum_from i t)) as V. rewrite enum_chars in V.
  pose proof (sigil_near u (ch "@") TGlobalName i t H) as N.
  destruct (lx_sigil' u (ch "@") TGlobalName t) as [[tok' k']|] eqn:E7; cbn [as_view] in V.
  { injection E as -> ->. eapply choice_hit; [exact V|eapply near_le; [exact N|apply Hstop; reflexivity]|exact A6]. }
  apply choice_step; [exact V|eapply near_le; [exact N|lia]|exact A6|intros alt7 A7]. clear V N.
  pose proof (v_sigil u eoi (ch "%") TLocalName (enum_from i t)) as V. rewrite enum_chars in V.
  pose proof (sigil_near u (ch "%") TLocalName i t H) as N.
  destruct (lx_sigil' u (ch "%") TLocalName t) as [[tok' k']|] eqn:E8; cbn [as_view] in V.
  { injection E as -> ->. eapply choice_hit; [exact V|eapply near_le; [exact N|apply Hstop; reflexivity]|exact A7]. }
  apply choice_step; [exact V|eapply near_le; [exact N|lia]|exact A7|intros alt8 A8]. clear V N.
  pose proof (v_sigil u eoi (ch "!") TDebugRef (enum_from i t)) as V. rewrite enum_chars in V.
  pose proof (sigil_near u (ch "!") TDebugRef i t H) as N.
  destruct (lx_sigil' u (ch "!") TDebugRef t) as [[tok' k']|] eqn:E9; cbn [as_view] in V.
  { injection E as -> ->. eapply choice_hit; [exact V|eapply near_le; [exact N|apply Hstop; reflexivity]|exact A8]. }
  apply choice_step; [exact V|eapply near_le; [exact N|lia]|exact A8|intros alt9 A9]. clear V N.
  pose proof (v_newline eoi (enum_from i t)) as V. rewrite enum_chars in V. pose proof (newline_near i t H) as N.
  destruct (lx_newline' t) as [[tok' k']|] eqn:E10; cbn [as_view] in V; [|discriminate].
  injection E as -> ->. eapply choice_hit; [exact V|eapply near_le; [exact N|unfold M; lia]|exact A9].
Qed.

Lemma token_ok i t tok k : at_ i t -> lex u t = Some (tok, k) ->
  exists alt, t_token u eoi (enum_from i t) = POk [] tok alt (enum_from (i + k) (skipn k t)) /\
    alt_ge alt (length (skipn k t) - look (skipn k t)).
Proof.
  intros H E. pose proof (token_near i t tok k H E) as Hn.
  destruct (near_ok _ _ _ 0 tok (enum_from (i + k) (skipn k t)) Hn) as (alt & Ha & Hg & _).
  - rewrite v_token, enum_chars, E. cbn [as_view]. rewrite skipn_enum. reflexivity.
  - exists alt. split; [exact Ha|]. rewrite skipn_length. exact Hg.
Qed.

(** where a failed token is marked *)
Definition stop (t : text) : nat :=
  match t with
  | [] => 0
  | c :: r => if (c =? DQUOTE)%N then 0 else if (c =? CR)%N then length r else length t
  end.
Lemma stop_le t : stop t <= length t.
Proof. destruct t as [|c r]; cbn; [lia|]. destruct (c =? DQUOTE)%N; [lia|]. destruct (c =? CR)%N; lia. Qed.
Lemma stop_mark i t : at_ i t -> n - stop t = mark_of src i.
Proof.
  intros H. unfold mark_of. rewrite (at_nth _ _ H). pose proof (at_len _ _ H) as Hl. destruct H as [H _].
  destruct t as [|c r]; cbn [hd_error stop length] in *; [lia|].
  destruct (c =? DQUOTE)%N; [lia|]. destruct (c =? CR)%N; lia.
Qed.

Definition alt_is (alt : option (located char)) (x : nat) : Prop :=
  match alt with Some e => spot e x | None => n <= x end.
Lemma choice_next {A} (p : parser A) ps alt st x m r : fails (p st) m -> alt_is alt x ->
  (forall alt', alt_is alt' (Nat.min x m) -> fails (p_choice_from eoi alt' ps st) r) ->
  fails (p_choice_from eoi alt (p :: ps) st) r.
Proof.
  intros (e & E & He) Ha Hk. cbn [p_choice_from]. rewrite E. apply Hk.
  destruct alt as [a|]; cbn in *; [apply spot_max; assumption|].
  destruct He as (H1 & H2 & H3). rewrite Nat.min_r by lia. repeat split; try assumption; apply H3.
Qed.

Lemma token_err i t : at_ i t -> lex u t = None -> fails (t_token u eoi (enum_from i t)) (stop t).
Proof.
  intros H E. pose proof (at_len _ _ H) as Hl. assert (Hi : i <= n) by apply H.
  unfold t_token, p_choice, t_global, t_local, t_debugref. unfold lex in E. cbn [first_some] in E.
  destruct (lx_comment' t) as [[tok' k']|] eqn:E1; [discriminate|].
  destruct (lx_hex' t) as [[tok' k']|] eqn:E2; [discriminate|].
  destruct (lx_num' t) as [[tok' k']|] eqn:E3; [discriminate|].
  destruct (lx_str' t) as [[tok' k']|] eqn:E4; [discriminate|].
  destruct (lx_punct' t) as [[tok' k']|] eqn:E5; [discriminate|].
  destruct (lx_ident' u t) as [[tok' k']|] eqn:E6; [discriminate|].
  destruct (lx_sigil' u (ch "@") TGlobalName t) as [[tok' k']|] eqn:E7; [discriminate|].
  destruct (lx_sigil' u (ch "%") TLocalName t) as [[tok' k']|] eqn:E8; [discriminate|].
  destruct (lx_sigil' u (ch "!") TDebugRef t) as [[tok' k']|] eqn:E9; [discriminate|].
  destruct (lx_newline' t) as [[tok' k']|] eqn:E10; [discriminate|].
  assert (Fc : fails (t_comment eoi (enum_from i t)) (length t)).
  { unfold t_comment. apply fails_map, fails_then, just_fails; [exact H|].
    destruct t as [|c t]; [discriminate|]. cbn [lx_comment'] in E1. destruct (N.eqb_spec c (ch "#")); [discriminate|].
    cbn [hd_error]. congruence. }
  assert (Fh : fails (t_hexnum eoi (enum_from i t)) (length t)).
  { apply hex_fails; [exact H|]. destruct t as [|c t]; [discriminate|]. cbn [hd_error]. intros Hc. injection Hc as ->.
    discriminate E3. }
  assert (Fs : fails (t_str eoi (enum_from i t)) (match t with c :: _ => if (c =? DQUOTE)%N then 0 else length t | [] => 0 end)).
  { destruct t as [|c t]; [apply (str_fails i [] H); discriminate|].
    destruct (N.eqb_spec c DQUOTE) as [->|]; [apply str_open; assumption|].
    apply str_fails; [exact H|cbn [hd_error]; congruence]. }
  assert (Fn : fails (t_newline eoi (enum_from i t)) (match t with c :: r => if (c =? CR)%N then length r else length t | [] => 0 end)).
  { destruct t as [|c t]; [apply (newline_fails i [] H); [discriminate|reflexivity]|].
    destruct (N.eqb_spec c CR) as [->|]; [apply newline_cr; assumption|].
    apply newline_fails; [exact H|cbn [hd_error]; congruence|exact E10]. }
  eapply choice_next; [exact Fc|exact (le_n n)|intros a1 A1].
  eapply choice_next; [exact Fh|exact A1|intros a2 A2].
  eapply choice_next; [apply num_fails; [exact H|exact E3]|exact A2|intros a3 A3].
  eapply choice_next; [exact Fs|exact A3|intros a4 A4].
  eapply choice_next; [apply punct_fails; [exact H|exact E5]|exact A4|intros a5 A5].
  eapply choice_next; [apply ident_fails; [exact H|exact E6]|exact A5|intros a6 A6].
  eapply choice_next; [apply sigil_fails; [exact H|exact E7]|exact A6|intros a7 A7].
  eapply choice_next; [apply sigil_fails; [exact H|exact E8]|exact A7|intros a8 A8].
  eapply choice_next; [apply sigil_fails; [exact H|exact E9]|exact A8|intros a9 A9].
  cbn [p_choice_from]. destruct Fn as (e & -> & He).
  assert (Hmin : forall a x m, alt_is a x -> spot e m -> exists e', merge_alts a (Some e) = Some e' /\ spot e' (Nat.min x m)).
  { intros a x m Ha Hs. destruct a as [a|]; cbn in *; [eexists; split; [reflexivity|apply spot_max; assumption]|].
    destruct Hs as (H1 & H2 & H3). exists e. rewrite Nat.min_r by lia. repeat split; try assumption; apply H3. }
  destruct (Hmin _ _ _ A9 He) as (e' & -> & Hs). exists e'. split; [reflexivity|].
  match type of Hs with spot _ ?m => replace (stop t) with m; [exact Hs|] end.
  clear - Hl Hi. destruct t as [|c t]; cbn [stop length] in *; [lia|].
  destruct (N.eqb_spec c DQUOTE) as [->|]; [lia|]. destruct (c =? CR)%N; lia.
Qed.

(** ** Recovery *)
Lemma retry_token e : forall t i errs, at_ i t ->
  match gfind u t with
  | Some (k, tok, m) => exists alt,
      p_retry (t_token u eoi) errs e (enum_from i t) =
        POk [e] tok alt (enum_from (i + (k + m)) (skipn (k + m) t)) /\
      alt_ge alt (length (skipn (k + m) t) - look (skipn (k + m) t))
  | None => p_retry (t_token u eoi) errs e (enum_from i t) = PErr errs e
  end.
Proof.
  induction t as [|c t IH]; intros i errs H.
  - reflexivity.
  - cbn [gfind]. destruct (lex u (c :: t)) as [[tok m]|] eqn:E.
    + destruct (token_ok i (c :: t) tok m H E) as (alt & Et & Ha). exists alt. split; [|exact Ha].
      change (enum_from i (c :: t)) with ((c, mkSpan i (i + 1)) :: enum_from (i + 1) t) in *.
      cbn [p_retry]. rewrite Et. reflexivity.
    + destruct (token_err i (c :: t) H E) as (e' & Et & _).
      change (enum_from i (c :: t)) with ((c, mkSpan i (i + 1)) :: enum_from (i + 1) t) in *.
      cbn [p_retry]. rewrite Et. specialize (IH (i + 1) errs (at_tl _ _ _ H)).
      destruct (gfind u t) as [[[k tok] m]|]; [|exact IH].
      cbn [plus skipn]. replace (i + S (k + m)) with (i + 1 + (k + m)) by lia. exact IH.
Qed.
Lemma recover_token i t : at_ i t ->
  match gfind u t with
  | Some (k, tok, m) => exists es alt,
      p_recover (t_token u eoi) (enum_from i t) = POk es tok alt (enum_from (i + (k + m)) (skipn (k + m) t)) /\
      (if k =? 0 then es = [] else exists e, es = [e] /\ spot e (stop t)) /\
      alt_ge alt (length (skipn (k + m) t) - look (skipn (k + m) t))
  | None => fails (p_recover (t_token u eoi) (enum_from i t)) (stop t)
  end.
Proof.
  intros H. unfold p_recover. destruct t as [|c t].
  - cbn [gfind]. rewrite lex_nil. destruct (token_err i [] H (lex_nil u)) as (e & E & He).
    rewrite E. exists e. split; [|exact He]. cbn [enum_from p_retry]. cbn [enum_from] in E. rewrite E. reflexivity.
  - cbn [gfind]. destruct (lex u (c :: t)) as [[tok m]|] eqn:E.
    + destruct (token_ok i (c :: t) tok m H E) as (alt & -> & Ha). exists [], alt.
      split; [reflexivity|]. split; [reflexivity|exact Ha].
    + destruct (token_err i (c :: t) H E) as (e & Ee & He). rewrite Ee. cbn [enum_from].
      pose proof (retry_token e t (i + 1) [] (at_tl _ _ _ H)) as Hr.
      destruct (gfind u t) as [[[k tok] m]|].
      * destruct Hr as (alt & -> & Ha). exists [e], alt. cbn [Nat.eqb plus skipn app].
        replace (i + S (k + m)) with (i + 1 + (k + m)) by lia. eauto.
      * rewrite Hr. exists e. auto.
Qed.

Lemma look_skip j t : j <= length t ->
  length (skipn j t) - look (skipn j t) <= length t - look t.
Proof.
  intros Hj. rewrite skipn_length. destruct t as [|c t]; [cbn in *; lia|].
  destruct j as [|j]; [cbn [skipn]; lia|]. cbn [look]. destruct (c =? ch "x")%N; [cbn [length]; lia|].
  set (s := c :: t) in *. pose proof (look_colon (skipn (S j) s)).
  assert (G : forall j s, span_len colon s <= j + span_len colon (skipn j s)).
  { clear. induction j as [|j IH]; intros s; cbn [skipn]; [lia|]. destruct s as [|c s]; cbn [span_len]; [lia|].
    destruct (colon c); [specialize (IH s)|]; lia. }
  specialize (G (S j) s). lia.
Qed.

(** ** One item with its padding *)
Definition item_rest (t : text) (k m : nat) : text :=
  let r := skipn (k + m) (skipn (lead t) t) in skipn (lead r) r.
Definition item_next (i : nat) (t : text) (k m : nat) : nat :=
  i + lead t + (k + m) + lead (skipn (k + m) (skipn (lead t) t)).
Lemma item_at i t k m : at_ i t -> k + m <= length (skipn (lead t) t) -> at_ (item_next i t k m) (item_rest t k m).
Proof.
  intros H Hk. unfold item_next, item_rest.
  apply at_skip; [apply at_skip; [apply at_skip; [exact H|apply span_len_le]|exact Hk]|apply span_len_le].
Qed.
Lemma item_cases i t : at_ i t ->
  match gfind u (skipn (lead t) t) with
  | Some (k, tok, m) => exists es alt,
      t_item u eoi (enum_from i t) =
        POk es (tok, mkSpan (i + lead t) (i + lead t + (k + m))) alt (enum_from (item_next i t k m) (item_rest t k m)) /\
      (if k =? 0 then es = [] else exists e, es = [e] /\ spot e (n - mark_of src (i + lead t))) /\
      alt_ge alt (length (item_rest t k m) - look (item_rest t k m))
  | None => fails (t_item u eoi (enum_from i t)) (n - mark_of src (i + lead t))
  end.
Proof.
  intros H. unfold t_item, p_padded_by, p_then_ignore, p_ignore_then.
  destruct (near_ok (t_padding eoi) (enum_from i t) (length t - lead t) 0 (firstn (lead t) t) (enum_from (i + lead t) (skipn (lead t) t))) as (alt1 & P1 & A1 & _).
  { apply padding_near. exact H. }
  { rewrite v_padding, enum_chars, skipn_enum. reflexivity. }
  assert (Hs : at_ (i + lead t) (skipn (lead t) t)) by (apply at_skip; [exact H|apply span_len_le]).
  pose proof (recover_token _ _ Hs) as Hr.
  assert (Hst : n - mark_of src (i + lead t) = stop (skipn (lead t) t)).
  { rewrite <- (stop_mark _ _ Hs). pose proof (stop_le (skipn (lead t) t)). pose proof (at_len _ _ Hs). lia. }
  rewrite Hst. clear Hst.
  assert (Hls : length (skipn (lead t) t) = length t - lead t) by apply skipn_length.
  unfold p_map, p_then, p_map_with_span. rewrite P1.
  destruct (gfind u (skipn (lead t) t)) as [[[k tok] m]|] eqn:E.
  - destruct Hr as (es & alt & -> & Hes & Ha). apply gfind_some in E as (_ & Hkm & Hm & _).
    rewrite span_since_enum by lia.
    set (r := skipn (k + m) (skipn (lead t) t)) in *.
    assert (Hr2 : at_ (i + lead t + (k + m)) r) by (apply at_skip; assumption).
    destruct (near_ok (t_padding eoi) (enum_from (i + lead t + (k + m)) r) (length r - lead r) 0 (firstn (lead r) r) (enum_from (i + lead t + (k + m) + lead r) (skipn (lead r) r))) as (alt2 & P2 & A2 & _).
    { apply padding_near. exact Hr2. }
    { rewrite v_padding, enum_chars, skipn_enum. reflexivity. }
    cbn [snd]. rewrite P2. exists es, (merge_alts (merge_alts alt1 alt) alt2).
    split; [|split].
    + cbn [app fst]. rewrite app_nil_r. reflexivity.
    + exact Hes.
    + change (item_rest t k m) with (skipn (lead r) r).
      pose proof (look_skip (lead r) r (span_len_le _ _)) as L1.
      assert (L3 : length (skipn (lead r) r) = length r - lead r) by apply skipn_length.
      assert (L2 : length r <= length t - lead t) by (unfold r; rewrite !skipn_length; lia).
      apply alt_merge; [apply alt_merge|]; eapply alt_ge_le; try eassumption; lia.
  - destruct Hr as (e & -> & He). eexists. split; [reflexivity|]. eapply max_alt; [exact He|exact A1|].
    pose proof (stop_le (skipn (lead t) t)). lia.
Qed.
End Token.
End Spot.
