(** The lexical errors of a document are at the runs that are no tokens. *)
From Verif Require Import Text Chumsky Tokenizer SpecLex PChumsky PText PLex PLexSpec PTokens PLexProps SpecLexFault PLexFault.

Lemma faults_intro u i t k tok m offs : gfind u (skipn (lead t) t) = Some (k, tok, m) ->
  lex_faults u (i + lead t + (k + m)) (skipn (k + m) (skipn (lead t) t)) offs ->
  lex_faults u i t ((if k =? 0 then [] else [i + lead t]) ++ offs).
Proof.
  intros E H. destruct (lead_spec t) as [Hb Hh]. apply gfind_some in E as (E & Hl & Hm & Hun).
  set (bl := firstn (lead t) t) in *. set (s := skipn (lead t) t) in *.
  assert (Ht : t = bl ++ s) by (symmetry; apply firstn_skipn).
  assert (Hbl : length bl = lead t).
  { unfold bl. apply firstn_length_le. apply span_len_le. }
  rewrite <- Hbl in *. clearbody bl s. subst t.
  pose proof (lex_longest _ _ _ _ E) as [Hm2 Hlong].
  destruct (ex_intro (fun x => firstn m (skipn k s) = x) _ eq_refl) as [w Dw].
  destruct (ex_intro (fun x => skipn m (skipn k s) = x) _ eq_refl) as [r Dr].
  rewrite Dw, Dr in Hlong.
  assert (Hw : length w = m) by (rewrite <- Dw; apply firstn_length_le; lia).
  assert (Hr : skipn (k + m) s = r) by (rewrite <- Dr, skipn_skipn; f_equal; lia).
  rewrite Hr in H. assert (Hs : skipn k s = w ++ r) by (rewrite <- Dw, <- Dr; symmetry; apply firstn_skipn).
  clear Dw Dr Hr.
  destruct k as [|k]; cbn [Nat.eqb plus skipn app] in *.
  - subst s. rewrite <- Hw in *. eapply lf_token; eassumption.
  - destruct (ex_intro (fun x => firstn (S k) s = x) _ eq_refl) as [g Dg].
    assert (Hg : length g = S k) by (rewrite <- Dg; apply firstn_length_le; lia).
    assert (Hs2 : s = g ++ w ++ r).
    { rewrite <- Hs, <- Dg. symmetry. apply (firstn_skipn (S k) s). }
    clear Dg.
    assert (Hun' : forall j, j < S k -> lex u (skipn j (g ++ w ++ r)) = None) by (intros j Hj; rewrite <- Hs2; auto).
    clear Hs Hun E. rewrite Hs2 in Hh |- *.
    replace (i + length bl + S (k + m)) with (i + length bl + length g + length w) in * by lia.
    eapply lf_run; [exact Hb| |exact Hlong|exact H].
    split; [intros ->; discriminate|]. split; [intros c g' ->; exact Hh|].
    intros g1 g2 -> Hg2. apply lex_none. specialize (Hun' (length g1)).
    rewrite <- app_assoc, skipn_app_len in Hun'. apply Hun'.
    rewrite app_length in Hg. destruct g2; [congruence | cbn in Hg; lia].
Qed.
Lemma faults_last u i t : gfind u (skipn (lead t) t) = None -> ~ Forall blank t ->
  lex_faults u i t [i + lead t].
Proof.
  intros E Hn. destruct (lead_spec t) as [Hb Hh].
  assert (Hbl : length (firstn (lead t) t) = lead t) by (apply firstn_length_le, span_len_le).
  pose proof (lf_last u i (firstn (lead t) t) (skipn (lead t) t) Hb) as H.
  rewrite Hbl, firstn_skipn in H. apply H.
  split; [|split].
  - intros Es. apply Hn. rewrite <- (firstn_skipn (lead t) t), Es, app_nil_r. exact Hb.
  - intros c g Ec. rewrite Ec in Hh. exact Hh.
  - intros g1 g2 Eg Hg2. rewrite app_nil_r. apply lex_none.
    pose proof (gfind_none _ _ E (length g1)) as H2. rewrite Eg, skipn_app_len in H2. exact H2.
Qed.
Lemma faults_blanks u i bl t offs : Forall blank bl -> lex_faults u (i + length bl) t offs -> lex_faults u i (bl ++ t) offs.
Proof.
  intros Hb H. inversion H; subst.
  - apply lf_end. apply Forall_app. auto.
  - rewrite app_assoc. eapply lf_token; [apply Forall_app; split; eassumption|eassumption|].
    rewrite app_length. replace (i + (length bl + length bl0)) with (i + length bl + length bl0) by lia. assumption.
  - rewrite app_assoc. replace (i + length bl + length bl0) with (i + length (bl ++ bl0)) in * by (rewrite app_length; lia).
    eapply lf_run; try eassumption. apply Forall_app; split; assumption.
  - rewrite app_assoc. replace (i + length bl + length bl0) with (i + length (bl ++ bl0)) in * by (rewrite app_length; lia).
    eapply lf_last; try eassumption. apply Forall_app; split; assumption.
Qed.

Lemma garbage_head u g r : garbage u g r -> match g ++ r with c :: _ => ~ blank c | [] => True end.
Proof. intros (Hg & Hb & _). destruct g as [|c g]; [congruence|]. cbn. eapply Hb. reflexivity. Qed.
Lemma garbage_lex u g r : garbage u g r -> forall j, j < length g -> lex u (skipn j (g ++ r)) = None.
Proof.
  intros (_ & _ & H) j Hj. apply lex_none. rewrite skipn_app. replace (j - length g) with 0 by lia. cbn [skipn].
  apply (H (firstn j g) (skipn j g)); [rewrite firstn_skipn; reflexivity|].
  intros E. apply (f_equal (@length _)) in E. rewrite skipn_length in E. cbn in E. lia.
Qed.
Lemma faults_inv u i t offs : lex_faults u i t offs ->
  match gfind u (skipn (lead t) t) with
  | None => (Forall blank t /\ offs = []) \/ (~ Forall blank t /\ offs = [i + lead t])
  | Some (k, tok, m) => exists offs', offs = (if k =? 0 then [] else [i + lead t]) ++ offs' /\
      lex_faults u (i + lead t + (k + m)) (skipn (k + m) (skipn (lead t) t)) offs'
  end.
Proof.
  intros H. destruct H as [i bl Hb|i bl t w r offs Hb Hl H|i bl g t w r offs Hb Hg Hl H|i bl g Hb Hg].
  - assert (E : lead bl = length bl).
    { rewrite <- (app_nil_r bl) at 1. apply lead_app; [exact Hb | exact Logic.I]. }
    rewrite E, skipn_all, gfind_nil. auto.
  - rewrite lead_app by (try exact Hb; eapply longest_head; exact Hl).
    rewrite skipn_app_len. apply longest_lex in Hl.
    rewrite (gfind_intro u 0 (w ++ r) t (length w)) by (try lia; exact Hl). cbn [Nat.eqb plus app].
    exists offs. rewrite skipn_app_len. auto.
  - rewrite lead_app by (try exact Hb; eapply garbage_head; exact Hg).
    rewrite skipn_app_len. apply longest_lex in Hl. pose proof (garbage_lex _ _ _ Hg) as Hun.
    rewrite (gfind_intro u (length g) (g ++ w ++ r) t (length w)).
    + destruct Hg as (Hg & _). destruct g as [|c g]; [congruence|]. cbn [length Nat.eqb].
      exists offs. split; [reflexivity|].
      change (S (length g)) with (length (c :: g)).
      rewrite app_assoc, <- app_length, skipn_app_len, app_length.
      replace (i + length bl + (length (c :: g) + length w)) with (i + length bl + length (c :: g) + length w) by lia.
      exact H.
    + exact Hun.
    + rewrite skipn_app_len. exact Hl.
  - pose proof (garbage_head _ _ _ Hg) as Hh. rewrite app_nil_r in Hh.
    rewrite lead_app by (try exact Hb; exact Hh). rewrite skipn_app_len.
    pose proof (garbage_lex _ _ _ Hg) as Hun. rewrite app_nil_r in Hun.
    assert (G : gfind u g = None).
    { clear - Hun. induction g as [|c g IH]; [reflexivity|]. cbn [gfind].
      pose proof (Hun 0 ltac:(cbn; lia)) as H0. cbn [skipn] in H0. rewrite H0.
      rewrite IH; [reflexivity|]. intros j Hj. apply (Hun (S j)). cbn. lia. }
    rewrite G. right. split; [|reflexivity]. intros Hx. apply Forall_app in Hx as [_ Hx].
    destruct Hg as (Hg & _). destruct g; [congruence|]. inversion Hx. contradiction.
Qed.
Lemma faults_det u : forall k i t offs offs', length t <= k -> lex_faults u i t offs -> lex_faults u i t offs' -> offs = offs'.
Proof.
  induction k as [|k IH]; intros i t offs offs' Hk H H'; apply faults_inv in H, H'.
  - destruct t; [|cbn in Hk; lia]. cbn in H, H'.
    destruct H as [[_ ->]|[H _]]; [|exfalso; apply H; constructor].
    destruct H' as [[_ ->]|[H _]]; [reflexivity|exfalso; apply H; constructor].
  - destruct (gfind u (skipn (lead t) t)) as [[[j tok] m]|] eqn:E; [|intuition congruence].
    destruct H as (o1 & -> & H), H' as (o2 & -> & H').
    apply gfind_some in E as (_ & Hl & Hm & _). rewrite skipn_length in Hl.
    assert (Hlen : length (skipn (j + m) (skipn (lead t) t)) <= k) by (rewrite !skipn_length; lia).
    rewrite (IH _ _ o1 o2 Hlen H H'). reflexivity.
Qed.

Section Loop.
Variable u : uclass.
Variable src : text.
Notation n := (length src).
Notation eoi := (mkSpan n (n + 1)).
Notation at_src := (at_ src).
Notation spotted := (spot src).

Lemma stuck_look t : gfind u (skipn (lead t) t) = None -> look t = 0.
Proof.
  intros E. pose proof (gfind_none _ _ E 0) as H. cbn [skipn] in H.
  destruct t as [|c t]; [reflexivity|]. unfold lead in H. cbn [span_len] in H.
  cbn [look]. destruct (N.eqb_spec c (ch "x")) as [->|Hx].
  - change (is_blank (ch "x")) with false in H. cbn [skipn] in H. rewrite lex_name in H; [discriminate|].
    left. reflexivity.
  - cbn [span_len]. destruct (colon c) eqn:Ec; [|reflexivity]. unfold colon in Ec. apply N.eqb_eq in Ec. subst c.
    change (is_blank (ch ":")) with false in H. cbn [skipn] in H. rewrite lex_punct in H; [discriminate|].
    cbn. tauto.
Qed.

Definition placed (off : nat) (e : located char) : Prop := spotted e (n - mark_of src off).

Lemma rep_items : forall fuel i t old errs outs alt es outs' alt' r,
  at_src i t -> alt_ge src alt (length t - look t) ->
  p_rep fuel (t_item u eoi) 0 old errs outs alt (enum_from i t) = POk es outs' alt' r ->
  exists j q offs es1, r = enum_from j q /\ at_src j q /\ es = errs ++ es1 /\ Forall2 placed offs es1 /\
    (forall offs', lex_faults u j q offs' -> lex_faults u i t (offs ++ offs')) /\
    gfind u (skipn (lead q) q) = None /\
    (exists e, alt' = Some e /\ placed (j + lead q) e) /\
    ((j = i /\ q = t) \/ lead q = 0).
Proof.
  induction fuel as [|fuel IH]; intros i t old errs outs alt es outs' alt' r H Ha E; [discriminate|].
  cbn [p_rep] in E. pose proof (item_cases src u i t H) as Hi.
  destruct (gfind u (skipn (lead t) t)) as [[[k tok] m]|] eqn:G.
  - destruct Hi as (es0 & alt0 & Ei & Hes & Ha0). rewrite Ei in E.
    destruct (match old with Some _ => _ | None => _ end); [discriminate|].
    pose proof G as G2. apply gfind_some in G2 as (_ & Hkm & Hm & _).
    assert (Hat : at_src (item_next i t k m) (item_rest t k m)) by (apply item_at; assumption).
    assert (Hle : length (item_rest t k m) - look (item_rest t k m) <= length t - look t).
    { unfold item_rest. set (r0 := skipn (k + m) (skipn (lead t) t)).
      etransitivity; [apply look_skip, span_len_le|]. unfold r0.
      etransitivity; [apply look_skip; exact Hkm|]. apply look_skip, span_len_le. }
    apply IH in E; [|exact Hat|apply alt_merge; [eapply alt_ge_le; [exact Ha|exact Hle]|exact Ha0]].
    destruct E as (j & q & offs & es1 & -> & Hq & -> & Hf & Hl & Hg & He & Hc).
    exists j, q, ((if k =? 0 then [] else [i + lead t]) ++ offs), (es0 ++ es1).
    split; [reflexivity|]. split; [exact Hq|]. split; [rewrite app_assoc; reflexivity|]. split.
    { apply Forall2_app; [|exact Hf]. destruct (k =? 0); [subst es0; constructor|].
      destruct Hes as (e & -> & Hs). constructor; [exact Hs|constructor]. }
    split.
    { intros offs' H'. rewrite <- app_assoc. eapply faults_intro; [exact G|].
      set (r0 := skipn (k + m) (skipn (lead t) t)).
      rewrite <- (firstn_skipn (lead r0) r0). apply faults_blanks; [apply lead_spec|].
      rewrite firstn_length_le by apply span_len_le. apply Hl. exact H'. }
    split; [exact Hg|]. split; [exact He|]. right.
    destruct Hc as [[_ ->]|Hc]; [|exact Hc]. unfold item_rest. cbv zeta.
    set (r0 := skipn (k + m) (skipn (lead t) t)). destruct (lead_spec r0) as [_ Hh].
    destruct (skipn (lead r0) r0) as [|c s]; [reflexivity|]. unfold lead. cbn [span_len].
    destruct (is_blank c) eqn:Eb; [|reflexivity]. apply is_blank_spec in Eb. contradiction.
  - destruct Hi as (e & Ei & He). rewrite Ei in E. change (length outs <? 0) with false in E.
    injection E as <- <- <- <-. exists i, t, [], [].
    split; [reflexivity|]. split; [exact H|]. split; [rewrite app_nil_r; reflexivity|]. split; [constructor|].
    split; [auto|]. split; [exact G|]. split; [|auto].
    rewrite (stuck_look t G), Nat.sub_0_r in Ha. destruct alt as [a|]; cbn [merge_alts]; [|eauto].
    destruct Ha as (x & Hx & Hxl). eexists. split; [reflexivity|]. unfold placed in *.
    assert (Hs : at_src (i + lead t) (skipn (lead t) t)) by (apply at_skip; [exact H|apply span_len_le]).
    pose proof (stop_mark _ _ _ Hs) as Hst. pose proof (stop_le (skipn (lead t) t)) as Hle.
    rewrite skipn_length in Hle. pose proof (at_len _ _ _ H).
    replace (n - mark_of src (i + lead t)) with (Nat.min x (n - mark_of src (i + lead t))) by lia.
    apply spot_max; assumption.
Qed.
End Loop.

Lemma mark_le src off : off <= length src -> mark_of src off <= length src.
Proof.
  intros H. unfold mark_of. destruct (nth_error src off) as [c|] eqn:E; [|exact H].
  assert (off < length src) by (apply nth_error_Some; congruence).
  destruct (c =? DQUOTE)%N; [lia|]. destruct (c =? CR)%N; lia.
Qed.
Lemma placed_marks src off e : off <= length src -> placed src off e -> marks src (mark_of src off) (l_err e).
Proof.
  intros Ho (_ & _ & H). pose proof (mark_le src off Ho).
  replace (length src - (length src - mark_of src off)) with (mark_of src off) in H by lia. exact H.
Qed.
Lemma faults_range u i t offs : lex_faults u i t offs -> Forall (fun off => i <= off <= i + length t) offs.
Proof.
  induction 1 as [i bl Hb|i bl t w r offs Hb Hl H IH|i bl g t w r offs Hb Hg Hl H IH|i bl g Hb Hg]; try constructor.
  - eapply Forall_impl; [|exact IH]. cbn. intros a. rewrite !app_length. lia.
  - rewrite !app_length. lia.
  - eapply Forall_impl; [|exact IH]. cbn. intros a. rewrite !app_length. lia.
  - rewrite !app_length. lia.
  - constructor.
Qed.

Theorem tokenize_places u src o errs : tokenize u src = Val (o, errs) ->
  (exists offs, lex_faults u 0 src offs /\ Forall2 (fun off e => marks src (mark_of src off) e) offs errs) \/
  (src <> [] /\ Forall blank src /\ o = None /\ exists e, errs = [e] /\ marks src (length src) e).
Proof.
  intros E. assert (Et := E). unfold tokenize in E. set (eoi := mkSpan _ _) in *.
  assert (Hrep : exists es toks alt r, p_repeated (t_item u eoi) (enum_from 0 src) = POk es toks alt r).
  { destruct (iter_items u eoi (length src) 0 src (le_n _)) as (toks & k & j & r & H1 & _).
    pose proof (vw_repeated0 _ _ _ _ _ (consumes_item u eoi) H1) as Hv. apply vw_ok in Hv as (es & alt & -> & _). eauto. }
  destruct Hrep as (es & toks & alt & r & Er).
  assert (H0 : at_ src 0 src) by (split; [lia|reflexivity]).
  pose proof Er as Er2. unfold p_repeated, p_repeated_at_least in Er2.
  apply rep_items in Er2; [|exact H0|exact Logic.I].
  destruct Er2 as (j & q & offs & es1 & -> & Hq & -> & Hf & Hl & Hg & (e & -> & He) & Hc).
  assert (Hmap : forall offs es, Forall (fun off => off <= length src) offs -> Forall2 (placed src) offs es ->
    Forall2 (fun off e => marks src (mark_of src off) e) offs (map l_err es)).
  { clear. intros offs es Hr H. induction H as [|off e offs es H1 _ IH]; cbn [map]; constructor; inversion_clear Hr.
    - apply placed_marks; assumption.
    - apply IH. assumption. }
  unfold parse_recovery, tokenizer, p_then_ignore, p_map, p_then in E. rewrite Er in E. cbn [app] in E.
  destruct q as [|c q].
  - cbn [enum_from p_end] in E. injection E as <- <-. left. exists offs.
    assert (Hfl : lex_faults u 0 src offs).
    { rewrite <- (app_nil_r offs). apply Hl. constructor. constructor. }
    split; [exact Hfl|]. rewrite app_nil_r. apply Hmap; [|exact Hf].
    eapply Forall_impl; [|exact (faults_range _ _ _ _ Hfl)]. cbn. lia.
  - cbn [enum_from p_end] in E.
    change ((c, mkSpan j (j + 1)) :: enum_from (j + 1) q) with (enum_from j (c :: q)) in E.
    rewrite app_nil_r in E. apply (f_equal (fun x => match x with Val y => y | Panic => (None, []) end)) in E.
    injection E as Eo Ee. rewrite map_app in Ee. cbn [map] in Ee.
    assert (Hs : at_ src (j + lead (c :: q)) (skipn (lead (c :: q)) (c :: q))) by (apply at_skip; [exact Hq|apply span_len_le]).
    assert (Hmax : placed src (j + lead (c :: q)) (loc_max (err_here eoi (enum_from j (c :: q)) [None]) (Some e))).
    { unfold placed in *. pose proof (spot_here src j (c :: q) [None] Hq) as Hh.
      pose proof (spot_max _ _ _ _ _ Hh He) as Hm.
      match type of Hm with spot _ _ (Nat.min ?a ?b) => assert (b <= a) end.
      { rewrite <- (stop_mark _ _ _ Hs). pose proof (stop_le (skipn (lead (c :: q)) (c :: q))).
        pose proof (at_len _ _ _ Hs) as H1. pose proof (at_len _ _ _ Hq) as H2.
        rewrite skipn_length in H. destruct Hs as [H3 _]. lia. }
      rewrite Nat.min_r in Hm by assumption. exact Hm. }
    destruct (Forall_Exists_dec blank) with (l := c :: q) as [Hd|Hd].
    { intros d. destruct (is_blank d) eqn:Eb; [left; apply is_blank_spec; exact Eb|].
      right. intros Hb. apply is_blank_spec in Hb. congruence. }
    + (* only blanks are left: nothing else was there *)
      right. assert (Hle : lead (c :: q) = length (c :: q)).
      { rewrite <- (app_nil_r (c :: q)) at 1. apply lead_app; [exact Hd|exact Logic.I]. }
      destruct Hc as [[-> Hc]|Hc]; [|rewrite Hle in Hc; discriminate].
      split; [intros Ez; rewrite Ez in Hc; discriminate|]. rewrite <- Hc. split; [exact Hd|]. split; [congruence|].
      assert (Hoffs : offs = []).
      { assert (Hb : lex_faults u 0 (c :: q) []) by (apply lf_end; exact Hd). rewrite Hc in Hb.
        clear - Hf Er Hc Hd Hb Hg. subst src.
        destruct es1 as [|e1 es1]; [inversion Hf; reflexivity|]. exfalso.
        assert (Hv : iter (fun s => vw (t_item u eoi s)) (enum_from 0 (c :: q)) 0 [] (enum_from 0 (c :: q))).
        { apply iter_nil. rewrite v_item, Hg. reflexivity. }
        pose proof (vw_repeated0 _ _ _ _ _ (consumes_item u eoi) Hv) as Hw. rewrite Er in Hw. discriminate Hw. }
      subst offs. inversion Hf; subst. cbn [map app] in *.
      eexists. split; [reflexivity|].
      apply placed_marks in Hmax; [|rewrite Hle; reflexivity].
      rewrite Hle in Hmax. replace (mark_of (c :: q) (0 + length (c :: q))) with (length (c :: q)) in Hmax; [exact Hmax|].
      unfold mark_of. assert (nth_error (c :: q) (0 + length (c :: q)) = None) as -> by (apply nth_error_None; lia).
      reflexivity.
    + left. exists (offs ++ [j + lead (c :: q)]).
      assert (Hfl : lex_faults u 0 src (offs ++ [j + lead (c :: q)])).
      { apply Hl. apply faults_last; [exact Hg|]. intros Hb. rewrite Exists_exists in Hd. destruct Hd as (d & Hi & Hd).
        rewrite Forall_forall in Hb. exact (Hd (Hb _ Hi)). }
      split; [exact Hfl|].
      assert (Ex : errs = map l_err (es1 ++ [loc_max (err_here eoi (enum_from j (c :: q)) [None]) (Some e)]))
        by (symmetry; rewrite map_app; exact Ee).
      rewrite Ex. apply Hmap.
      * eapply Forall_impl; [|exact (faults_range _ _ _ _ Hfl)]. cbn. lia.
      * apply Forall2_app; [exact Hf|]. constructor; [exact Hmax|constructor].
Qed.

Theorem tokenize_marks u src o errs offs : tokenize u src = Val (o, errs) -> src = [] \/ ~ Forall blank src ->
  lex_faults u 0 src offs -> Forall2 (fun off e => marks src (mark_of src off) e) offs errs.
Proof.
  intros E Hb Hf. apply tokenize_places in E as [(offs' & Hf' & Hm)|(Hne & Hbl & _)]; [|destruct Hb; contradiction].
  rewrite (faults_det u (length src) 0 src offs offs' (le_n _) Hf Hf'). exact Hm.
Qed.
Lemma faults_total u : forall k i t, length t <= k -> exists offs, lex_faults u i t offs.
Proof.
  induction k as [|k IH]; intros i t Hk.
  - destruct t; [|cbn in Hk; lia]. exists []. constructor. constructor.
  - destruct (gfind u (skipn (lead t) t)) as [[[j tok] m]|] eqn:E.
    + pose proof E as E2. apply gfind_some in E2 as (_ & Hl & Hm & _). rewrite skipn_length in Hl.
      destruct (IH (i + lead t + (j + m)) (skipn (j + m) (skipn (lead t) t))) as (offs & H); [rewrite !skipn_length; lia|].
      eexists. eapply faults_intro; eassumption.
    + destruct (Forall_Exists_dec blank) with (l := t) as [Hd|Hd].
      { intros d. destruct (is_blank d) eqn:Eb; [left; apply is_blank_spec; exact Eb|].
        right. intros Hb. apply is_blank_spec in Hb. congruence. }
      * exists []. constructor. exact Hd.
      * exists [i + lead t]. apply faults_last; [exact E|]. intros Hb. rewrite Exists_exists in Hd. destruct Hd as (d & Hi & Hd).
        rewrite Forall_forall in Hb. exact (Hd (Hb _ Hi)).
Qed.
Theorem faults_exist u src : exists offs, lex_faults u 0 src offs /\ forall offs', lex_faults u 0 src offs' -> offs' = offs.
Proof.
  destruct (faults_total u (length src) 0 src (le_n _)) as (offs & H). exists offs. split; [exact H|].
  intros offs' H'. exact (faults_det u (length src) 0 src offs' offs (le_n _) H' H).
Qed.
