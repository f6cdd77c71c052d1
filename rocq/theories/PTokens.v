(** The tokenizer computes [lexes]. *)
From Verif Require Import Text Chumsky Tokenizer SpecLex PChumsky PText PLex PLexSpec.

(** ** Character streams *)
Lemma enum_length t : forall i, length (enum_from i t) = length t.
Proof. induction t; intros i; cbn; [reflexivity|]. rewrite IHt. reflexivity. Qed.
Lemma enum_chars t : forall i, map fst (enum_from i t) = t.
Proof. induction t; intros i; cbn; [reflexivity|]. rewrite IHt. reflexivity. Qed.
Lemma skipn_enum n : forall i t, skipn n (enum_from i t) = enum_from (i + n) (skipn n t).
Proof.
  induction n as [|n IH]; intros i t; cbn [skipn]; [rewrite Nat.add_0_r; reflexivity|].
  destruct t as [|c t]; cbn [enum_from]; [reflexivity|]. rewrite IH. f_equal. lia.
Qed.
Lemma firstn_enum n : forall i t, firstn n (enum_from i t) = enum_from i (firstn n t).
Proof.
  induction n as [|n IH]; intros i t; [reflexivity|]. destruct t as [|c t]; [reflexivity|].
  cbn. rewrite IH. reflexivity.
Qed.
Lemma enum_app t1 : forall i t2, enum_from i (t1 ++ t2) = enum_from i t1 ++ enum_from (i + length t1) t2.
Proof.
  induction t1 as [|c t1 IH]; intros i t2; cbn; [rewrite Nat.add_0_r; reflexivity|].
  rewrite IH. do 3 f_equal. lia.
Qed.
Lemma last_end_enum t : forall i d, t <> [] -> last_end d (enum_from i t) = i + length t.
Proof.
  intros i d Ht. destruct (exists_last Ht) as (t' & c & ->).
  rewrite enum_app. unfold last_end. rewrite rev_app_distr. cbn. rewrite app_length. cbn. lia.
Qed.
Lemma span_since_enum eoi i t n : 0 < n <= length t ->
  span_since eoi (enum_from i t) (enum_from (i + n) (skipn n t)) = mkSpan i (i + n).
Proof.
  intros H. unfold span_since. destruct t as [|c t]; [cbn in H; lia|]. cbn [enum_from].
  f_equal. change ((c, mkSpan i (i + 1)) :: enum_from (i + 1) t) with (enum_from i (c :: t)).
  rewrite !enum_length, skipn_length. replace (length (c :: t) - (length (c :: t) - n)) with n by lia.
  rewrite firstn_enum, last_end_enum; [rewrite firstn_length_le by lia; reflexivity|].
  destruct n; [lia | discriminate].
Qed.

(** ** Finding the next token after garbage *)
Fixpoint gfind (u : uclass) (t : text) : option (nat * token * nat) :=
  match lex u t with
  | Some (tok, n) => Some (0, tok, n)
  | None => match t with
            | [] => None
            | _ :: r => match gfind u r with Some (k, tok, n) => Some (S k, tok, n) | None => None end
            end
  end.
Lemma lex_nil u : lex u [] = None.
Proof. reflexivity. Qed.
Lemma lex_blank u c r : blank c -> lex u (c :: r) = None.
Proof. intros [->| ->]; destruct r; reflexivity. Qed.

Lemma gfind_some u t k tok n : gfind u t = Some (k, tok, n) ->
  lex u (skipn k t) = Some (tok, n) /\ k + n <= length t /\ 0 < n /\ forall j, j < k -> lex u (skipn j t) = None.
Proof.
  revert k. induction t as [|c t IH]; intros k; cbn [gfind].
  - rewrite lex_nil. discriminate.
  - destruct (lex u (c :: t)) as [[tok' n']|] eqn:E.
    + intros H; injection H as <- -> ->. cbn [skipn]. pose proof (lex_sound _ _ _ _ E) as [Hn _].
      repeat split; [exact E | lia | lia | lia].
    + destruct (gfind u t) as [[[k' tok'] n']|]; [|discriminate].
      intros H; injection H as <- -> ->. destruct (IH k' eq_refl) as (H1 & H2 & H3 & H4).
      cbn [skipn length]. repeat split; [exact H1 | lia | lia |].
      intros [|j] Hj; [exact E|]. apply H4. lia.
Qed.
Lemma gfind_none u t : gfind u t = None -> forall j, lex u (skipn j t) = None.
Proof.
  induction t as [|c t IH]; cbn [gfind]; intros H j.
  - rewrite skipn_nil. apply lex_nil.
  - destruct (lex u (c :: t)) as [[tok n]|] eqn:E; [discriminate|].
    destruct (gfind u t) as [[[k tok] n]|]; [discriminate|].
    destruct j as [|j]; [exact E|]. cbn [skipn]. apply IH. reflexivity.
Qed.
Lemma gfind_intro u k : forall t tok n, (forall j, j < k -> lex u (skipn j t) = None) ->
  lex u (skipn k t) = Some (tok, n) -> gfind u t = Some (k, tok, n).
Proof.
  induction k as [|k IH]; intros t tok n H1 H2.
  - cbn [skipn] in H2. destruct t; cbn [gfind]; rewrite H2; reflexivity.
  - destruct t as [|c t]; [rewrite skipn_nil, lex_nil in H2; discriminate|].
    cbn [gfind]. pose proof (H1 0 ltac:(lia)) as H0. cbn [skipn] in H0. rewrite H0.
    rewrite (IH t tok n); [reflexivity | | exact H2].
    intros j Hj. apply (H1 (S j)). lia.
Qed.
Lemma gfind_nil u : gfind u [] = None.
Proof. reflexivity. Qed.

Section Item.
Variable u : uclass.
Variable eoi : span.

Lemma token_clean_err : clean_err (t_token u eoi).
Proof. intros st es e H. eapply choice_err_nil. exact H. Qed.

Lemma vretry_token i t : vretry (fun s => vw (t_token u eoi s)) (enum_from i t) =
  match gfind u t with
  | Some (k, tok, n) => VOk 0 tok (enum_from (i + (k + n)) (skipn (k + n) t))
  | None => VFail
  end.
Proof.
  revert i. induction t as [|c t IH]; intros i; cbn [enum_from vretry gfind].
  - rewrite v_token. cbn [map]. rewrite lex_nil. reflexivity.
  - rewrite v_token. change ((c, mkSpan i (i + 1)) :: enum_from (i + 1) t) with (enum_from i (c :: t)).
    rewrite enum_chars. destruct (lex u (c :: t)) as [[tok n]|]; cbn [as_view].
    + rewrite skipn_enum. reflexivity.
    + rewrite IH. destruct (gfind u t) as [[[k tok] n]|]; [|reflexivity].
      cbn [plus skipn]. do 2 f_equal. lia.
Qed.

Lemma v_recover_token i t : vw (p_recover (t_token u eoi) (enum_from i t)) =
  match gfind u t with
  | Some (k, tok, n) => VOk (if k =? 0 then 0 else 1) tok (enum_from (i + (k + n)) (skipn (k + n) t))
  | None => VFail
  end.
Proof.
  destruct (lex u t) as [[tok n]|] eqn:E.
  - rewrite (gfind_intro u 0 t tok n) by (try lia; exact E). cbn [Nat.eqb plus].
    apply vw_recover_ok. rewrite v_token, enum_chars, E. cbn [as_view]. rewrite skipn_enum. reflexivity.
  - assert (Hf : vw (t_token u eoi (enum_from i t)) = VFail) by (rewrite v_token, enum_chars, E; reflexivity).
    apply vw_recover_fail in Hf as (k & Hk & ->). rewrite (Hk token_clean_err).
    destruct t as [|c t]; [reflexivity|].
    cbn [enum_from tl]. rewrite vretry_token. cbn [gfind]. rewrite E.
    destruct (gfind u t) as [[[j tok] n]|]; [|reflexivity]. cbn [vadd Nat.eqb plus skipn].
    do 2 f_equal. lia.
Qed.

Definition lead (t : text) : nat := span_len is_blank t.
Lemma v_item i t : vw (t_item u eoi (enum_from i t)) =
  match gfind u (skipn (lead t) t) with
  | Some (k, tok, n) =>
      let r := skipn (k + n) (skipn (lead t) t) in
      VOk (if k =? 0 then 0 else 1)
          (tok, mkSpan (i + lead t) (i + lead t + (k + n)))
          (enum_from (i + lead t + (k + n) + lead r) (skipn (lead r) r))
  | None => VFail
  end.
Proof.
  unfold t_item. rewrite vw_padded_by, v_padding, enum_chars. cbn [vbind]. rewrite skipn_enum.
  rewrite vw_map_with_span. fold (lead t). rewrite v_recover_token.
  destruct (gfind u (skipn (lead t) t)) as [[[k tok] n]|] eqn:E; [|reflexivity]. cbn [vbind].
  apply gfind_some in E as (_ & H1 & H2 & _).
  rewrite span_since_enum by lia. rewrite v_padding, enum_chars. cbn [vbind]. rewrite skipn_enum.
  fold (lead (skipn (k + n) (skipn (lead t) t))). rewrite Nat.add_0_l, Nat.add_0_r. reflexivity.
Qed.
End Item.

(** ** [lexes] step by step *)
Lemma lead_spec t : Forall blank (firstn (lead t) t) /\
  match skipn (lead t) t with c :: _ => ~ blank c | [] => True end.
Proof.
  unfold lead. induction t as [|c t [IH1 IH2]]; cbn [span_len]; [split; [constructor | exact Logic.I]|].
  destruct (is_blank c) eqn:E; cbn [firstn skipn].
  - split; [constructor; [apply is_blank_spec; exact E | exact IH1] | exact IH2].
  - split; [constructor|]. intros H. apply is_blank_spec in H. congruence.
Qed.
Lemma lead_app bl t : Forall blank bl -> match t with c :: _ => ~ blank c | [] => True end ->
  lead (bl ++ t) = length bl.
Proof.
  intros H1 H2. apply span_len_exact.
  - eapply Forall_impl; [|exact H1]. intros c Hc. apply is_blank_spec. exact Hc.
  - destruct t as [|c t]; [exact Logic.I|]. destruct (is_blank c) eqn:E; [|reflexivity].
    apply is_blank_spec in E. contradiction.
Qed.
Lemma skipn_app_len {A} (a b : list A) : skipn (length a) (a ++ b) = b.
Proof. rewrite skipn_app, skipn_all, Nat.sub_diag. reflexivity. Qed.
Lemma firstn_app_len {A} (a b : list A) : firstn (length a) (a ++ b) = a.
Proof. rewrite firstn_app, firstn_all, Nat.sub_diag, app_nil_r. reflexivity. Qed.

Lemma longest_head u t w r : longest u t w r -> match w ++ r with c :: _ => ~ blank c | [] => True end.
Proof.
  intros H. apply longest_lex in H. destruct (w ++ r) as [|c s]; [exact Logic.I|].
  intros Hb. rewrite lex_blank in H by exact Hb. discriminate.
Qed.

Lemma lexes_inv u i t toks n : lexes u i t toks n ->
  match gfind u (skipn (lead t) t) with
  | None => toks = [] /\ n = 0 /\ Forall blank t
  | Some (k, tok, m) =>
      exists toks' n', toks = (tok, mkSpan (i + lead t) (i + lead t + (k + m))) :: toks' /\
        n = (if k =? 0 then 0 else 1) + n' /\
        lexes u (i + lead t + (k + m)) (skipn (k + m) (skipn (lead t) t)) toks' n'
  end.
Proof.
  intros H. destruct H as [i bl Hb|i bl t w r toks n Hb Hl H|i bl g t w r toks n Hb Hg Hgb Hun Hl H].
  - assert (E : lead bl = length bl).
    { rewrite <- (app_nil_r bl) at 1. apply lead_app; [exact Hb | exact Logic.I]. }
    rewrite E, skipn_all, gfind_nil. auto.
  - rewrite lead_app by (try exact Hb; eapply longest_head; exact Hl).
    rewrite skipn_app_len. apply longest_lex in Hl.
    rewrite (gfind_intro u 0 (w ++ r) t (length w)) by (try lia; exact Hl). cbn [Nat.eqb plus].
    exists toks, n. rewrite skipn_app_len. auto.
  - rewrite lead_app.
    2: exact Hb.
    2: { destruct g as [|c g]; [congruence|]. cbn. eapply Hgb. reflexivity. }
    rewrite skipn_app_len. apply longest_lex in Hl.
    rewrite (gfind_intro u (length g) (g ++ w ++ r) t (length w)).
    + destruct g as [|c g]; [congruence|]. cbn [length Nat.eqb plus].
      exists toks, n. split; [do 3 f_equal; cbn [length]; lia|]. split; [reflexivity|].
      change (S (length g + length w)) with (length (c :: g) + length w).
      rewrite app_assoc, <- app_length, skipn_app_len, app_length.
      replace (i + length bl + (length (c :: g) + length w)) with (i + length bl + length (c :: g) + length w) by lia.
      exact H.
    + intros j Hj. apply lex_none.
      rewrite skipn_app. replace (j - length g) with 0 by lia. cbn [skipn].
      apply (Hun (firstn j g) (skipn j g)); [rewrite firstn_skipn; reflexivity|].
      intros E. apply (f_equal (@length _)) in E. rewrite skipn_length in E. cbn in E. lia.
    + rewrite skipn_app_len. exact Hl.
Qed.

Lemma lexes_intro u i t k tok m toks n : gfind u (skipn (lead t) t) = Some (k, tok, m) ->
  lexes u (i + lead t + (k + m)) (skipn (k + m) (skipn (lead t) t)) toks n ->
  lexes u i t ((tok, mkSpan (i + lead t) (i + lead t + (k + m))) :: toks) ((if k =? 0 then 0 else 1) + n).
Proof.
  intros E H. destruct (lead_spec t) as [Hb Hh]. apply gfind_some in E as (E & Hl & Hm & Hun).
  set (bl := firstn (lead t) t) in *. set (s := skipn (lead t) t) in *.
  assert (Ht : t = bl ++ s) by (symmetry; apply firstn_skipn).
  assert (Hbl : length bl = lead t).
  { unfold bl. apply firstn_length_le. apply span_len_le. }
  rewrite <- Hbl in *. clearbody bl s. subst t.
  pose proof (lex_longest _ _ _ _ E) as [Hm2 Hlong].
  destruct (ex_intro (fun x => firstn m (skipn k s) = x) _ eq_refl) as [w Dw].
  destruct (ex_intro (fun x => skipn m (skipn k s) = x) _ eq_refl) as [r Dr].
  rewrite Dw, Dr in Hlong.
  assert (Hw : length w = m) by (rewrite <- Dw; apply firstn_length_le; lia).
  assert (Hr : skipn (k + m) s = r) by (rewrite <- Dr, skipn_skipn; f_equal; lia).
  rewrite Hr in H. assert (Hs : skipn k s = w ++ r) by (rewrite <- Dw, <- Dr; symmetry; apply firstn_skipn).
  clear Dw Dr Hr.
  destruct k as [|k]; cbn [Nat.eqb plus skipn] in *.
  - subst s. rewrite <- Hw in *. apply lexes_token; assumption.
  - destruct (ex_intro (fun x => firstn (S k) s = x) _ eq_refl) as [g Dg].
    assert (Hg : length g = S k) by (rewrite <- Dg; apply firstn_length_le; lia).
    assert (Hs2 : s = g ++ w ++ r).
    { rewrite <- Hs, <- Dg. symmetry. apply (firstn_skipn (S k) s). }
    clear Dg.
    assert (Hun' : forall j, j < S k -> lex u (skipn j (g ++ w ++ r)) = None) by (intros j Hj; rewrite <- Hs2; auto).
    clear Hs Hun E. rewrite Hs2 in Hh |- *.
    replace (i + length bl + S (k + m)) with (i + length bl + length g + length w) in * by lia.
    apply lexes_garbage; try assumption.
    + intros ->. discriminate.
    + intros c g' ->. exact Hh.
    + intros g1 g2 -> Hg2. apply lex_none. specialize (Hun' (length g1)).
      rewrite <- app_assoc, skipn_app_len in Hun'. apply Hun'.
      rewrite app_length in Hg. destruct g2; [congruence | cbn in Hg; lia].
Qed.

Lemma lexes_det u : forall i t toks n, lexes u i t toks n ->
  forall toks' n', lexes u i t toks' n' -> toks = toks' /\ n = n'.
Proof.
  assert (H : forall k i t toks n toks' n', length t <= k -> lexes u i t toks n -> lexes u i t toks' n' ->
    toks = toks' /\ n = n').
  { induction k as [|k IH]; intros i t toks n toks' n' Hk H H'; apply lexes_inv in H, H'.
    - destruct t; [|cbn in Hk; lia]. cbn in H, H'. intuition congruence.
    - destruct (gfind u (skipn (lead t) t)) as [[[j tok] m]|] eqn:E; [|intuition congruence].
      destruct H as (t1 & n1 & -> & -> & H), H' as (t2 & n2 & -> & -> & H').
      apply gfind_some in E as (_ & Hl & Hm & _). rewrite skipn_length in Hl.
      assert (Hlen : length (skipn (j + m) (skipn (lead t) t)) <= k) by (rewrite !skipn_length; lia).
      destruct (IH _ _ t1 n1 t2 n2 Hlen H H') as [-> ->]. auto. }
  intros i t toks n H1 toks' n' H2. eapply H; [apply le_n | exact H1 | exact H2].
Qed.

(** leading blanks may be dropped *)
Lemma lexes_blanks u i bl t toks n : Forall blank bl ->
  (lexes u i (bl ++ t) toks n <-> lexes u (i + length bl) t toks n).
Proof.
  intros Hb.
  assert (Hlead : lead (bl ++ t) = length bl + lead t).
  { rewrite <- (firstn_skipn (lead t) t) at 1. rewrite app_assoc. destruct (lead_spec t) as [H1 H2].
    rewrite lead_app; [|apply Forall_app; auto|exact H2].
    rewrite app_length, firstn_length_le by apply span_len_le. reflexivity. }
  assert (Hskip : skipn (lead (bl ++ t)) (bl ++ t) = skipn (lead t) t).
  { rewrite Hlead. transitivity (skipn (lead t) (skipn (length bl) (bl ++ t))).
    - rewrite skipn_skipn. f_equal. lia.
    - rewrite skipn_app_len. reflexivity. }
  split; intros H.
  - apply lexes_inv in H. rewrite Hskip in H.
    destruct (gfind u (skipn (lead t) t)) as [[[k tok] m]|] eqn:E.
    + destruct H as (toks' & n' & -> & -> & H). rewrite Hlead in *.
      replace (i + (length bl + lead t)) with (i + length bl + lead t) in * by lia.
      apply lexes_intro; assumption.
    + destruct H as (-> & -> & H). apply Forall_app in H as [_ H]. constructor. exact H.
  - apply lexes_inv in H.
    destruct (gfind u (skipn (lead t) t)) as [[[k tok] m]|] eqn:E.
    + destruct H as (toks' & n' & -> & -> & H).
      replace (i + length bl + lead t) with (i + lead (bl ++ t)) in * by lia.
      apply lexes_intro; rewrite Hskip; assumption.
    + destruct H as (-> & -> & H). constructor. apply Forall_app. auto.
Qed.

(** ** Iterating the item parser *)
Lemma consumes_item u eoi : consumes (fun s => vw (t_item u eoi s)).
Proof.
  assert (Hsk : forall n (s : list (char * span)), exists xs, s = xs ++ skipn n s).
  { intros n s. exists (firstn n s). rewrite firstn_skipn. reflexivity. }
  assert (Htok : consumes (fun s => vw (t_token u eoi s))).
  { intros s n a r. rewrite v_token. destruct (lex u (map fst s)) as [[tok m]|] eqn:E; [|discriminate].
    cbn. intros H; injection H as _ _ <-. apply lex_sound in E as [[Hm Hm2] _].
    destruct s as [|x s]; [cbn in Hm2; lia|]. destruct m as [|m]; [lia|].
    exists x, (firstn m s). cbn. rewrite firstn_skipn. reflexivity. }
  intros st n a r. unfold t_item. rewrite vw_padded_by, v_padding. cbn [vbind].
  rewrite vw_map_with_span. destruct (Hsk (span_len is_blank (map fst st)) st) as (xs & Hxs).
  set (s1 := skipn _ st) in *.
  assert (Hrec : consumes (fun s => vw (p_recover (t_token u eoi) s))).
  { intros s n1 a1 r1. destruct (vw (t_token u eoi s)) as [n2 a2 r2| |] eqn:E.
    - rewrite (vw_recover_ok _ _ _ _ _ E). intros H; injection H as <- <- <-. eapply Htok. exact E.
    - apply vw_recover_fail in E as (k & _ & ->).
      destruct (vretry _ (tl s)) as [n2 a2 r2| |] eqn:E2; cbn; try discriminate.
      intros H; injection H as <- <- <-. apply vretry_consumes in E2 as (x & ys & E2); [|exact Htok].
      destruct s as [|y s]; [discriminate|]. cbn in E2. subst s. exists y, (x :: ys). reflexivity.
    - apply vw_recover_panic in E. rewrite E. discriminate. }
  destruct (vw (p_recover (t_token u eoi) s1)) as [n1 a1 r1| |] eqn:E; cbn [vbind]; try discriminate.
  rewrite v_padding. cbn [vbind]. intros H; injection H as <- <- <-.
  apply Hrec in E as (x & ys & E).
  destruct (Hsk (span_len is_blank (map fst r1)) r1) as (zs & Hzs).
  set (q := skipn (span_len is_blank (map fst r1)) r1) in *.
  rewrite Hxs, E, Hzs. clearbody q.
  destruct xs as [|x0 xs].
  - exists x, (ys ++ zs). cbn. rewrite app_assoc. reflexivity.
  - exists x0, (xs ++ (x :: ys) ++ zs). cbn. rewrite <- app_assoc. cbn. rewrite <- app_assoc. reflexivity.
Qed.

(** what is left after the last item: nothing, or text that has no token *)
Lemma iter_items u eoi : forall k i t, length t <= k ->
  exists toks n j r, iter (fun s => vw (t_item u eoi s)) (enum_from i t) n toks (enum_from j r) /\
    gfind u (skipn (lead r) r) = None /\
    (toks = [] -> j = i /\ r = t) /\ (toks <> [] -> lead r = 0) /\
    (Forall blank r -> lexes u i t toks n) /\
    (forall toks' n', lexes u i t toks' n' -> Forall blank r /\ toks' = toks /\ n' = n).
Proof.
  induction k as [|k IH]; intros i t Hk.
  - destruct t; [|cbn in Hk; lia]. exists [], 0, i, []. repeat split; try reflexivity.
    + apply iter_nil. exact (v_item u eoi i []).
    + intros _. constructor. constructor.
    + constructor.
    + apply lexes_inv in H as (H & _). exact H.
    + apply lexes_inv in H as (_ & H & _). exact H.
  - destruct (gfind u (skipn (lead t) t)) as [[[j tok] m]|] eqn:E.
    + pose proof E as E2. apply gfind_some in E2 as (_ & Hl & Hm & _). rewrite skipn_length in Hl.
      pose proof (v_item u eoi i t) as Hv. rewrite E in Hv. cbv zeta in Hv.
      set (s := skipn (j + m) (skipn (lead t) t)) in *.
      assert (Hls : length s <= k) by (unfold s; rewrite !skipn_length; lia).
      destruct (IH (i + lead t + (j + m) + lead s) (skipn (lead s) s)) as (toks & n & j' & r & H1 & H2 & H3 & H4 & H5 & H6).
      { rewrite skipn_length. lia. }
      assert (Hbl : forall toks n, lexes u (i + lead t + (j + m)) s toks n <->
                                   lexes u (i + lead t + (j + m) + lead s) (skipn (lead s) s) toks n).
      { intros toks' n'. destruct (lead_spec s) as [Hb _].
        rewrite <- (firstn_skipn (lead s) s) at 1.
        rewrite lexes_blanks by exact Hb.
        rewrite firstn_length_le by apply span_len_le. reflexivity. }
      do 4 eexists. split; [eapply iter_cons; [exact Hv | exact H1]|].
      split; [exact H2|]. split; [discriminate|]. split.
      { intros _. destruct toks as [|x toks]; [|apply H4; discriminate].
        destruct (H3 eq_refl) as [_ ->]. destruct (lead_spec s) as [_ Hh].
        destruct (skipn (lead s) s) as [|c q]; [reflexivity|]. unfold lead. cbn [span_len].
        destruct (is_blank c) eqn:Eb; [|reflexivity]. apply is_blank_spec in Eb. contradiction. }
      split.
      * intros Hr. apply lexes_intro; [exact E|]. apply Hbl. apply H5. exact Hr.
      * intros toks' n' H. apply lexes_inv in H. rewrite E in H.
        destruct H as (t1 & n1 & -> & -> & H). apply Hbl in H. apply H6 in H as (Hr & -> & ->). auto.
    + exists [], 0, i, t. repeat split; try reflexivity; try congruence.
      * apply iter_nil. rewrite v_item, E. reflexivity.
      * intros H. constructor. exact H.
      * apply lexes_inv in H. rewrite E in H. tauto.
      * apply lexes_inv in H. rewrite E in H. tauto.
      * apply lexes_inv in H. rewrite E in H. tauto.
Qed.

(** ** The whole tokenizer *)
Lemma tokenize_cases u src : exists o errs, tokenize u src = Val (o, errs) /\
  ((exists toks, o = Some toks /\ lexes u 0 src toks (length errs) /\ (src = [] \/ toks <> [])) \/
   (o = None /\ errs <> [] /\ src <> [] /\
    (Forall blank src \/ forall toks n, ~ lexes u 0 src toks n))).
Proof.
  unfold tokenize. set (eoi := mkSpan _ _).
  destruct (iter_items u eoi (length src) 0 src (le_n _)) as (toks & n & j & r & H1 & H2 & H3 & H4 & H5 & H6).
  assert (Hv : vw (tokenizer u eoi (enum_from 0 src)) =
               match enum_from j r with [] => VOk n toks [] | _ => VFail end).
  { unfold tokenizer. rewrite vw_then_ignore.
    rewrite (vw_repeated0 _ _ _ _ _ (consumes_item u eoi) H1). cbn [vbind]. rewrite vw_end.
    destruct (enum_from j r); [cbn; rewrite Nat.add_0_r|]; reflexivity. }
  unfold parse_recovery. destruct r as [|c r].
  - cbn [enum_from] in Hv. apply vw_ok in Hv as (es & alt & -> & He).
    do 2 eexists. split; [reflexivity|]. left. exists toks. rewrite map_length, He.
    split; [reflexivity|]. split; [apply H5; constructor|].
    destruct toks; [left; destruct (H3 eq_refl) as [_ <-]; reflexivity | right; discriminate].
  - cbn [enum_from] in Hv. apply vw_fail in Hv as (es & e & ->).
    do 2 eexists. split; [reflexivity|]. right. split; [reflexivity|]. split.
    { rewrite map_app. destruct es; discriminate. }
    destruct toks as [|x toks].
    + destruct (H3 eq_refl) as [_ <-]. split; [discriminate|].
      rewrite Forall_forall.
      destruct (Forall_Exists_dec blank) with (l := c :: r) as [Hd|Hd].
      { intros d. destruct (is_blank d) eqn:Eb; [left; apply is_blank_spec; exact Eb|].
        right. intros Hb. apply is_blank_spec in Hb. congruence. }
      * left. apply Forall_forall. exact Hd.
      * right. intros toks' n' H. apply H6 in H as (Hb & _).
        apply Exists_exists in Hd as (d & Hin & Hd). rewrite Forall_forall in Hb. apply Hd, Hb, Hin.
    + split.
      { intros ->. inversion H1; subst. 
        match goal with H : vw (t_item _ _ (enum_from 0 [])) = _ |- _ => rewrite v_item in H; discriminate end. }
      right. intros toks' n' H. apply H6 in H as (Hb & _). specialize (H4 ltac:(discriminate)).
      inversion_clear Hb as [|? ? Hc _]. apply is_blank_spec in Hc. unfold lead in H4. cbn [span_len] in H4.
      rewrite Hc in H4. discriminate.
Qed.

Lemma lexes_nonblank_tokens u i t toks n : lexes u i t toks n -> ~ Forall blank t -> toks <> [].
Proof.
  intros H Hb ->. apply lexes_inv in H. destruct (gfind u (skipn (lead t) t)) as [[[k tok] m]|].
  - destruct H as (? & ? & H & _). discriminate.
  - tauto.
Qed.
Lemma lexes_tokens_nonblank u i t toks n : lexes u i t toks n -> toks <> [] -> ~ Forall blank t.
Proof.
  intros H Hne Hb. destruct (lexes_det _ _ _ _ _ H _ _ (lexes_end u i t Hb)). contradiction.
Qed.

(** The tokenizer and the relation agree. *)
Theorem tokenize_spec u src toks n :
  (exists errs, tokenize u src = Val (Some toks, errs) /\ length errs = n) <->
  (lexes u 0 src toks n /\ (src = [] \/ ~ Forall blank src)).
Proof.
  destruct (tokenize_cases u src) as (o & errs & E & H). split.
  - intros (errs' & E' & <-). rewrite E in E'. injection E' as -> ->.
    destruct H as [(toks' & H & Hl & Hs)|(H & _)]; [|discriminate]. injection H as <-. split; [exact Hl|].
    destruct Hs as [Hs|Hs]; [auto|]. right. eapply lexes_tokens_nonblank; eassumption.
  - intros (Hl & Hs). exists errs. destruct H as [(toks' & -> & Hl' & _)|(-> & _ & Hne & H)].
    + destruct (lexes_det _ _ _ _ _ Hl' _ _ Hl) as [-> ->]. auto.
    + exfalso. destruct Hs as [->|Hs]; [congruence|]. destruct H as [H|H]; [contradiction|].
      exact (H _ _ Hl).
Qed.

Lemma tokenize_total u src : exists o errs, tokenize u src = Val (o, errs).
Proof. destruct (tokenize_cases u src) as (o & errs & E & _). eauto. Qed.
Lemma tokenize_none u src : (exists errs, tokenize u src = Val (None, errs)) <->
  src <> [] /\ (Forall blank src \/ forall toks n, ~ lexes u 0 src toks n).
Proof.
  destruct (tokenize_cases u src) as (o & errs & E & H). split.
  - intros (errs' & E'). rewrite E in E'. injection E' as -> ->.
    destruct H as [(? & H & _)|(_ & _ & H1 & H2)]; [discriminate | auto].
  - intros (Hne & H2). destruct H as [(toks & -> & Hl & Hs)|(-> & _)]; [|eauto].
    exfalso. destruct Hs as [Hs|Hs]; [contradiction|]. destruct H2 as [H2|H2].
    + eapply lexes_tokens_nonblank; eassumption.
    + exact (H2 _ _ Hl).
Qed.
