(** The first lexical error: up to there the text can be continued to one without
    errors, with the marked character it cannot. *)
From Verif Require Import Text Chumsky Tokenizer SpecLex PChumsky PText PLex PLexSpec PTokens PLexProps SpecLexFault PLexFault PLexPlaces.

Section First.
Variable u : uclass.

Lemma unlexable_head c x : unlexable u (c :: x) ->
  ~ name_start u c /\ ~ dec_digit c /\ c <> LF /\ c <> ch ":" /\ c <> ch "#" /\
  ~ In c (str "[]{}()<>=,;:*.") /\ c <> ch "@" /\ c <> ch "%" /\ c <> ch "!".
Proof.
  intros H.
  assert (Hnil : name_tail u []) by (split; [intros ? []|auto]).
  assert (G : forall tok, lexeme u tok [c] -> False) by (intros tok; apply (H tok [c] x eq_refl)).
  split. { intros Hc. eapply G. apply lx_word with (t := classify_ident [c]); [exact Hc|exact Hnil|apply classify_word]. }
  split. { intros Hc. eapply G. apply lx_num.
    destruct (N.eq_dec c (ch "0")) as [->|Hz]; [left; reflexivity|]. right. exists c, []. split; [reflexivity|].
    split; [exact Hz|]. intros d [<-|[]]. exact Hc. }
  split. { intros ->. eapply G. apply lx_newline. auto. }
  split. { intros ->. eapply G. apply lx_punct. cbn. tauto. }
  split. { intros ->. eapply G. apply (lx_comment u []). intros []. }
  split. { intros Hc. eapply G. apply lx_punct. exact Hc. }
  split. { intros ->. eapply G. apply lx_global. exact Hnil. }
  split. { intros ->. eapply G. apply lx_local. exact Hnil. }
  intros ->. eapply G. apply lx_debug. exact Hnil.
Qed.

(** a character that starts no token starts none whatever follows *)
Lemma unlexable_any c x y : unlexable u (c :: x) -> c <> DQUOTE -> c <> CR -> unlexable u (c :: y).
Proof.
  intros H Hq Hc tok w r E L. destruct (unlexable_head c x H) as (H1 & H2 & H3 & H4 & H5 & H6 & H7 & H8 & H9).
  destruct L as [body Hb|w L|w L|body Hb|d L|d w t L1 L2 L3|w L|w L|w L|w L].
  - injection E as E _. exact (H5 E).
  - destruct L as [->|(d & q & -> & Hd & Hall)].
    + injection E as -> _. apply H2. unfold dec_digit. lia.
    + injection E as -> _. apply H2, Hall. left. reflexivity.
  - injection E as -> _. apply H2. unfold dec_digit. lia.
  - injection E as E _. exact (Hq E).
  - injection E as -> _. exact (H6 L).
  - injection E as -> _. exact (H1 L1).
  - injection E as E _. exact (H7 E).
  - injection E as E _. exact (H8 E).
  - injection E as E _. exact (H9 E).
  - destruct L as [->| ->]; injection E as E _; [exact (H3 E)|exact (Hc E)].
Qed.
Lemma unlexable_cr d y : d <> LF -> unlexable u (CR :: d :: y).
Proof.
  intros Hd. apply lex_none. rewrite lex_head. cbn [first_some].
  unfold lx_comment', lx_hex', lx_num', lx_str', lx_punct', lx_ident', lx_sigil', lx_newline'.
  change (CR =? ch "#")%N with false. change (CR =? ch "0")%N with false. change (CR =? DQUOTE)%N with false.
  change (existsb (N.eqb CR) punctuation_chars) with false. change (is_ident_head u CR) with false.
  change (CR =? ch "@")%N with false. change (CR =? ch "%")%N with false. change (CR =? ch "!")%N with false.
  change (CR =? LF)%N with false. change (CR =? CR)%N with true. change (int_len is_digit10 (CR :: d :: y)) with (@None nat).
  cbn [andb option_map]. destruct (N.eqb_spec d LF); [contradiction|reflexivity].
Qed.

Lemma lexeme_quote tok w : lexeme u tok (DQUOTE :: w) -> exists b, w = b ++ [DQUOTE].
Proof.
  intros L. remember (DQUOTE :: w) as v eqn:E.
  destruct L as [body Hb|v L|v L|body Hb|d L|d v t L1 L2 L3|v L|v L|v L|v L]; try discriminate E.
  - destruct L as [->|(d & q & -> & Hd & Hall)]; [discriminate|]. injection E as -> _.
    specialize (Hall _ (or_introl eq_refl)). unfold dec_digit in Hall. change DQUOTE with 34%N in Hall. lia.
  - injection E as <-. eauto.
  - injection E as -> _. cbn in L. repeat (destruct L as [L|L]; [discriminate|]). destruct L.
  - injection E as -> _. apply name_start_cases in L1. change DQUOTE with 34%N in L1. lia.
  - destruct L as [->| ->]; discriminate.
Qed.
Lemma lexeme_cr tok w : lexeme u tok (CR :: w) -> w = [LF].
Proof.
  intros L. remember (CR :: w) as v eqn:E.
  destruct L as [body Hb|v L|v L|body Hb|d L|d v t L1 L2 L3|v L|v L|v L|v L]; try discriminate E.
  - destruct L as [->|(d & q & -> & Hd & Hall)]; [discriminate|]. injection E as -> _.
    specialize (Hall _ (or_introl eq_refl)). unfold dec_digit in Hall. change CR with 13%N in Hall. lia.
  - injection E as -> _. cbn in L. repeat (destruct L as [L|L]; [discriminate|]). destruct L.
  - injection E as -> _. apply name_start_cases in L1. change CR with 13%N in L1. lia.
  - destruct L as [->| ->]; [discriminate|]. injection E as <-. reflexivity.
Qed.

Lemma prefix_of {A} (a b x y : list A) : a ++ b = x ++ y -> length x <= length a -> exists z, a = x ++ z.
Proof.
  revert x. induction a as [|h a IH]; intros [|k x] E Hl; cbn in *; try lia; [exists []; reflexivity|exists (h :: a); reflexivity|].
  injection E as -> E. destruct (IH x E) as (z & ->); [lia|]. exists z. reflexivity.
Qed.
Lemma app_cut {A} (a b x y : list A) : a ++ b = x ++ y -> length a <= length x -> exists z, x = a ++ z /\ b = z ++ y.
Proof.
  intros E Hl. destruct (prefix_of x y a b (eq_sym E) Hl) as (z & ->). exists z. split; [reflexivity|].
  rewrite <- app_assoc in E. apply app_inv_head in E. exact E.
Qed.

(** which token comes first does not depend on what is behind the run *)
Lemma longest_swap tok w r c x c' x' : longest u tok w (r ++ c :: x) -> unlexable u (c :: x) -> c' = c \/ c' = LF ->
  longest u tok w (r ++ c' :: x').
Proof.
  intros [L Hmax] Hun Hc. split; [exact L|]. intros tok' w' r' E L'.
  destruct (le_lt_dec (length w') (length w)) as [|Hlt]; [assumption|exfalso].
  destruct (unlexable_head c x Hun) as (H1 & H2 & H3 & H4 & H5 & H6 & H7 & H8 & H9).
  rewrite app_assoc in E.
  assert (Hw : w <> []) by (eapply lexeme_nonempty; exact L).
  destruct (le_lt_dec (length w') (length (w ++ r))) as [Hle|Hgt].
  { destruct (prefix_of _ _ _ _ E Hle) as (z & Ez).
    specialize (Hmax tok' w' (z ++ c :: x)). rewrite app_assoc, Ez, <- app_assoc in Hmax. specialize (Hmax eq_refl L'). lia. }
  destruct (app_cut _ _ _ _ E ltac:(lia)) as (z & Ew & Ez).
  destruct z as [|d z]; [rewrite app_nil_r in Ew; subst w'; lia|]. injection Ez as <- Ez.
  assert (Hbad : c' = c -> (exists t, lexeme u t (w ++ r ++ [c])) -> False).
  { intros -> (t & Lt). specialize (Hmax t (w ++ r ++ [c]) x).
    rewrite <- !app_assoc in Hmax. specialize (Hmax eq_refl Lt). rewrite !app_length in Hmax. cbn in Hmax. lia. }
  assert (Hin : In c' (tl w')).
  { rewrite Ew. destruct w as [|h w]; [congruence|]. cbn. apply in_or_app. right. left. reflexivity. }
  assert (Hname : forall h v, w' = h :: v -> name_tail u v -> exists v', w ++ r ++ [c] = h :: v' /\ (c' = c -> name_tail u v')).
  { intros h v Ev [Hv _]. destruct w as [|h' w]; [congruence|]. rewrite Ew in Ev. injection Ev as -> Ev.
    exists (w ++ r ++ [c]). split; [reflexivity|]. intros ->. split.
    - intros d Hd. apply Hv. rewrite <- Ev. rewrite !in_app_iff in *. cbn in *. tauto.
    - right. exists (w ++ r), c. split; [rewrite app_assoc; reflexivity|].
      destruct (Hv c) as [?|?]; [rewrite <- Ev; rewrite !in_app_iff; cbn; tauto|assumption|contradiction]. }
  assert (HnLF : forall v, name_tail u v -> In c' v -> c' = c).
  { intros v [Hv _] Hi. destruct Hc as [|Hc]; [assumption|]. exfalso. rewrite Hc in *. destruct (Hv LF Hi) as [Hl|Hl]; [|discriminate].
    apply name_char_cases in Hl. change LF with 10%N in Hl. lia. }
  destruct L' as [body Hb|v L'|v L'|body Hb|d L'|d v t L1 L2 L3|v L'|v L'|v L'|v L']; cbn [tl] in Hin.
  - destruct Hc as [->| ->]; [|contradiction]. apply (Hbad eq_refl).
    destruct w as [|h w]; [congruence|]. cbn [app] in Ew. injection Ew as <- Ew. eexists. apply lx_comment.
    intros Hi. apply Hb. rewrite Ew. rewrite !in_app_iff in *. cbn in *. tauto.
  - assert (Hd : dec_digit c').
    { destruct L' as [->|(d & q & -> & _ & Hall)]; [destruct Hin|]. apply Hall. right. exact Hin. }
    destruct Hc as [->| ->]; [contradiction|]. unfold dec_digit in Hd. change LF with 10%N in Hd. lia.
  - assert (Hd : c' = ch "x" \/ hex_digit c').
    { cbn in Hin. destruct Hin as [<-|Hin]; [left; reflexivity|]. right.
      destruct L' as [->|(d & q & -> & _ & Hall)]; [|apply Hall; exact Hin].
      destruct Hin as [<-|[]]. unfold hex_digit. cbn. lia. }
    destruct Hc as [->| ->].
    + destruct Hd as [->|Hd]; [apply H1; left; reflexivity|]. unfold hex_digit in Hd.
      destruct Hd as [Hd|Hd]; [contradiction|]. apply H1. left. unfold is_alphabetic, is_ascii, ascii_alpha, ascii_upper, ascii_lower, in_range.
      destruct (N.ltb_spec c 128); [|lia]. apply orb_true_iff. rewrite !andb_true_iff, !N.leb_le. lia.
    + destruct Hd as [Hd|Hd]; [discriminate|]. unfold hex_digit in Hd. change LF with 10%N in Hd. lia.
  - destruct w as [|h w]; [congruence|]. cbn [app] in Ew. injection Ew as <- Ew.
    assert (Hs : exists b, w = b ++ [DQUOTE]).
    { eapply lexeme_quote. exact L. }
    destruct Hs as (b & ->). apply Hb.
    assert (Ez2 : exists z1 e, (c' :: z) = z1 ++ [e]).
    { destruct (exists_last (l := c' :: z)) as (z1 & e & Ee); [discriminate|]. eauto. }
    destruct Ez2 as (z1 & e & Ee). rewrite Ee in Ew. rewrite !app_assoc in Ew. apply app_inj_tail in Ew as [Ew _].
    rewrite Ew. rewrite !in_app_iff. cbn. tauto.
  - destruct Hin.
  - destruct (Hname d v eq_refl L2) as (v' & Ev & Hv). pose proof (HnLF v L2 Hin) as Hcc.
    apply (Hbad Hcc). rewrite Ev. exists (classify_ident (d :: v')). apply lx_word; [exact L1|apply Hv; exact Hcc|apply classify_word].
  - destruct (Hname _ v eq_refl L') as (v' & Ev & Hv). pose proof (HnLF v L' Hin) as Hcc.
    apply (Hbad Hcc). rewrite Ev. eexists. apply lx_global. apply Hv; exact Hcc.
  - destruct (Hname _ v eq_refl L') as (v' & Ev & Hv). pose proof (HnLF v L' Hin) as Hcc.
    apply (Hbad Hcc). rewrite Ev. eexists. apply lx_local. apply Hv; exact Hcc.
  - destruct (Hname _ v eq_refl L') as (v' & Ev & Hv). pose proof (HnLF v L' Hin) as Hcc.
    apply (Hbad Hcc). rewrite Ev. eexists. apply lx_debug. apply Hv; exact Hcc.
  - destruct L' as [->| ->]; [destruct Hin|].
    destruct w as [|h [|h2 w]]; [congruence| |].
    + cbn [app] in Ew. injection Ew as <- _. apply lexeme_cr in L. discriminate.
    + cbn [app] in Ew. injection Ew as _ _ Ew. destruct w; [|discriminate]. destruct r; discriminate.
Qed.

Lemma first_fault i t offs : lex_faults u i t offs -> forall off offs0, offs = off :: offs0 ->
  exists pre c x, t = pre ++ c :: x /\ off = i + length pre /\ ~ blank c /\ unlexable u (c :: x) /\
    forall c' x', c' = c \/ c' = LF -> forall k,
      (exists toks, lexes u i (pre ++ c' :: x') toks k) <-> (exists toks, lexes u off (c' :: x') toks k).
Proof.
  assert (Hblank : forall i bl c x k, Forall blank bl ->
    (exists toks, lexes u i (bl ++ c :: x) toks k) <-> (exists toks, lexes u (i + length bl) (c :: x) toks k)).
  { intros j bl c x k Hb. split; intros (toks & H); exists toks; eapply lexes_blanks; eassumption. }
  assert (Hun : forall g r, garbage u g r -> exists c x, g = c :: x /\ ~ blank c /\ unlexable u (g ++ r)).
  { intros g r (Hg & Hb & H). destruct g as [|c g]; [congruence|]. exists c, g. split; [reflexivity|].
    split; [eapply Hb; reflexivity|]. apply (H [] (c :: g) eq_refl). discriminate. }
  induction 1 as [i bl Hb|i bl t w r offs Hb Hl H IH|i bl g t w r offs Hb Hg Hl H IH|i bl g Hb Hg]; intros off offs0 E; [discriminate| | |].
  - destruct (IH off offs0 E) as (pre & c & x & -> & -> & Hc & Hux & Heq).
    exists (bl ++ w ++ pre), c, x. split; [rewrite <- !app_assoc; reflexivity|].
    split; [rewrite !app_length; lia|]. split; [exact Hc|]. split; [exact Hux|].
    intros c' x' Hc' k. rewrite <- (Heq c' x' Hc' k). clear Heq.
    pose proof (longest_swap _ _ _ _ _ c' x' Hl Hux Hc') as Hl'. rewrite <- !app_assoc.
    split; intros (toks & L).
    + apply lexes_inv in L. rewrite lead_app in L by (try exact Hb; eapply longest_head; exact Hl').
      rewrite skipn_app_len in L. pose proof (longest_lex _ _ _ _ Hl') as El.
      rewrite (gfind_intro u 0 _ t (length w)) in L by (try lia; exact El).
      destruct L as (toks' & n' & _ & -> & L). cbn [plus Nat.eqb] in *. rewrite skipn_app_len in L. eauto.
    + eexists. eapply lexes_token; eassumption.
  - injection E as <- _. destruct (Hun _ _ Hg) as (c & x & -> & Hc & Hux).
    exists bl, c, (x ++ w ++ r). split; [reflexivity|]. split; [reflexivity|]. split; [exact Hc|]. split; [exact Hux|].
    intros c' x' _ k. apply Hblank. exact Hb.
  - injection E as <- _. destruct (Hun _ _ Hg) as (c & x & -> & Hc & Hux). rewrite app_nil_r in Hux.
    exists bl, c, x. split; [reflexivity|]. split; [reflexivity|]. split; [exact Hc|]. split; [exact Hux|].
    intros c' x' _ k. apply Hblank. exact Hb.
Qed.

Lemma stuck_lexes i c x toks : ~ blank c -> unlexable u (c :: x) -> ~ lexes u i (c :: x) toks 0.
Proof.
  intros Hc Hu L. apply lexes_inv in L. assert (El : lead (c :: x) = 0).
  { unfold lead. cbn [span_len]. destruct (is_blank c) eqn:E; [|reflexivity]. apply is_blank_spec in E. contradiction. }
  rewrite El in L. cbn [skipn] in L. apply lex_none in Hu.
  destruct (gfind u (c :: x)) as [[[k tok] m]|] eqn:G.
  - destruct L as (toks' & n' & _ & E & _). destruct k as [|k]; [|discriminate].
    apply gfind_some in G as (G & _). cbn [skipn] in G. congruence.
  - destruct L as (_ & _ & L). inversion L. contradiction.
Qed.
End First.

Lemma clean_tokenize u src toks : lexes u 0 src toks 0 -> ~ Forall blank src -> tokenize u src = Val (Some toks, []).
Proof.
  intros L Hb. destruct (proj2 (tokenize_spec u src toks 0)) as (errs & E & Hl); [auto|].
  destruct errs; [exact E|discriminate].
Qed.
Lemma tokenize_clean u src o : tokenize u src = Val (o, []) -> exists toks, lexes u 0 src toks 0.
Proof.
  intros E. destruct o as [toks|].
  - destruct (proj1 (tokenize_spec u src toks 0)) as [L _]; [eauto|]. eauto.
  - destruct (tokenize_cases u src) as (o & errs & E' & H). rewrite E in E'. injection E' as <- <-.
    destruct H as [(? & H & _)|(_ & H & _)]; [discriminate|congruence].
Qed.

(** the place of the first error is the first one at which the text goes wrong *)
Theorem first_error u src o e errs : tokenize u src = Val (o, e :: errs) ->
  exists p, p <= length src /\ marks src p e /\
    (exists more toks, tokenize u (firstn p src ++ more) = Val (Some toks, [])) /\
    (p < length src -> forall more o', tokenize u (firstn (S p) src ++ more) <> Val (o', [])).
Proof.
  intros E. apply tokenize_places in E as [(offs & Hf & Hm)|(Hne & Hb & -> & e' & Ee & Hm)].
  - inversion Hm as [|off ? offs0 ? H1 _]; subst. pose proof (faults_range _ _ _ _ Hf) as Hr. inversion_clear Hr as [|? ? Hr0 _].
    exists (mark_of src off). split; [apply mark_le; lia|]. split; [exact H1|].
    destruct (first_fault u 0 src _ Hf off offs0 eq_refl) as (pre & c & x & -> & -> & Hc & Hux & Heq).
    cbn [plus] in *. clear H1 Hm Hr0.
    assert (Hnb : forall y, ~ Forall blank y -> ~ Forall blank (pre ++ y)).
    { intros y Hy Hb. apply Forall_app in Hb as [_ Hb]. contradiction. }
    assert (Hhead : forall d y, ~ blank d -> ~ Forall blank (d :: y)) by (intros d y Hd Hb; inversion Hb; contradiction).
    assert (Hgo : forall c' x' tok m, c' = c \/ c' = LF -> ~ blank c' -> lex u (c' :: x') = Some (tok, S m) -> skipn m x' = [] ->
      exists toks, tokenize u (pre ++ c' :: x') = Val (Some toks, [])).
    { intros c' x' tok m Hcc Hb' L Hs. destruct (proj2 (Heq c' x' Hcc 0)) as (toks & Ht).
      - destruct (lex_longest _ _ _ _ L) as [_ Hl]. cbn [firstn skipn] in Hl. rewrite Hs in Hl.
        eexists. pose proof (lexes_token u (length pre) [] tok (c' :: firstn m x') [] [] 0 (Forall_nil _) Hl) as HL.
        cbn [app] in HL. rewrite app_nil_r in HL.
        replace (firstn m x') with x' in HL; [apply HL; constructor; constructor|].
        rewrite <- (firstn_skipn m x') at 1. rewrite Hs, app_nil_r. reflexivity.
      - exists toks. apply clean_tokenize; [exact Ht|]. apply Hnb, Hhead. exact Hb'. }
    assert (Hnl : ~ blank LF) by (intros [Hx|Hx]; discriminate).
    assert (Hstuck : forall c' x' o', c' = c -> unlexable u (c' :: x') -> tokenize u (pre ++ c' :: x') <> Val (o', [])).
    { intros c' x' o' -> Hu' Et. apply tokenize_clean in Et as (toks & Ht).
      destruct (proj1 (Heq c x' (or_introl eq_refl) 0)) as (toks' & Ht'); [eauto|].
      eapply stuck_lexes; [exact Hc|exact Hu'|exact Ht']. }
    unfold mark_of. rewrite nth_error_app2, Nat.sub_diag by lia. cbn [nth_error].
    destruct (N.eqb_spec c DQUOTE) as [->|Hq]; [|destruct (N.eqb_spec c CR) as [->|Hr]].
    + split; [|lia]. exists [DQUOTE]. rewrite firstn_all, <- app_assoc. cbn [app].
      assert (Hx : ~ In DQUOTE x).
      { intros Hi. apply in_split in Hi as (b & y & ->).
        assert (Hd : exists b1 b2 y', b ++ DQUOTE :: y = b1 ++ DQUOTE :: y' /\ ~ In DQUOTE b1 /\ b2 = b1).
        { clear. induction b as [|d b IH]; [exists [], [], y; cbn; auto|].
          destruct (N.eq_dec d DQUOTE) as [->|Hd].
          - exists [], [], (b ++ DQUOTE :: y). cbn. auto.
          - destruct IH as (b1 & b2 & y' & E & Hn & _). exists (d :: b1), (d :: b1), y'. cbn. rewrite E. split; [reflexivity|].
            split; [intros [Hx|Hx]; [congruence|contradiction]|reflexivity]. }
        destruct Hd as (b1 & _ & y' & Ex & Hn & _). rewrite Ex in Hux.
        apply (Hux (TStr b1) (DQUOTE :: b1 ++ [DQUOTE]) y'); [cbn; rewrite <- app_assoc; reflexivity|]. apply lx_str. exact Hn. }
      apply (Hgo DQUOTE (x ++ [DQUOTE]) (TStr x) (length (x ++ [DQUOTE]))); [auto|exact Hc| |apply skipn_all].
      pose proof (lex_quote u (x ++ [DQUOTE])) as Lq. cbv zeta in Lq.
      rewrite (span_len_exact (fun d => negb (d =? DQUOTE)%N) x [DQUOTE]) in Lq; [|apply Forall_forall; intros d Hd; apply negb_true_iff, N.eqb_neq; intros ->; contradiction|reflexivity].
      rewrite Lq. rewrite app_length. cbn [length].
      assert ((length x <? length x + 1) = true) as -> by (apply Nat.ltb_lt; lia).
      rewrite firstn_app_len. do 3 f_equal. lia.
    + split.
      * exists [LF]. replace (length pre + 1) with (length (pre ++ [CR])) by (rewrite app_length; reflexivity).
        replace (pre ++ CR :: x) with ((pre ++ [CR]) ++ x) by (rewrite <- app_assoc; reflexivity).
        rewrite firstn_app_len, <- app_assoc. cbn [app].
        apply (Hgo CR [LF] TNewline 1); [auto|exact Hc|apply lex_crlf|reflexivity].
      * intros Hlen more o'. destruct x as [|d x]; [rewrite app_length in Hlen; cbn in Hlen; lia|].
        replace (S (length pre + 1)) with (length (pre ++ [CR; d])) by (rewrite app_length; cbn; lia).
        replace (pre ++ CR :: d :: x) with ((pre ++ [CR; d]) ++ x) by (rewrite <- app_assoc; reflexivity).
        rewrite firstn_app_len, <- app_assoc. cbn [app]. apply Hstuck; [reflexivity|].
        apply unlexable_cr. intros ->. apply (Hux TNewline [CR; LF] x eq_refl). apply lx_newline. auto.
    + split.
      * exists [LF]. rewrite firstn_app_len. apply (Hgo LF [] TNewline 0); [auto|exact Hnl|apply lex_lf|reflexivity].
      * intros _ more o'. replace (S (length pre)) with (length (pre ++ [c])) by (rewrite app_length; cbn; lia).
        replace (pre ++ c :: x) with ((pre ++ [c]) ++ x) by (rewrite <- app_assoc; reflexivity).
        rewrite firstn_app_len, <- app_assoc. cbn [app]. apply Hstuck; [reflexivity|].
        eapply unlexable_any; eassumption.
  - injection Ee as <- ->. exists (length src). split; [lia|]. split; [exact Hm|]. split; [|lia].
    exists [LF]. rewrite firstn_all. destruct (lex_longest _ _ _ _ (lex_lf u [])) as [_ Hl]. cbn [firstn skipn] in Hl.
    eexists. apply clean_tokenize.
    + apply (lexes_token u 0 src TNewline [LF] [] [] 0 Hb Hl). constructor. constructor.
    + intros Hx. apply Forall_app in Hx as [_ Hx]. inversion_clear Hx as [|? ? Hy _]. destruct Hy as [Hy|Hy]; discriminate.
Qed.

(** ** What the client is shown *)
From Verif Require Import Rope Parser Numbers Index SemTok Diag Rename Cfg Backtrace Server SpecText SpecParse SpecIndex SpecDiag PDiagDoc.

Lemma parse_lex_errors u src pr : parse_from_str u src = Val pr ->
  exists o errs rest, tokenize u src = Val (o, errs) /\ pr_errors pr = map (simple_map (fun c => [c])) errs ++ rest.
Proof.
  unfold parse_from_str. destruct (tokenize u src) as [[o errs]|]; [|discriminate]. cbn [rbind].
  destruct (match o with Some toks => parse_tokens src toks | None => Val (None, []) end) as [[st perrs]|]; [|discriminate].
  cbn [rbind]. intros H; injection H as <-. cbn [pr_errors]. eauto.
Qed.

Theorem faults_shown e uri src d diags : plain_document src -> visits_all (e_ord e) -> analyze e uri src = Val (d, diags) ->
  src = [] \/ ~ Forall blank src ->
  forall offs off, lex_faults (e_u e) 0 src offs -> In off offs -> mark_of src off < length src ->
      exists msg, In (mkDiag (lsp_range src (mkSpan (mark_of src off) (mark_of src off + 1))) msg []) diags.
Proof.
  intros Hp Ho Ha Hb offs off Hf Hi Hlt. destruct (document_diagnostics e uri src d diags Hp Ho Ha) as (pr & Epr & Hperm).
  destruct (parse_lex_errors _ _ _ Epr) as (o & errs & rest & Et & Ee).
  pose proof (tokenize_marks _ _ _ _ _ Et Hb Hf) as Hm.
  assert (Hex : exists x, In x errs /\ marks src (mark_of src off) x).
  { clear - Hm Hi. induction Hm as [|a x offs errs Hx _ IH]; [destruct Hi|]. destruct Hi as [<-|Hi].
    - exists x. split; [left; reflexivity|exact Hx].
    - destruct (IH Hi) as (y & Hy & Hm). exists y. split; [right; exact Hy|exact Hm]. }
  destruct Hex as (x & Hx & (_ & Hs & _)).
  exists (parser_error_message (e_xord e) (simple_map (fun c => [c]) x)).
  eapply Permutation_in; [symmetry; exact Hperm|]. apply in_or_app. left.
  apply in_map_iff. exists (simple_map (fun c => [c]) x). split.
  - unfold syntax_diagnostic. change (e_span (simple_map (fun c => [c]) x)) with (e_span x). rewrite Hs. reflexivity.
  - apply filter_In. split; [rewrite Ee; apply in_or_app; left; apply in_map; exact Hx|].
    unfold at_end. change (e_span (simple_map (fun c => [c]) x)) with (e_span x). rewrite Hs.
    destruct (span_eqb_spec (mkSpan (mark_of src off) (mark_of src off + 1)) (mkSpan (length src) (S (length src)))) as [E|]; [|reflexivity].
    injection E as E _. lia.
Qed.
