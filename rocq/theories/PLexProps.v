(** Consequences for spans, completeness, recovery and printing. *)
From Verif Require Import Text Chumsky Tokenizer SpecLex PChumsky PText PLex PLexSpec PTokens.

Lemma lexes_spans u i t toks n : lexes u i t toks n -> spans_in i (i + length t) toks.
Proof.
  induction 1 as [i bl Hb|i bl t w r toks n Hb Hl H IH|i bl g t w r toks n Hb Hg Hgb Hun Hl H IH]; cbn.
  - lia.
  - destruct Hl as [Hw _]. apply lexeme_nonempty in Hw. destruct w as [|c w]; [congruence|].
    split; [lia|]. split; [cbn; lia|].
    replace (i + length (bl ++ (c :: w) ++ r)) with (i + length bl + length (c :: w) + length r)
      by (rewrite !app_length; lia). exact IH.
  - destruct Hl as [Hw _]. apply lexeme_nonempty in Hw. destruct w as [|c w]; [congruence|].
    split; [lia|]. split; [cbn; lia|].
    replace (i + length (bl ++ g ++ (c :: w) ++ r)) with (i + length bl + length g + length (c :: w) + length r)
      by (rewrite !app_length; lia). exact IH.
Qed.

Lemma tokenize_lexes u src toks errs : tokenize u src = Val (Some toks, errs) ->
  lexes u 0 src toks (length errs).
Proof.
  intros H. assert (E : exists es, tokenize u src = Val (Some toks, es) /\ length es = length errs) by eauto.
  apply tokenize_spec in E as [E _]. exact E.
Qed.
Lemma tokenize_spans u src toks errs : tokenize u src = Val (Some toks, errs) ->
  spans_in 0 (length src) toks.
Proof. intros H. apply tokenize_lexes in H. apply lexes_spans in H. exact H. Qed.

(** ** Error-free lexing loses nothing *)
Lemma text_at_split (a w r : text) : text_at (a ++ w ++ r) (mkSpan (length a) (length a + length w)) = w.
Proof.
  unfold text_at. cbn. rewrite skipn_app_len. replace (length a + length w - length a) with (length w) by lia.
  apply firstn_app_len.
Qed.
Lemma lexes_texts u pre : forall t toks, lexes u (length pre) t toks 0 ->
  (forall tok sp, In (tok, sp) toks -> lexeme u tok (text_at (pre ++ t) sp)) /\
  (forall p c, length pre <= p -> nth_error (pre ++ t) p = Some c ->
     blank c \/ exists tok sp, In (tok, sp) toks /\ sp_start sp <= p < sp_end sp).
Proof.
  intros t toks H. remember (length pre) as i eqn:Ei. remember 0 as n eqn:En.
  revert pre Ei En.
  induction H as [i bl Hb|i bl t w r toks n Hb Hl H IH|i bl g t w r toks n Hb Hg Hgb Hun Hl H IH];
    intros pre Ei En; [| |discriminate].
  - split; [intros tok sp []|]. intros p c Hp Hc. left. rewrite nth_error_app2 in Hc by lia.
    apply nth_error_In in Hc. rewrite Forall_forall in Hb. auto.
  - subst i. specialize (IH (pre ++ bl ++ w)). rewrite !app_length in IH.
    specialize (IH ltac:(lia) En). destruct IH as [IH1 IH2].
    rewrite <- !app_assoc in IH1, IH2. split.
    + intros tok sp [E|Hin]; [|apply IH1; exact Hin]. injection E as <- <-.
      rewrite app_assoc. rewrite <- app_length. rewrite text_at_split. destruct Hl as [Hw _]. exact Hw.
    + intros p c Hp Hc.
      destruct (Nat.lt_ge_cases p (length pre + length bl)) as [H1|H1].
      * left. rewrite nth_error_app2 in Hc by lia. rewrite nth_error_app1 in Hc by lia.
        apply nth_error_In in Hc. rewrite Forall_forall in Hb. auto.
      * destruct (Nat.lt_ge_cases p (length pre + length bl + length w)) as [H2|H2].
        -- right. do 2 eexists. split; [left; reflexivity|]. cbn. lia.
        -- destruct (IH2 p c ltac:(lia) Hc) as [Hbl|(tok & sp & Hin & Hsp)]; [auto|].
           right. do 2 eexists. split; [right; exact Hin | exact Hsp].
Qed.
Lemma tokenize_texts u src toks : tokenize u src = Val (Some toks, []) ->
  (forall tok sp, In (tok, sp) toks -> lexeme u tok (text_at src sp)) /\
  (forall p c, nth_error src p = Some c ->
     blank c \/ exists tok sp, In (tok, sp) toks /\ sp_start sp <= p < sp_end sp).
Proof.
  intros H. apply tokenize_lexes in H. cbn in H. apply (lexes_texts u []) in H. destruct H as [H1 H2].
  split; [exact H1|]. intros p c Hc. apply H2; [cbn; lia | exact Hc].
Qed.

(** ** Which character ends a token *)
Definition is_name_or_colon u c := name_char u c \/ c = ch ":".
Lemma sep_not_name u c : c = SPACE \/ c = TAB \/ c = LF -> ~ (name_char u c \/ c = ch ":").
Proof.
  intros H [Hn|Hn].
  - apply name_char_cases in Hn. unfold SPACE, TAB, LF in H. lia.
  - subst c. unfold SPACE, TAB, LF in H. cbn in H. lia.
Qed.
Lemma cons_head {A} {a b : A} {x y z} : a :: x = (b :: y) ++ z -> b = a.
Proof. intros H. injection H as -> _. reflexivity. Qed.
Lemma in_last {A} (x : A) l : In x (l ++ [x]).
Proof. apply in_or_app. right. left. reflexivity. Qed.
Lemma app_eq_prefix {A} (a b c d : list A) : a ++ b = c ++ d -> length a < length c ->
  exists y x, b = y :: x /\ c = a ++ y :: (firstn (length c - length a - 1) x) /\ firstn (length c) (a ++ b) = c.
Proof.
  revert c. induction a as [|h a IH]; intros c H Hl.
  - cbn in *. destruct c as [|y c]; [cbn in Hl; lia|]. cbn in H. destruct b as [|z b]; [discriminate|].
    injection H as -> ->. exists y, (c ++ d). split; [reflexivity|]. cbn [length]. 
    replace (S (length c) - 0 - 1) with (length c) by lia. rewrite firstn_app_len.
    split; [reflexivity|]. cbn. rewrite firstn_app_len. reflexivity.
  - destruct c as [|h' c]; [cbn in Hl; lia|]. cbn in H. injection H as -> H. cbn in Hl.
    destruct (IH c H ltac:(lia)) as (y & x & -> & E1 & E2). exists y, x. split; [reflexivity|].
    cbn [length firstn app]. rewrite E2. split; [|reflexivity]. f_equal. exact E1.
Qed.
Lemma kind_of_head u t c w : lexeme u t (c :: w) -> exists k, head_kind u c k /\
  (k = KComment <-> t = TComment) /\ (k = KStr <-> exists b, t = TStr b /\ c :: w = DQUOTE :: b ++ [DQUOTE]).
Proof.
  intros H. remember (c :: w) as cw eqn:E.
  destruct H as [body Hb|w' H|w' H|body Hb|c' H|c' w' t H1 H2 H3|w' H|w' H|w' H|w' H].
  - exists KComment. injection E as <- <-. split; [reflexivity|]. split; [tauto|].
    split; [discriminate|]. intros (b & ? & _). discriminate.
  - exists KDigit. split; [|split; [split; discriminate | split; [discriminate | intros (b & ? & _); discriminate]]].
    destruct H as [->|(d & r & -> & _ & Hall)].
    + injection E as <- <-. unfold head_kind, dec_digit. cbn. lia.
    + injection E as -> ->. apply Hall. left. reflexivity.
  - exists KDigit. split; [|split; [split; discriminate | split; [discriminate | intros (b & ? & _); discriminate]]].
    injection E as <- <-. unfold head_kind, dec_digit. cbn. lia.
  - exists KStr. injection E as <- <-. split; [reflexivity|]. split; [split; discriminate|].
    split; [eauto | reflexivity].
  - exists KPunct. injection E as <- <-. split; [exact H|].
    split; [split; discriminate | split; [discriminate | intros (b & ? & _); discriminate]].
  - exists KWord. injection E as <- <-. split; [exact H1|].
    assert (Hn : t <> TComment /\ forall b, t <> TStr b).
    { rewrite (word_classify _ _ H3). unfold classify_ident.
      split; intros; repeat match goal with |- context [if ?b then _ else _] => destruct b end; discriminate. }
    destruct Hn as [Hn1 Hn2]. split; [split; [discriminate | intros; contradiction]|].
    split; [discriminate | intros (b & E & _); exfalso; exact (Hn2 _ E)].
  - exists KAt. injection E as <- <-. split; [reflexivity|].
    split; [split; discriminate | split; [discriminate | intros (b & ? & _); discriminate]].
  - exists KPc. injection E as <- <-. split; [reflexivity|].
    split; [split; discriminate | split; [discriminate | intros (b & ? & _); discriminate]].
  - exists KEx. injection E as <- <-. split; [reflexivity|].
    split; [split; discriminate | split; [discriminate | intros (b & ? & _); discriminate]].
  - exists KNl. destruct H as [->| ->]; injection E as <- <-; (split; [cbn; auto|]);
    (split; [split; discriminate | split; [discriminate | intros (b & ? & _); discriminate]]).
Qed.
Lemma lexeme_hash u t w : lexeme u t (ch "#" :: w) -> t = TComment.
Proof.
  intros H. apply kind_of_head in H as (k & Hk & H1 & _). apply H1.
  exact (head_kind_unique u (ch "#") k KComment Hk eq_refl).
Qed.
Lemma lexeme_quote u t w : lexeme u t (DQUOTE :: w) -> exists b, t = TStr b /\ w = b ++ [DQUOTE].
Proof.
  intros H. apply kind_of_head in H as (k & Hk & _ & H1).
  pose proof (head_kind_unique u DQUOTE k KStr Hk eq_refl) as ->.
  destruct (proj1 H1 eq_refl) as (b & -> & E). injection E as ->. eauto.
Qed.

Lemma longest_stop u tok w c r : lexeme u tok w ->
  c = LF \/ (blank c /\ tok <> TComment) -> longest u tok w (c :: r).
Proof.
  intros Hw Hc. split; [exact Hw|]. intros t' w' r' E H'.
  destruct (Nat.le_gt_cases (length w') (length w)) as [|Hlt]; [assumption|]. exfalso.
  destruct (app_eq_prefix _ _ _ _ E Hlt) as (y & x & Ey & Ew & _). injection Ey as <- <-.
  set (z := firstn _ _) in Ew. clearbody z. clear E Hlt r r'.
  assert (Hsep : c = SPACE \/ c = TAB \/ c = LF) by (unfold blank in Hc; tauto).
  assert (Hin : In c w') by (rewrite Ew; apply in_or_app; right; left; reflexivity).
  pose proof (lexeme_nonempty _ _ _ Hw) as Hne. destruct w as [|h w]; [congruence|].
  destruct H' as [body Hb|w' H|w' H|body Hb|c' H|c' w' t H1 H2 H3|w' H|w' H|w' H|w' H].
  - assert (h = ch "#") by (apply (cons_head Ew)). subst h. apply lexeme_hash in Hw. subst tok.
    destruct Hc as [->|[_ Hc]]; [|congruence]. destruct Hin as [Hin|Hin]; [discriminate|]. contradiction.
  - destruct H as [->|(d & q & -> & _ & Hall)].
    + destruct w; discriminate.
    + apply Hall in Hin. unfold dec_digit in Hin. unfold SPACE, TAB, LF in Hsep. lia.
  - cbn in Hin. destruct Hin as [Hin|[Hin|Hin]].
    + destruct Hsep as [->|[->| ->]]; discriminate Hin.
    + destruct Hsep as [->|[->| ->]]; discriminate Hin.
    + destruct H as [->|(d & q & -> & _ & Hall)].
      * destruct Hin as [Hin|[]]. destruct Hsep as [->|[->| ->]]; discriminate Hin.
      * apply Hall in Hin. unfold hex_digit in Hin. unfold SPACE, TAB, LF in Hsep. lia.
  - assert (h = DQUOTE) by (apply (cons_head Ew)). subst h.
    apply lexeme_quote in Hw as (b & -> & ->). cbn in Ew. injection Ew as Ew.
    rewrite <- app_assoc in Ew. cbn in Ew.
    destruct (exists_last (l := c :: z)) as (z' & d & Ez); [discriminate|].
    rewrite Ez in Ew. rewrite app_comm_cons, app_assoc in Ew. apply app_inj_tail in Ew as [-> _].
    apply Hb. apply in_or_app. right. left. reflexivity.
  - destruct w; discriminate.
  - destruct H2 as [H2 _]. destruct Hin as [<-|Hin].
    + apply name_start_cases in H1. unfold SPACE, TAB, LF in Hsep. lia.
    + exact (sep_not_name u c Hsep (H2 _ Hin)).
  - destruct H as [H2 _]. destruct Hin as [<-|Hin]; [cbn in Hsep; unfold SPACE, TAB, LF in Hsep; lia|].
    exact (sep_not_name u c Hsep (H2 _ Hin)).
  - destruct H as [H2 _]. destruct Hin as [<-|Hin]; [cbn in Hsep; unfold SPACE, TAB, LF in Hsep; lia|].
    exact (sep_not_name u c Hsep (H2 _ Hin)).
  - destruct H as [H2 _]. destruct Hin as [<-|Hin]; [cbn in Hsep; unfold SPACE, TAB, LF in Hsep; lia|].
    exact (sep_not_name u c Hsep (H2 _ Hin)).
  - destruct H as [->| ->].
    + destruct w; discriminate.
    + destruct w as [|w1 w]; [|destruct w; discriminate]. injection Ew as <- <- _.
      remember [CR] as q eqn:Eq. destruct Hw as [body Hb|w' H|w' H|body Hb|c' H|c' w' t H1 H2 H3|w' H|w' H|w' H|w' H];
        try discriminate.
      * destruct H as [->|(d & p & -> & _ & Hall)]; [discriminate|]. injection Eq as -> ->.
        specialize (Hall CR (or_introl eq_refl)). unfold dec_digit, CR in Hall. lia.
      * injection Eq as ->. cbn in H. unfold CR in H. intuition discriminate.
      * injection Eq as -> ->. apply name_start_cases in H1. unfold CR in H1. lia.
      * destruct H as [->| ->]; discriminate.
Qed.

(** a token that ends inside complete lines is not changed by what follows *)
Lemma longest_line u tok w r p s : longest u tok w r -> w ++ r = p ++ [LF] ->
  longest u tok w (r ++ s).
Proof.
  intros [Hw Hmax] E. split; [exact Hw|]. intros t' w' r' E' H'.
  destruct (Nat.le_gt_cases (length w') (length w)) as [|Hlt]; [assumption|]. exfalso.
  rewrite app_assoc, E in E'.
  destruct (Nat.le_gt_cases (length w') (length (p ++ [LF]))) as [Hle|Hgt].
  - assert (E2 : p ++ [LF] = w' ++ skipn (length w') (p ++ [LF])).
    { rewrite <- (firstn_skipn (length w') (p ++ [LF])) at 1. f_equal.
      apply (f_equal (firstn (length w'))) in E'. rewrite firstn_app_len in E'.
      rewrite firstn_app in E'. replace (length w' - length (p ++ [LF])) with 0 in E' by lia.
      cbn in E'. rewrite app_nil_r in E'. exact E'. }
    rewrite <- E in E2. specialize (Hmax _ _ _ E2 H'). lia.
  - destruct (app_eq_prefix _ _ _ _ E' Hgt) as (y & x & _ & Ew & _).
    set (z := firstn _ _) in Ew. clearbody z.
    assert (Hin : In LF w') by (rewrite Ew; apply in_or_app; left; apply in_last).
    pose proof (lexeme_nonempty _ _ _ Hw) as Hne. destruct w as [|h w]; [congruence|].
    assert (Hsep : LF = SPACE \/ LF = TAB \/ LF = LF) by auto.
    destruct H' as [body Hb|w' H|w' H|body Hb|c' H|c' w' t H1 H2 H3|w' H|w' H|w' H|w' H].
    + destruct Hin as [Hin|Hin]; [discriminate | contradiction].
    + destruct H as [->|(d & q & -> & _ & Hall)]; [destruct Hin as [|[]]; discriminate|].
      apply Hall in Hin. unfold dec_digit, LF in Hin. lia.
    + cbn in Hin. destruct Hin as [Hin|[Hin|Hin]]; [discriminate | discriminate |].
      destruct H as [->|(d & q & -> & _ & Hall)]; [destruct Hin as [|[]]; discriminate|].
      apply Hall in Hin. unfold hex_digit, LF in Hin. lia.
    + assert (Eh : h = DQUOTE).
      { rewrite <- E in Ew. apply (cons_head Ew). }
      subst h. apply lexeme_quote in Hw as (b & -> & ->).
      rewrite <- E in Ew. cbn in Ew. injection Ew as Ew. rewrite <- !app_assoc in Ew. cbn in Ew.
      destruct (exists_last (l := y :: z)) as (z' & d & Ez); [discriminate|].
      rewrite Ez in Ew. rewrite app_comm_cons, app_assoc in Ew. rewrite app_assoc in Ew. apply app_inj_tail in Ew as [-> _].
      apply Hb. apply in_or_app. left. apply in_or_app. right. left. reflexivity.
    + destruct p; [|destruct p]; discriminate.
    + destruct H2 as [H2 _]. destruct Hin as [Hin|Hin].
      * apply name_start_cases in H1. unfold LF in Hin. lia.
      * exact (sep_not_name u LF Hsep (H2 _ Hin)).
    + destruct H as [H2 _]. destruct Hin as [Hin|Hin]; [discriminate|]. exact (sep_not_name u LF Hsep (H2 _ Hin)).
    + destruct H as [H2 _]. destruct Hin as [Hin|Hin]; [discriminate|]. exact (sep_not_name u LF Hsep (H2 _ Hin)).
    + destruct H as [H2 _]. destruct Hin as [Hin|Hin]; [discriminate|]. exact (sep_not_name u LF Hsep (H2 _ Hin)).
    + destruct H as [->| ->].
      * destruct p as [|? [|? ?]]; discriminate.
      * destruct p as [|p1 [|p2 p]]; [discriminate| |]; cbn in Ew; [discriminate|].
        injection Ew as _ _ Ew. destruct p; discriminate.
Qed.

Lemma full_lines_app a b : full_lines (a ++ b) -> full_lines b.
Proof.
  intros [H|(p & H)].
  - left. destruct a; [exact H | discriminate].
  - destruct b as [|x b]; [left; reflexivity|]. right.
    destruct (exists_last (l := x :: b)) as (b' & y & E); [discriminate|]. rewrite E in *.
    rewrite app_assoc in H. apply app_inj_tail in H as [_ ->]. eauto.
Qed.
Lemma full_lines_blank bl : Forall blank bl -> full_lines bl -> bl = [].
Proof.
  intros H [->|(p & ->)]; [reflexivity|]. apply Forall_app in H as [_ H]. inversion_clear H as [|? ? [H'|H'] _]; discriminate.
Qed.
Lemma full_lines_longest u tok w r s : longest u tok w r -> full_lines (w ++ r) -> longest u tok w (r ++ s).
Proof.
  intros Hl [H|(p & H)].
  - destruct Hl as [Hw _]. apply lexeme_nonempty in Hw. destruct w; [congruence | discriminate].
  - eapply longest_line; eassumption.
Qed.

(** ** Lexing is compositional at line ends *)
Lemma lexes_app u i t toks post toks2 n2 : lexes u i t toks 0 -> full_lines t ->
  lexes u (i + length t) post toks2 n2 -> lexes u i (t ++ post) (toks ++ toks2) n2.
Proof.
  intros H Hfl H2. remember 0 as n eqn:En. revert En Hfl H2.
  induction H as [i bl Hb|i bl t w r toks n Hb Hl H IH|i bl g t w r toks n Hb Hg Hgb Hun Hl H IH];
    intros En Hfl H2; [| |discriminate].
  - apply full_lines_blank in Hfl; [|exact Hb]. subst bl. cbn in H2 |- *. rewrite Nat.add_0_r in H2. exact H2.
  - apply full_lines_app in Hfl. pose proof (full_lines_app _ _ Hfl) as Hfr.
    rewrite <- !app_assoc. cbn [app]. apply lexes_token; [exact Hb | eapply full_lines_longest; eassumption |].
    apply IH; [exact En | exact Hfr|]. rewrite !app_length in H2.
    replace (i + (length bl + (length w + length r))) with (i + length bl + length w + length r) in H2 by lia.
    exact H2.
Qed.
Lemma lexes_app_inv u i t toks post : lexes u i t toks 0 -> full_lines t ->
  forall toks' n, lexes u i (t ++ post) toks' n -> exists toks2, lexes u (i + length t) post toks2 n.
Proof.
  intros H Hfl. remember 0 as n eqn:En. revert En Hfl.
  induction H as [i bl Hb|i bl t w r toks n Hb Hl H IH|i bl g t w r toks n Hb Hg Hgb Hun Hl H IH];
    intros En Hfl toks' n' H2; [| |discriminate].
  - apply full_lines_blank in Hfl; [|exact Hb]. subst bl. cbn in H2 |- *. rewrite Nat.add_0_r. eauto.
  - apply full_lines_app in Hfl. pose proof (full_lines_app _ _ Hfl) as Hfr.
    assert (Hl' : longest u t w (r ++ post)) by (eapply full_lines_longest; eassumption).
    rewrite <- !app_assoc in H2. apply lexes_inv in H2.
    rewrite lead_app in H2; [|exact Hb|eapply longest_head; exact Hl'].
    rewrite skipn_app_len in H2. apply longest_lex in Hl'.
    rewrite (gfind_intro u 0 (w ++ r ++ post) t (length w)) in H2 by (try lia; exact Hl').
    destruct H2 as (toks2 & n2 & _ & -> & H2). cbn [plus] in H2. rewrite skipn_app_len in H2.
    replace (i + length bl + length w) with (i + length bl + length w) in H2 by lia.
    apply (IH En Hfr) in H2 as (toks3 & H3). exists toks3. cbn [Nat.eqb plus].
    rewrite !app_length. replace (i + (length bl + (length w + length r))) with (i + length bl + length w + length r) by lia.
    exact H3.
Qed.

Lemma lexes_shift u d i t toks n : lexes u i t toks n -> lexes u (i + d) t (map (shift_tok d) toks) n.
Proof.
  induction 1 as [i bl Hb|i bl t w r toks n Hb Hl H IH|i bl g t w r toks n Hb Hg Hgb Hun Hl H IH]; cbn [map].
  - constructor. exact Hb.
  - unfold shift_tok at 1, shift_span. cbn [fst snd sp_start sp_end].
    replace (i + length bl + d) with (i + d + length bl) by lia.
    replace (i + length bl + length w + d) with (i + d + length bl + length w) in * by lia.
    apply lexes_token; assumption.
  - unfold shift_tok at 1, shift_span. cbn [fst snd sp_start sp_end].
    replace (i + length bl + d) with (i + d + length bl) by lia.
    replace (i + length bl + length g + length w + d) with (i + d + length bl + length g + length w) in * by lia.
    apply lexes_garbage; assumption.
Qed.

(** ** Recovery *)
Lemma tokenize_lexes0 u src toks : tokenize u src = Val (Some toks, []) -> lexes u 0 src toks 0.
Proof. intros H. apply tokenize_lexes in H. exact H. Qed.
Lemma lexes_tokenize u src toks n : lexes u 0 src toks n -> src = [] \/ toks <> [] ->
  exists errs, tokenize u src = Val (Some toks, errs) /\ length errs = n.
Proof.
  intros H Hs. apply tokenize_spec. split; [exact H|]. destruct Hs as [Hs|Hs]; [auto|]. right.
  eapply lexes_tokens_nonblank; eassumption.
Qed.

Lemma recovery u pre toks1 g post tok e toks2 :
  full_lines pre -> tokenize u pre = Val (Some toks1, []) ->
  garbage u g post ->
  tokenize u post = Val (Some ((tok, mkSpan 0 e) :: toks2), []) ->
  exists err, tokenize u (pre ++ g ++ post) =
    Val (Some (toks1 ++ (tok, mkSpan (length pre) (length pre + length g + e))
                     :: map (shift_tok (length pre + length g)) toks2), [err]).
Proof.
  intros Hfl H1 (Hg1 & Hg2 & Hg3) H2. apply tokenize_lexes0 in H1, H2.
  assert (H : lexes u (0 + length pre) (g ++ post)
                ((tok, mkSpan (length pre) (length pre + length g + e))
                     :: map (shift_tok (length pre + length g)) toks2) 1).
  { apply lexes_inv in H2.
    destruct (gfind u (skipn (lead post) post)) as [[[k tok'] m]|] eqn:E; [|destruct H2; discriminate].
    destruct H2 as (toks' & n' & Ht & Hn & H2). injection Ht as -> Hlead He ->. cbn in Hlead.
    destruct k as [|k]; [|discriminate]. cbn in Hn. subst n'.
    apply gfind_some in E as (E & Hl & Hm & _). cbn [skipn plus] in *. rewrite <- Hlead in *. cbn [skipn] in *.
    apply lex_longest in E as [Hm2 Hlong].
    pose proof (firstn_length_le post (proj2 Hm2)) as Hw.
    set (w := firstn m post) in *.
    assert (Ep : post = w ++ skipn m post) by (symmetry; apply firstn_skipn). set (r := skipn m post) in *.
    cbn in He. subst e. clearbody w r. subst post. rewrite <- Hw in *.
    apply (lexes_shift u (length pre + length g)) in H2.
    pose proof (lexes_garbage u (length pre) [] g tok' w r (map (shift_tok (length pre + length g)) toks') 0) as HG.
    cbn [app length] in HG. rewrite Nat.add_0_r in HG. apply HG; auto.
    replace (length pre + length g + length w) with (length w + (length pre + length g)) by lia. exact H2. }
  apply (lexes_app _ _ _ _ _ _ _ H1 Hfl) in H.
  apply lexes_tokenize in H as (errs & -> & Hl); [|right; destruct toks1; discriminate].
  destruct errs as [|err [|]]; try discriminate. eauto.
Qed.

Lemma trailing_garbage u pre toks1 g :
  full_lines pre -> tokenize u pre = Val (Some toks1, []) -> garbage u g [] ->
  exists errs, tokenize u (pre ++ g) = Val (None, errs).
Proof.
  intros Hfl H1 (Hg1 & Hg2 & Hg3). apply tokenize_lexes0 in H1. apply tokenize_none.
  split; [destruct pre; [exact Hg1 | discriminate]|]. right. intros toks n H.
  apply (lexes_app_inv _ _ _ _ _ H1 Hfl) in H as (toks2 & H).
  assert (Hlead : lead g = 0).
  { destruct g as [|c g]; [congruence|]. apply (lead_app [] (c :: g)); [constructor|]. eapply Hg2. reflexivity. }
  assert (Hgf : gfind u g = None).
  { destruct (gfind u g) as [[[k tok] m]|] eqn:E; [|reflexivity]. exfalso.
    apply gfind_some in E as (E & Hl & Hm & _).
    assert (Hu : lex u (skipn k g ++ []) = None).
    { apply lex_none. apply (Hg3 (firstn k g)); [symmetry; apply firstn_skipn|].
      intros Hn. apply (f_equal (@length _)) in Hn. rewrite skipn_length in Hn. cbn in Hn. lia. }
    rewrite app_nil_r in Hu. congruence. }
  apply lexes_inv in H. rewrite Hlead in H. cbn [skipn] in H. rewrite Hgf in H.
  destruct H as (_ & _ & H). destruct g as [|c g]; [congruence|]. inversion_clear H as [|? ? Hc _].
  exact (Hg2 _ _ eq_refl Hc).
Qed.

(** ** Printing *)
Lemma comment_cr u w : lexeme u TComment w -> lexeme u TComment (w ++ [CR]).
Proof.
  intros H. remember TComment as t eqn:Et. destruct H; try discriminate.
  - change ((ch "#" :: body) ++ [CR]) with (ch "#" :: (body ++ [CR])). apply lx_comment.
    intros Hin. apply in_app_or in Hin as [Hin|[Hin|[]]]; [contradiction | discriminate].
  - exfalso. subst t. match goal with H : word _ _ |- _ => apply word_classify in H; revert H end.
    unfold classify_ident. repeat match goal with |- context [if ?b then _ else _] => destruct b end; discriminate.
Qed.
Lemma newline_texts u w : lexeme u TNewline w -> w = [LF] \/ w = [CR; LF].
Proof.
  intros H. remember TNewline as t eqn:Et. destruct H; try discriminate; [|assumption].
  exfalso. subst t. match goal with H : word _ _ |- _ => apply word_classify in H; revert H end.
  unfold classify_ident. repeat match goal with |- context [if ?b then _ else _] => destruct b end; discriminate.
Qed.
Lemma lexes_skip_blank u i c t toks n : blank c -> lexes u (i + 1) t toks n -> lexes u i (c :: t) toks n.
Proof. intros Hc H. apply (lexes_blanks u i [c] t toks n); [constructor; [exact Hc | constructor] | exact H]. Qed.
Lemma lexes_first u i t w r toks n : longest u t w r -> lexes u (i + length w) r toks n ->
  lexes u i (w ++ r) ((t, mkSpan i (i + length w)) :: toks) n.
Proof.
  intros H1 H2. pose proof (lexes_token u i [] t w r toks n) as H. cbn [app length] in H.
  rewrite Nat.add_0_r in H. apply H; auto.
Qed.
Lemma longest_end u t w : lexeme u t w -> longest u t w [].
Proof.
  intros H. split; [exact H|]. intros t' w' r' E _. apply (f_equal (@length _)) in E.
  rewrite !app_length in E. cbn in E. lia.
Qed.

Lemma print_lexes u l : Forall (fun x => lexeme u (fst x) (snd x)) l -> comments_end_lines l ->
  forall i, exists toks, lexes u i (print_tokens l) toks 0 /\ map fst toks = map fst l.
Proof.
  intros H. remember (length l) as k eqn:Ek. assert (Hk : length l <= k) by lia. clear Ek.
  revert l H Hk. induction k as [|k IH]; intros l H Hk Hc i.
  { destruct l; [|cbn in Hk; lia]. exists []. split; [constructor; constructor | reflexivity]. }
  destruct l as [|[tok w] l]; [exists []; split; [constructor; constructor | reflexivity]|].
  inversion_clear H as [|? ? Hw Hl]. cbn [fst snd] in Hw. cbn [length] in Hk.
  assert (Hnc : tok <> TComment -> comments_end_lines l ->
    exists toks, lexes u i (w ++ SPACE :: print_tokens l) toks 0 /\ map fst toks = tok :: map fst l).
  { intros Hn Hcl. destruct (IH l Hl ltac:(lia) Hcl (i + length w + 1)) as (toks & H1 & H2).
    eexists. split.
    - apply lexes_first; [apply longest_stop; [exact Hw|]|].
      + right. split; [left; reflexivity | exact Hn].
      + apply lexes_skip_blank; [left; reflexivity | exact H1].
    - cbn. rewrite H2. reflexivity. }
  destruct tok; try (destruct (Hnc ltac:(discriminate) Hc) as (toks & H1 & H2); exists toks; auto; fail).
  cbn in Hc. destruct Hc as [Hnext Hc]. cbn [print_tokens].
  destruct l as [|[t2 w2] l].
  - cbn. eexists. split; [apply lexes_first; [apply longest_end; exact Hw | constructor; constructor]|]. reflexivity.
  - subst t2. inversion_clear Hl as [|? ? Hw2 Hl2]. cbn [fst snd] in Hw2. cbn [length] in Hk.
    cbn [print_tokens]. destruct (newline_texts _ _ Hw2) as [->| ->].
    + destruct (IH l Hl2 ltac:(lia) Hc (i + length w + 1 + 1)) as (toks & H1 & H2).
      eexists. split.
      * apply lexes_first; [apply longest_stop; [exact Hw | left; reflexivity]|].
        apply (lexes_first u (i + length w) TNewline [LF]).
        -- apply longest_stop; [exact Hw2|]. right. split; [left; reflexivity | discriminate].
        -- apply lexes_skip_blank; [left; reflexivity | exact H1].
      * cbn. rewrite H2. reflexivity.
    + destruct (IH l Hl2 ltac:(lia) Hc (i + length (w ++ [CR]) + 1 + 1)) as (toks & H1 & H2).
      change (w ++ [CR; LF] ++ SPACE :: print_tokens l) with (w ++ [CR] ++ [LF] ++ SPACE :: print_tokens l).
      rewrite app_assoc. eexists. split.
      * apply lexes_first; [apply longest_stop; [apply comment_cr; exact Hw | left; reflexivity]|].
        apply (lexes_first u _ TNewline [LF]).
        -- apply longest_stop; [apply lx_newline; auto|]. right. split; [left; reflexivity | discriminate].
        -- apply lexes_skip_blank; [left; reflexivity | exact H1].
      * cbn. rewrite H2. reflexivity.
Qed.
Lemma print_relex u l : Forall (fun x => lexeme u (fst x) (snd x)) l -> comments_end_lines l ->
  exists toks, tokenize u (print_tokens l) = Val (Some toks, []) /\ map fst toks = map fst l.
Proof.
  intros H1 H2. destruct (print_lexes u l H1 H2 0) as (toks & H & E).
  apply lexes_tokenize in H as (errs & Hr & He).
  - destruct errs; [|discriminate]. eauto.
  - destruct l as [|[t w] l]; [left; reflexivity|]. right. destruct toks; discriminate.
Qed.

(** ** Witnesses *)
Definition ulatin : uclass := {| u_alpha := fun _ => false; u_num := fun _ => false; u_white := fun _ => false |}.
Lemma tokenize_iff u src toks : tokenize u src = Val (Some toks, []) <->
  lexes u 0 src toks 0 /\ (src = [] \/ ~ Forall blank src).
Proof.
  rewrite <- tokenize_spec. split.
  - intros H. exists []. auto.
  - intros (errs & H & He). destruct errs; [exact H | discriminate].
Qed.
Lemma blank_document_witness : exists u src, lexes u 0 src [] 0 /\
  exists errs, tokenize u src = Val (None, errs).
Proof.
  exists ulatin, [SPACE]. split.
  - constructor. constructor; [left; reflexivity | constructor].
  - eexists. vm_compute. reflexivity.
Qed.
Lemma garbage_dollar u post : garbage u (str "$") post.
Proof.
  split; [discriminate|]. split.
  - intros c g' H. injection H as <- _. intros [H|H]; discriminate.
  - intros g1 g2 H Hne. destruct g1 as [|x g1].
    + cbn in H. subst g2. apply lex_none. destruct post; reflexivity.
    + destruct g1; [|destruct g1; discriminate]. injection H as _ H. destruct g2; [congruence|discriminate].
Qed.
Lemma trailing_garbage_witness : exists u pre toks g,
  tokenize u pre = Val (Some toks, []) /\ toks <> [] /\ garbage u g [] /\
  exists errs, tokenize u (pre ++ g) = Val (None, errs).
Proof.
  exists ulatin, (str "a" ++ [LF]). do 2 eexists. split; [vm_compute; reflexivity|].
  split; [discriminate|]. split; [apply (garbage_dollar ulatin [])|].
  eexists. vm_compute. reflexivity.
Qed.
Lemma recovery_span_witness : exists u src tok sp toks errs,
  tokenize u src = Val (Some ((tok, sp) :: toks), errs) /\ ~ lexeme u tok (text_at src sp).
Proof.
  exists ulatin, (str "$a"). do 4 eexists. split; [vm_compute; reflexivity|].
  intros H. cbn in H.
  apply kind_of_head in H as (k & Hk & _). destruct k; cbn in Hk; try (intuition discriminate).
  - unfold dec_digit in Hk. lia.
  - apply name_start_cases in Hk. lia.
Qed.
