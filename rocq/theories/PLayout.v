(** Blanks between tokens, the texts of comments and the kind of line ends have no meaning. *)
From Verif Require Import Text Rope Chumsky Tokenizer Parser Numbers Index SemTok Diag Rename Cfg Backtrace Server SpecText SpecLex SpecParse SpecIndex SpecDiag SpecPatch SpecSimilar SpecRebind SpecLayout
  PText PLexSpec PLexProps PTokens PParse PParseProps PIndex PIndexDoc PIndexText PDiag PRelex PNatural PRetree PRebind.

Definition odd (c : char) : Prop := In c separators.
Lemma odd_cases c : odd c -> (c < 48 \/ 58 < c < 65 \/ 90 < c < 95 \/ 95 < c < 97 \/ 122 < c <= 125)%N.
Proof. intros H. cbn in H. unfold SPACE, TAB, LF, CR, DQUOTE in H. lia. Qed.
(** what follows the first character of a token, unless the token is a comment, a string or a line end *)
Lemma tail_plain u t w q : lexeme u t (w ++ q) -> w <> [] -> t <> TComment -> (forall b, t <> TStr b) -> t <> TNewline -> forall c, In c q -> ~ odd c.
Proof.
  intros H Hne N1 N2 N3 c Hc Ho. pose proof (odd_cases _ Ho) as Hb. destruct w as [|c0 w]; [contradiction|]. clear Hne. cbn [app] in H.
  assert (In c (w ++ q)) as Hin by (apply in_or_app; right; exact Hc).
  assert (forall v, name_tail u v -> ~ In c v) as Ht by (intros v [Hv _] G; destruct (Hv c G) as [G1|G1]; [apply name_char_cases in G1; lia|rewrite G1 in Hb; cbn in Hb; lia]).
  remember (c0 :: w ++ q) as x eqn:Ex.
  destruct H as [body Hbd|v H|v H|body Hbd|c' H|c' v t' H1 H2 H3|v H|v H|v H|v H]; try contradiction; try (exact (N2 _ eq_refl)).
  - assert (dec_digit c) as D; [|unfold dec_digit in D; lia].
    destruct H as [->|(d & r & E & _ & Hd)]; [injection Ex as _ Ex; rewrite <- Ex in Hin; destruct Hin|apply Hd; rewrite Ex; right; exact Hin].
  - cbn in Ex. injection Ex as _ Ex. rewrite <- Ex in Hin. destruct Hin as [<-|Hin]; [cbn in Hb; lia|].
    assert (hex_digit c) as D; [|unfold hex_digit in D; lia].
    destruct H as [->|(d & r & E & _ & Hd)]; [destruct Hin as [<-|[]]; left; vm_compute; split; discriminate|apply Hd, Hin].
  - injection Ex as _ Ex. rewrite <- Ex in Hin. destruct Hin.
  - injection Ex as _ Ex. rewrite <- Ex in Hin. exact (Ht _ H2 Hin).
  - injection Ex as _ Ex. rewrite <- Ex in Hin. exact (Ht _ H Hin).
  - injection Ex as _ Ex. rewrite <- Ex in Hin. exact (Ht _ H Hin).
  - injection Ex as _ Ex. rewrite <- Ex in Hin. exact (Ht _ H Hin).
Qed.
Definition strict (b : option token) : Prop := exists t, b = Some t /\ t <> TComment /\ t <> TNewline /\ (forall c, t = TPunct c -> c = ch ":") /\ forall x, t <> TStr x.
Lemma strict_change b bl bl' c w : strict b -> may_change b bl bl' (c :: w) -> bl' = [] -> ~ odd c -> bl = [].
Proof.
  intros (t & -> & H1 & H2 & H3 & H4) H E Ho.
  assert (bl' = [] -> bl = [] \/ apart t (c :: w)) as G by (destruct t; try contradiction; exact H).
  destruct (G E) as [G1|[(c' & -> & G1)|[(x & ->)|[G1|(c' & r & G1 & G2)]]]]; [exact G1| | |discriminate G1|].
  - destruct (G1 (H3 _ eq_refl)).
  - destruct (H4 _ eq_refl).
  - injection G1 as -> _. contradiction.
Qed.
Lemma not_classified u c w t : name_start u c -> word (c :: w) t -> t <> TComment /\ t <> TNewline /\ (forall c, t <> TPunct c) /\ forall x, t <> TStr x.
Proof.
  intros _ H. apply word_classify in H. unfold classify_ident in H.
  repeat match type of H with context [if ?b then _ else _] => destruct b end; subst t; split; try discriminate; split; try discriminate; split; intros; discriminate.
Qed.
Lemma plain_strict u t w : lexeme u t w -> (forall c, In c w -> ~ odd c) -> strict (Some t).
Proof.
  intros H G. exists t. split; [reflexivity|].
  destruct H as [body Hbd|v H|v H|body Hbd|c' H|c' v t' H1 H2 H3|v H|v H|v H|v H]; try (split; [discriminate|split; [discriminate|split; intros; discriminate]]).
  - exfalso. apply (G (ch "#")); [left; reflexivity|cbn; auto 30].
  - exfalso. apply (G DQUOTE); [left; reflexivity|cbn; auto 30].
  - split; [discriminate|]. split; [discriminate|]. split; [|intros; discriminate]. intros c E. injection E as <-. specialize (G c' (or_introl eq_refl)).
    cbn in H. unfold odd in G. repeat (destruct H as [<-|H]; [first [reflexivity|exfalso; apply G; cbn; tauto]|]). destruct H.
  - destruct (not_classified _ _ _ _ H1 H3) as (N1 & N2 & N3 & N4). split; [exact N1|]. split; [exact N2|]. split; [|exact N4]. intros c E. destruct (N3 _ E).
  - exfalso. apply (G LF); [destruct H as [->| ->]; cbn; auto|cbn; auto 30].
Qed.
Lemma blank_odd c : blank c -> odd c.
Proof. intros [->| ->]; cbn; auto 30. Qed.
Lemma comment_text u w : lexeme u TComment w -> exists x, w = ch "#" :: x /\ ~ In LF x.
Proof.
  intros H. remember TComment as t eqn:E. destruct H as [body Hbd| | | | |c' v t' H1 H2 H3| | | |]; try discriminate E; [eauto|].
  exfalso. subst t'. apply word_classify in H3. unfold classify_ident in H3. repeat match type of H3 with context [if ?b then _ else _] => destruct b end; discriminate H3.
Qed.
Lemma varied u b t w w' : lexeme u t w' -> may_vary b t w w' -> forall c x, w' = c :: x -> ~ odd c -> w' = w.
Proof.
  intros Hw [->|[[-> _]|E]] c x Ec Ho; [| |exact E]; exfalso; apply Ho.
  - destruct (comment_text _ _ Hw) as (y & -> & _). injection Ec as E _. rewrite <- E. cbn. auto 30.
  - destruct (newline_texts _ _ Hw) as [->| ->]; injection Ec as E _; rewrite <- E; cbn; auto 30.
Qed.
Lemma respaced_prefix u b r r' : respaced u b r r' -> strict b -> forall q s', r' = q ++ s' -> (forall c, In c q -> ~ odd c) -> exists s, r = q ++ s.
Proof.
  induction 1 as [b bl bl' Hb Hb' Hm|b bl bl' t w w' r r' Hb Hb' Hm Hl Hw' Hv Hr IH]; intros Hs q s' E Hq.
  - destruct q as [|c q]; [exists bl; reflexivity|]. exfalso. apply (Hq c (or_introl eq_refl)), blank_odd. rewrite Forall_forall in Hb'. apply Hb'. rewrite E. left. reflexivity.
  - destruct q as [|d q]; [eexists; reflexivity|]. destruct bl' as [|c bl'].
    + pose proof (lexeme_nonempty _ _ _ Hw') as Hne. destruct w' as [|c w']; [contradiction|].
      assert (c = d) as -> by (cbn [app] in E; injection E as E _; exact E). rewrite (strict_change _ _ _ _ _ Hs Hm eq_refl (Hq d (or_introl eq_refl))). pose proof (varied _ _ _ _ _ Hw' Hv _ _ eq_refl (Hq d (or_introl eq_refl))) as <-.
      change ((d :: w') ++ r' = (d :: q) ++ s') in E. change (exists s, (d :: w') ++ r = (d :: q) ++ s). destruct (app_prefix_cases _ _ _ _ E) as [(v & E1 & _)|(v & E1 & E2 & _)].
      * rewrite E1. exists (v ++ r). rewrite <- app_assoc. reflexivity.
      * rewrite E1 in Hq |- *. destruct (IH) with (q := v) (s' := s') as (s & ->); [|exact E2|intros c Hc; apply Hq, in_or_app; right; exact Hc|exists s; rewrite <- app_assoc; reflexivity].
        eapply plain_strict; [exact (proj1 Hl)|]. intros c Hc. apply Hq, in_or_app. left. exact Hc.
    + exfalso. injection E as <- _. apply (Hq c (or_introl eq_refl)), blank_odd. inversion Hb'. assumption.
Qed.

Lemma cr_lexeme u t : ~ lexeme u t [CR].
Proof.
  intros H. remember [CR] as w eqn:E. destruct H as [body Hbd|v H|v H|body Hbd|c' H|c' v t' H1 H2 H3|v H|v H|v H|v H]; try discriminate E.
  - subst v. destruct H as [H|(d & r & H & _ & Hd)]; [discriminate H|]. specialize (Hd CR (or_introl eq_refl)). unfold dec_digit, CR in Hd. lia.
  - injection E as ->. cbn in H. unfold CR in H. lia.
  - injection E as -> ->. apply name_start_cases in H1. unfold CR in H1. lia.
  - destruct H as [->| ->]; discriminate E.
Qed.
Lemma string_text u t x : lexeme u t (DQUOTE :: x) -> exists y, x = y ++ [DQUOTE] /\ ~ In DQUOTE y.
Proof.
  intros Hx. pose proof (lexeme_quote _ _ _ Hx) as (b' & -> & ->). exists b'. split; [reflexivity|].
  inversion Hx as [| | |? H| |? ? ? H1 H2 H3| | | |]; subst; [exact H|]. apply name_start_cases in H1. unfold DQUOTE in H1. lia.
Qed.
Lemma string_longest u b w r : lexeme u (TStr b) w -> longest u (TStr b) w r.
Proof.
  intros Hw. split; [exact Hw|]. intros t2 w2 s2 E Hw2. destruct (le_lt_dec (length w2) (length w)) as [G|G]; [exact G|]. exfalso.
  destruct (app_prefix_cases _ _ _ _ E) as [(v & -> & _)|(q & -> & E2 & Hq)]; [rewrite app_length in G; lia|].
  assert (exists y, w = DQUOTE :: y) as (y & ->).
  { clear - Hw. remember (TStr b) as tt eqn:Ett. destruct Hw as [|v H|v H|body Hbd|c' H|c' v t' H1 H2 H3|v H|v H|v H|v H]; try discriminate Ett; [eauto|].
    destruct (not_classified _ _ _ _ H1 H3) as (_ & _ & _ & N). destruct (N _ Ett). }
  destruct (string_text _ _ _ Hw) as (x & -> & Hx). cbn [app] in Hw2. destruct (string_text _ _ _ Hw2) as (y' & Ey & Hy').
  destruct (exists_last Hq) as (q' & z & ->). rewrite app_assoc in Ey. apply app_inj_tail in Ey as [<- _]. apply Hy'. rewrite <- app_assoc. apply in_or_app. right. left. reflexivity.
Qed.
Lemma punct_longest u c w r : lexeme u (TPunct c) w -> longest u (TPunct c) w r.
Proof.
  intros Hw. assert (w = [c] /\ In c punctuation_chars) as [-> Hc].
  { remember (TPunct c) as tt eqn:Ett. destruct Hw as [|v H|v H|body Hbd|c' H|c' v t' H1 H2 H3|v H|v H|v H|v H]; try discriminate Ett; [injection Ett as <-; split; [reflexivity|exact H]|].
    destruct (not_classified _ _ _ _ H1 H3) as (_ & _ & N & _). destruct (N _ Ett). }
  exact (proj2 (lex_longest _ _ _ _ (lex_punct u c r Hc))).
Qed.
Lemma newline_longest u w r : lexeme u TNewline w -> longest u TNewline w r.
Proof.
  intros H. destruct (newline_texts _ _ H) as [->| ->].
  - exact (proj2 (lex_longest _ _ _ _ (lex_lf u r))).
  - exact (proj2 (lex_longest _ _ _ _ (lex_crlf u r))).
Qed.
Lemma comment_longest u w w' r r' : longest u TComment w r -> lexeme u TComment w' -> respaced u (Some TComment) r r' -> longest u TComment w' r'.
Proof.
  intros [Hw Hl] Hw' Hr. split; [exact Hw'|]. intros t2 w2 s2 E Hw2. destruct (le_lt_dec (length w2) (length w')) as [G|G]; [exact G|]. exfalso.
  destruct (app_prefix_cases _ _ _ _ E) as [(v & -> & _)|(q & -> & E2 & Hq)]; [rewrite app_length in G; lia|]. clear E.
  destruct (comment_text _ _ Hw') as (x' & -> & Hno'). destruct (comment_text _ _ Hw) as (x & -> & Hno). cbn [app] in Hw2. pose proof (lexeme_hash _ _ _ Hw2) as ->.
  destruct (comment_text _ _ Hw2) as (x2 & Ex2 & Hno2). injection Ex2 as <-. destruct q as [|y q]; [contradiction|].
  assert (forall y rest, r = y :: rest -> y = LF) as Hfirst.
  { intros z rest ->. destruct (N.eq_dec z LF) as [Ey|Ey]; [exact Ey|]. exfalso.
    assert (length (ch "#" :: x ++ [z]) <= length (ch "#" :: x)) as L; [|cbn [length] in L; rewrite app_length in L; cbn [length] in L; lia].
    apply (Hl TComment (ch "#" :: x ++ [z]) rest); [cbn [app]; rewrite <- app_assoc; reflexivity|]. apply lx_comment. intros Hin. apply in_app_or in Hin as [Hin|[Hin|[]]]; [contradiction|congruence]. }
  inversion Hr as [b bl bl' Hb Hb' Hm|b bl bl' t3 w3 w3' r3 r3' Hb Hb' Hm Hl3 Hw3 Hv Hr3]; subst; cbn [may_change] in Hm; subst; [discriminate|].
  destruct bl as [|z bl]; [|pose proof (Hfirst _ _ eq_refl) as ->; inversion Hb as [|? ? Hz _]; destruct Hz as [Hz|Hz]; discriminate Hz].
  pose proof (lexeme_nonempty _ _ _ (proj1 Hl3)) as Hne2. destruct w3 as [|z w3]; [contradiction|]. cbn [app] in *. pose proof (Hfirst _ _ eq_refl) as ->.
  destruct Hv as [->|[[_ Hv]| ->]]; [destruct (comment_text _ _ (proj1 Hl3)) as (y3 & E3 & _); discriminate E3|contradiction|].
  match goal with H : _ = y :: _ |- _ => cbn [app] in H; injection H as <- _ end. apply Hno2, in_or_app. right. left. reflexivity.
Qed.
Lemma respaced_longest u b t w w' r r' : longest u t w r -> lexeme u t w' -> may_vary b t w w' -> respaced u (Some t) r r' -> longest u t w' r'.
Proof.
  intros Hlw Hlw' Hv Hr.
  assert (t = TComment \/ t = TNewline \/ (exists x, t = TStr x) \/ (exists c, t = TPunct c) \/
    (t <> TComment /\ t <> TNewline /\ (forall c, t <> TPunct c) /\ (forall x, t <> TStr x) /\ w' = w)) as [->|[->|[(x & ->)|[(x & ->)|(N1 & N2 & N3 & N4 & ->)]]]].
  { destruct Hv as [->|[[-> _]| ->]]; auto. destruct t; eauto 6; right; right; right; right; repeat split; intros; discriminate. }
  { exact (comment_longest _ _ _ _ _ Hlw Hlw' Hr). } { exact (newline_longest _ _ _ Hlw'). } { exact (string_longest _ _ _ _ Hlw'). } { exact (punct_longest _ _ _ _ Hlw'). }
  clear Hv Hlw'. destruct Hlw as [Hw Hl]. split; [exact Hw|]. intros t' w' s' E Hw'. destruct (le_lt_dec (length w') (length w)) as [G|G]; [exact G|]. exfalso.
  destruct (app_prefix_cases _ _ _ _ E) as [(v & -> & _)|(q & -> & E2 & Hq)]; [rewrite app_length in G; lia|]. clear E.
  pose proof (lexeme_nonempty _ _ _ Hw) as Hne.
  assert (forall c, In c q -> ~ odd c) as Hplain.
  { apply (tail_plain _ _ _ _ Hw' Hne).
    - intros ->. destruct (comment_text _ _ Hw') as (x & Ex & _). destruct w as [|c w]; [contradiction|]. cbn [app] in Ex. injection Ex as -> _. exact (N1 (lexeme_hash _ _ _ Hw)).
    - intros x ->. destruct w as [|c w]; [contradiction|]. assert (c = DQUOTE) as ->.
      { clear - Hw'. cbn [app] in Hw'. remember (c :: w ++ q) as y eqn:Ey. remember (TStr x) as tt eqn:Ett. destruct Hw' as [|v H|v H|body Hbd|c' H|c' v t' H1 H2 H3|v H|v H|v H|v H]; try discriminate Ett; [injection Ey as E _; congruence|].
        destruct (not_classified _ _ _ _ H1 H3) as (_ & _ & _ & N). destruct (N _ Ett). }
      destruct (lexeme_quote _ _ _ Hw) as (y & Ht & _). destruct (N4 _ Ht).
    - intros ->. destruct (newline_texts _ _ Hw') as [En|En]; destruct w as [|c [|c' [|]]]; try contradiction; cbn [app] in En.
      all: try (destruct q; [contradiction|discriminate En]).
      + injection En as -> En. exact (cr_lexeme _ _ Hw). }
  destruct (respaced_prefix _ _ _ _ Hr) with (q := q) (s' := s') as (s & Es); [|exact E2|exact Hplain|].
  { exists t. split; [reflexivity|]. split; [exact N1|]. split; [exact N2|]. split; [intros c Ec; destruct (N3 _ Ec)|exact N4]. }
  assert (length (w ++ q) <= length w) as L; [|rewrite app_length in L; destruct q; [contradiction|cbn [length] in L; lia]].
  apply (Hl t' _ s); [rewrite Es, app_assoc; reflexivity|exact Hw'].
Qed.
Lemma respaced_lexes u b t t' : respaced u b t t' -> forall i, exists toks, lexes u i t toks 0 /\ forall j, exists toks', lexes u j t' toks' 0 /\ map fst toks' = map fst toks.
Proof.
  induction 1 as [b bl bl' Hb Hb' Hm|b bl bl' t w w' r r' Hb Hb' Hm Hl Hw' Hv Hr IH]; intros i.
  - exists []. split; [constructor; exact Hb|]. intros j. exists []. split; [constructor; exact Hb'|reflexivity].
  - destruct (IH (i + length bl + length w)) as (toks & L & H). eexists. split; [apply lexes_token; [exact Hb|exact Hl|exact L]|].
    intros j. destruct (H (j + length bl' + length w')) as (toks' & L' & E). eexists. split; [apply lexes_token; [exact Hb'|exact (respaced_longest _ _ _ _ _ _ _ Hl Hw' Hv Hr)|exact L']|].
    cbn [map fst]. rewrite E. reflexivity.
Qed.
Lemma map_fst_similar : forall (a b : list stoken), map fst b = map fst a -> Forall2 (fun x y => fst x = fst y) a b.
Proof. induction a as [|x a IH]; intros [|y b] E; try discriminate; constructor; cbn in E; injection E as E1 E2; [congruence|apply IH; exact E2]. Qed.
Lemma respaced_parse u src src' pr : respaced u None src src' -> parse_from_str u src = Val pr -> pr_tokens pr <> [] ->
  exists pr', parse_from_str u src' = Val pr' /\ map fst (pr_tokens pr') = map fst (pr_tokens pr) /\
    Forall2 (same_stmt (counterparts (pr_tokens pr) (pr_tokens pr'))) (pr_stmts pr) (pr_stmts pr') /\
    Forall2 same_complaint (pr_errors pr) (pr_errors pr') /\ bound_alike pr pr'.
Proof.
  intros Hr Hp Hne. destruct (respaced_lexes _ _ _ _ Hr 0) as (toks & L & H). destruct (H 0) as (toks' & L' & Em). clear H.
  destruct (opened_tokens _ _ _ Hp Hne) as (errs & Et). pose proof (tokenize_lexes _ _ _ _ Et) as L0.
  destruct (lexes_det _ _ _ _ _ L _ _ L0) as [E En]. subst toks. destruct errs as [|]; [|discriminate En].
  destruct (lexes_tokenize u src' toks' 0 L') as (errs' & Et' & En').
  { right. intros ->. apply Hne. destruct (pr_tokens pr); [reflexivity|discriminate Em]. }
  destruct errs' as [|]; [|discriminate En']. pose proof (map_fst_similar _ _ Em) as F.
  assert (Forall2 (fun a b => similar (fst a) (fst b)) (pr_tokens pr) toks') as Hsim by (eapply forall2_impl; [|exact F]; intros x y E; left; exact E).
  destruct (reparsed _ _ _ _ _ _ _ Hp Et Et' Hsim ltac:(auto)) as (pr' & Hp' & <- & Hs & He). exists pr'. split; [exact Hp'|]. split; [exact Em|]. split; [exact Hs|]. split; [exact (He eq_refl)|].
  pose proof (proj1 (parse_from_str_module _ _ _ Hp)) as Hsp. pose proof (proj1 (parse_from_str_module _ _ _ Hp')) as Hsp'.
  pose proof (layout _ _ _ Hp) as (_ & Hrg & _). pose proof (provenance _ _ _ Hp) as Hsub.
  assert (same_bindings (counterparts (pr_tokens pr) (pr_tokens pr')) (recorded (pr_stmts pr) (pr_tokens pr)) (recorded (pr_stmts pr') (pr_tokens pr'))) as B.
  { eapply bindings_kept; [exact Hsp|exact Hsp'|exact Hsim|exact Hsub|exact Hrg|exact Hs|]. intros x y t t' Hx Hy _ _ Tx Ty.
    rewrite <- (combine_forall2 _ _ _ F _ _ Tx), <- (combine_forall2 _ _ _ F _ _ Ty), !occ_token_name. split; congruence. }
  split; [exact B|]. eapply same_reports; [exact Hsp|exact Hsp'|exact B].
Qed.
Lemma respaced_tokens u src src' : respaced u None src src' -> ~ Forall blank src ->
  exists toks toks', tokenize u src = Val (Some toks, []) /\ tokenize u src' = Val (Some toks', []) /\ map fst toks' = map fst toks.
Proof.
  intros Hr Hb. destruct (respaced_lexes _ _ _ _ Hr 0) as (toks & L & H). destruct (H 0) as (toks' & L' & Em). clear H. pose proof (lexes_nonblank_tokens _ _ _ _ _ L Hb) as Hne.
  destruct (lexes_tokenize _ _ _ _ L (or_intror Hne)) as (errs & Et & En). destruct errs; [|discriminate En].
  destruct (lexes_tokenize _ _ _ _ L') as (errs' & Et' & En'); [right; intros ->; apply Hne; destruct toks; [reflexivity|discriminate Em]|]. destruct errs'; [|discriminate En']. eauto 6.
Qed.
