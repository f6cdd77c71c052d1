(** Lexing after renames. *)
From Verif Require Import Text Rope Chumsky Tokenizer Parser Numbers Index SemTok Diag Rename Cfg Backtrace Server SpecText SpecParse SpecIndex SpecDiag SpecBacktrace SpecNumbers SpecCfg SpecView SpecRename SpecLex SpecPatch
  PText PRope PLexSpec PLexProps PTokens PParse PParseProps PIndex PIndexDoc PIndexText PDiag PDiagDoc PHints PRename PLabel.

(** ** What follows a token may change behind a sigil *)
Definition sigil_char (c : char) : Prop := c = ch "@" \/ c = ch "%" \/ c = ch "!".
(** ... and, if [lab], behind a character that ends words; [p] is the text in front. *)
Inductive alike (lab : bool) (p : text) : text -> text -> Prop :=
| sim_same t : alike lab p t t
| sim_split a d s c s' : d <> LF -> sigil_char c -> alike lab p (a ++ d :: s) (a ++ c :: s')
| sim_word a d s c s' : lab = true -> d <> LF -> at_break (p ++ a) -> alike lab p (a ++ d :: s) (a ++ c :: s').
Lemma similar_app lab p a r r' : alike lab (p ++ a) r r' -> alike lab p (a ++ r) (a ++ r').
Proof. intros [t|b d s c s' H1 H2|b d s c s' H1 H2 H3]; [constructor|..]; rewrite !(app_assoc a b); [apply sim_split; assumption|]. apply sim_word; [assumption..|]. rewrite app_assoc. exact H3. Qed.
Lemma similar_cut lab p w r r' : w <> [] -> alike lab (p ++ w) r r' -> alike lab w r r'.
Proof.
  intros Hw [t|a d s c s' H1 H2|a d s c s' H1 H2 (q & b & E & Hb)]; [constructor|apply sim_split; assumption|]. apply sim_word; [assumption..|].
  assert (w ++ a <> []) as Hne by (destruct w; [contradiction|discriminate]). destruct (exists_last Hne) as (q' & b' & E'). exists q', b'. split; [exact E'|].
  rewrite <- app_assoc, E', app_assoc in E. apply app_inj_tail in E as [_ ->]. exact Hb.
Qed.

Lemma sigil_not_name u c : sigil_char c -> ~ (SpecLex.name_char u c \/ c = ch ":").
Proof.
  intros H [Hn|Hn].
  - apply name_char_cases in Hn. destruct H as [->|[->| ->]]; cbn in Hn; lia.
  - destruct H as [->|[->| ->]]; discriminate Hn.
Qed.
(** a lexeme with a sigil after its first character is a comment or string *)
Lemma sigil_inside u t x c y : lexeme u t (x ++ c :: y) -> x <> [] -> sigil_char c ->
  t = TComment \/ exists b, t = TStr b /\ x ++ c :: y = DQUOTE :: b ++ [DQUOTE].
Proof.
  intros H Hx Hc. remember (x ++ c :: y) as w eqn:E.
  assert (In c w) as Hin by (rewrite E; apply in_elt).
  assert (forall h tl, w = h :: tl -> In c tl) as Htl.
  { intros h tl E'. rewrite E in E'. destruct x; [contradiction|]. injection E' as -> <-. apply in_elt. }
  assert (forall w', name_tail u w' -> ~ In c w') as Htail.
  { intros w' [Hw _] Hi. apply (sigil_not_name u c Hc). apply Hw. exact Hi. }
  assert (~ dec_digit c /\ ~ hex_digit c /\ c <> ch "x" /\ c <> ch "0") as (D1 & D2 & D3 & D4).
  { unfold dec_digit, hex_digit. destruct Hc as [->|[->| ->]]; cbn; repeat split; try lia; discriminate. }
  destruct H as [body Hb|w' H|w' H|body Hb|c' H|c' w' t H1 H2 H3|w' H|w' H|w' H|w' H].
  - auto.
  - exfalso. destruct H as [->|(d & r & -> & _ & Hall)]; [|apply D1, Hall, Hin]. cbn in Hin. destruct Hin as [<-|[]]. apply D1. unfold dec_digit. lia.
  - exfalso. apply in_app_or in Hin as [Hin|Hin]; [cbn in Hin; destruct Hin as [<-|[<-|[]]]; [apply D4|apply D3]; reflexivity|].
    destruct H as [->|(d & r & -> & _ & Hall)]; [|apply D2, Hall, Hin]. cbn in Hin. destruct Hin as [<-|[]]. apply D4. reflexivity.
  - right. eauto.
  - exfalso. apply (Htl _ _ eq_refl).
  - exfalso. apply (Htail _ H2), (Htl _ _ eq_refl).
  - exfalso. apply (Htail _ H), (Htl _ _ eq_refl).
  - exfalso. apply (Htail _ H), (Htl _ _ eq_refl).
  - exfalso. apply (Htail _ H), (Htl _ _ eq_refl).
  - exfalso. destruct H as [->| ->]; cbn in Hin; unfold LF, CR in Hin; destruct Hc as [->|[->| ->]]; cbn in Hin; lia.
Qed.
Lemma app_prefix_cases {A} : forall (a b c d : list A), a ++ b = c ++ d -> (exists x, a = c ++ x /\ d = x ++ b) \/ (exists x, c = a ++ x /\ b = x ++ d /\ x <> []).
Proof.
  induction a as [|h a IH]; intros b c d H.
  - destruct c as [|k c]; [left; exists []; auto|]. right. exists (k :: c). split; [reflexivity|]. split; [exact H|discriminate].
  - destruct c as [|k c]; [left; exists (h :: a); auto|]. injection H as -> H. destruct (IH _ _ _ H) as [(x & -> & ->)|(x & -> & -> & Hx)]; [left|right]; exists x; auto.
Qed.
Lemma word_plain w t : word w t -> t <> TComment /\ forall b, t <> TStr b.
Proof.
  intros H. rewrite (word_classify _ _ H). unfold classify_ident.
  split; intros; repeat match goal with |- context [if ?b then _ else _] => destruct b end; discriminate.
Qed.
Lemma comment_text u w : lexeme u TComment w -> exists body, w = ch "#" :: body /\ ~ In LF body.
Proof.
  intros H. remember TComment as t eqn:E. destruct H as [body Hb| | | | |c' w' t H1 H2 H3| | | |]; try discriminate E; [eauto|].
  destruct (word_plain _ _ H3). contradiction.
Qed.
Lemma str_text u b w : lexeme u (TStr b) w -> w = DQUOTE :: b ++ [DQUOTE] /\ ~ In DQUOTE b.
Proof.
  intros H. remember (TStr b) as t eqn:E. destruct H as [|w H|w H|body Hb|c H|c' w' t H1 H2 H3|w H|w H|w H|w H]; try discriminate E; [injection E as ->; auto|].
  destruct (word_plain _ _ H3) as [_ G]. exfalso. exact (G _ E).
Qed.
Lemma break_inside u t x c y : lexeme u t (x ++ c :: y) -> at_break x -> t = TComment \/ exists b, t = TStr b /\ x ++ c :: y = DQUOTE :: b ++ [DQUOTE].
Proof.
  intros H (q & k & -> & Hk). rewrite <- app_assoc in *. cbn [app] in *. remember (q ++ k :: c :: y) as w eqn:E.
  assert (In k w) as Hin by (rewrite E; apply in_elt).
  assert (~ SpecLex.name_char u k /\ k <> ch ":" /\ ~ dec_digit k /\ ~ hex_digit k /\ k <> ch "x" /\ ~ sigil_char k) as (K1 & K2 & K3 & K4 & K5 & K6).
  { assert (k = 32 \/ k = 9 \/ k = 10 \/ k = 44 \/ k = 61 \/ k = 91)%N as Hk' by (cbn in Hk; unfold SPACE, TAB, LF in Hk; intuition congruence).
    split; [intros G; apply name_char_cases in G; lia|]. unfold dec_digit, hex_digit, sigil_char. cbn. repeat split; try lia; intros ->; lia. }
  assert (forall h w', w = h :: w' -> h <> k -> In k w') as Htl.
  { intros h w' E' Hne. rewrite E' in Hin. destruct Hin as [G|G]; [contradiction|exact G]. }
  assert (forall w', name_tail u w' -> ~ In k w') as Htail by (intros w' [Hw _] Hi; apply Hw in Hi; tauto).
  destruct H as [body Hb|w' H|w' H|body Hb|c' H|c' w' t H1 H2 H3|w' H|w' H|w' H|w' H].
  - auto.
  - exfalso. destruct H as [->|(d & r & -> & _ & Hall)]; [|apply K3, Hall, Hin]. cbn in Hin. destruct Hin as [<-|[]]. apply K3. unfold dec_digit. lia.
  - exfalso. apply in_app_or in Hin as [Hin|Hin]; [cbn in Hin; destruct Hin as [<-|[<-|[]]]; [apply K3; unfold dec_digit; lia|apply K5; reflexivity]|].
    destruct H as [->|(d & r & -> & _ & Hall)]; [|apply K4, Hall, Hin]. cbn in Hin. destruct Hin as [<-|[]]. apply K3. unfold dec_digit. lia.
  - right. eauto.
  - exfalso. destruct q as [|? [|? ?]]; discriminate E.
  - exfalso. apply (Htail _ H2). apply (Htl _ _ eq_refl). intros ->. apply K1. destruct H1 as [G|G]; [left|right; right]; exact G.
  - exfalso. apply (Htail _ H). apply (Htl _ _ eq_refl). intros <-. apply K6. left. reflexivity.
  - exfalso. apply (Htail _ H). apply (Htl _ _ eq_refl). intros <-. apply K6. right. left. reflexivity.
  - exfalso. apply (Htail _ H). apply (Htl _ _ eq_refl). intros <-. apply K6. right. right. reflexivity.
  - exfalso. destruct H as [->| ->]; [destruct q as [|? [|? ?]]; discriminate E|]. destruct q as [|? [|? [|? ?]]]; try discriminate E. injection E as <- _. cbn in Hk. unfold SPACE, TAB, LF, CR in Hk. intuition discriminate.
Qed.
Lemma longest_similar lab u t w r r' : longest u t w r -> alike lab w r r' -> longest u t w r'.
Proof.
  intros HL Hs.
  assert (r = r' \/ exists a d s c s', r = a ++ d :: s /\ r' = a ++ c :: s' /\ d <> LF /\
    forall t0 y, lexeme u t0 ((w ++ a) ++ c :: y) -> t0 = TComment \/ exists b, t0 = TStr b /\ (w ++ a) ++ c :: y = DQUOTE :: b ++ [DQUOTE]) as [<-|(a & d & s & c & s' & -> & -> & Hd & Hc)].
  { pose proof (lexeme_nonempty _ _ _ (proj1 HL)) as Hne. destruct Hs as [t0|a d s c s' Hd Hc|a d s c s' _ Hd Hc]; [auto|right; exists a, d, s, c, s'; do 3 (split; [auto|])..].
    - intros t0 y H0. eapply sigil_inside; [exact H0| |exact Hc]. destruct w; [contradiction|discriminate].
    - intros t0 y H0. eapply break_inside; eassumption. }
  { exact HL. }
  destruct HL as [Hw Hl]. split; [exact Hw|]. intros t' w' q E Hw'.
  rewrite app_assoc in E. destruct (app_prefix_cases _ _ _ _ E) as [(x & E1 & E2)|(x & E1 & E2 & Hx)].
  - apply (Hl t' w' (x ++ d :: s)); [|exact Hw']. rewrite app_assoc, E1, <- app_assoc. reflexivity.
  - destruct x as [|c' x]; [contradiction|]. injection E2 as <- E2. exfalso.
    pose proof (lexeme_nonempty _ _ _ Hw) as Hne.
    rewrite E1 in Hw'. assert (w ++ a <> []) as Hne' by (destruct w; [contradiction|discriminate]).
    destruct (Hc _ _ Hw') as [->|(b & -> & Eb)].
    + (* comment *)
      apply comment_text in Hw' as (body & Eq & Hb).
      assert (lexeme u TComment (w ++ a ++ [d])) as Hlong.
      { destruct w as [|h w]; [contradiction|]. cbn [app] in Eq |- *. injection Eq as -> Eq. apply lx_comment. rewrite <- app_assoc in Eq.
        intros Hin. apply Hb. rewrite <- Eq. apply in_app_or in Hin as [Hin|Hin]; [apply in_or_app; left; exact Hin|].
        apply in_app_or in Hin as [Hin|[Hin|[]]]; [|congruence]. apply in_or_app. right. apply in_or_app. left. exact Hin. }
      specialize (Hl _ (w ++ a ++ [d]) s ltac:(rewrite <- !app_assoc; reflexivity) Hlong). rewrite !app_length in Hl. cbn in Hl. lia.
    + (* string *)
      destruct (str_text _ _ _ Hw') as [_ Hb]. destruct w as [|h w]; [contradiction|]. cbn [app] in Eb. injection Eb as -> Eb.
      destruct (lexeme_quote _ _ _ Hw) as (b0 & _ & ->). apply Hb.
      rewrite <- !app_assoc in Eb. cbn [app] in Eb.
      destruct (app_prefix_cases _ _ _ _ Eb) as [(y & E3 & E4)|(y & E3 & E4 & Hy)].
      * (* the closing quote is at the end: too short *)
        exfalso. apply (f_equal (@length _)) in E4. rewrite app_length in E4. cbn [length] in E4. rewrite app_length in E4. cbn [length] in E4. lia.
      * destruct y as [|k y]; [contradiction|]. injection E4 as <- _. rewrite E3. apply in_elt.
Qed.

(** names: only what follows matters *)
Lemma longest_rename u c mk w y r : (c = ch "@" /\ mk = TGlobalName \/ c = ch "%" /\ mk = TLocalName \/ c = ch "!" /\ mk = TDebugRef) ->
  longest u (mk (c :: w)) (c :: w) r -> name_tail u w -> name_tail u y -> longest u (mk (c :: y)) (c :: y) r.
Proof.
  intros Hk [_ Hl] Hw Hy.
  assert (forall z, name_tail u z -> lexeme u (mk (c :: z)) (c :: z)) as Hlex.
  { intros z Hz. destruct Hk as [[-> ->]|[[-> ->]|[-> ->]]]; constructor; exact Hz. }
  split; [apply Hlex; exact Hy|]. intros t' w' r' E Hw'.
  destruct (app_prefix_cases _ _ _ _ E) as [(x & E1 & E2)|(x & E1 & E2 & Hx)]; [rewrite E1, app_length; lia|]. exfalso.
  destruct w' as [|c' z]; [discriminate|]. cbn [app] in E1. injection E1 as -> ->.
  assert (name_tail u (y ++ x)) as Hz.
  { assert (sigil_char c) as Hsc by (unfold sigil_char; destruct Hk as [[-> _]|[[-> _]|[-> _]]]; auto).
    remember (c :: y ++ x) as q eqn:Eq. destruct Hw' as [body Hb|w' H|w' H|body Hb|c' H|c' w' t H1 H2 H3|w' H|w' H|w' H|w' H]; try (injection Eq as _ ->; assumption).
    - injection Eq as E' _. exfalso. destruct Hsc as [->|[->| ->]]; discriminate E'.
    - exfalso. assert (dec_digit c) as D.
      { destruct H as [->|(d & s & -> & _ & Hall)]; injection Eq as <- _; [unfold dec_digit; cbn; lia|apply Hall; left; reflexivity]. }
      unfold dec_digit in D. destruct Hsc as [->|[->| ->]]; cbn in D; lia.
    - injection Eq as E' _. exfalso. destruct Hsc as [->|[->| ->]]; discriminate E'.
    - injection Eq as E' _. exfalso. destruct Hsc as [->|[->| ->]]; discriminate E'.
    - injection Eq as -> E'. symmetry in E'. apply app_eq_nil in E' as [_ ->]. contradiction.
    - exfalso. destruct H as [->| ->]; injection Eq as E' _; destruct Hsc as [->|[->| ->]]; discriminate E'. }
  assert (name_tail u (w ++ x)) as Hz'.
  { destruct Hw as [W1 W2], Hz as [Z1 Z2]. split.
    - intros k Hk'. apply in_app_or in Hk' as [Hk'|Hk']; [apply W1; exact Hk'|]. apply Z1. apply in_or_app. right. exact Hk'.
    - right. destruct Z2 as [Z2|(z' & k & Z2 & Z3)]; [apply app_eq_nil in Z2 as [_ ->]; contradiction|].
      destruct (exists_last Hx) as (x' & k' & ->). rewrite app_assoc in Z2. apply app_inj_tail in Z2 as [_ ->]. exists (w ++ x'), k. split; [rewrite app_assoc; reflexivity|exact Z3]. }
  specialize (Hl _ (c :: w ++ x) r' ltac:(cbn; rewrite E2, <- app_assoc; reflexivity) (Hlex _ Hz')). cbn in Hl. rewrite app_length in Hl. destruct x; [contradiction|]. cbn in Hl. lia.
Qed.

(** the same for words *)
Lemma longest_reword u x y r : longest u (TIdent x) x r -> label_name u y -> longest u (TIdent y) y r.
Proof.
  intros [Hx0 Hl] (c & z & -> & Hc & Hz & Hr). assert (exists c0 x0, x = c0 :: x0 /\ name_start u c0 /\ name_tail u x0) as (c0 & x0 & -> & Hc0 & Hx1).
  { remember (TIdent x) as t eqn:E. destruct Hx0; try discriminate E. eauto. }
  split; [apply lx_word; [assumption..|right; auto]|]. intros t' w' r' E Hw'.
  destruct (app_prefix_cases _ _ _ _ E) as [(v & E1 & E2)|(v & E1 & E2 & Hv)]; [rewrite E1, app_length; lia|]. exfalso.
  destruct w' as [|c' z']; [discriminate|]. cbn [app] in E1. injection E1 as -> ->.
  assert (name_tail u (z ++ v)) as Hzv.
  { pose proof (name_start_cases u c Hc) as Hcc. remember (c :: z ++ v) as q eqn:Eq. destruct Hw' as [body Hb|w' H|w' H|body Hb|c' H|c' w' t H1 H2 H3|w' H|w' H|w' H|w' H].
    - injection Eq as E' _. exfalso. rewrite <- E' in Hcc. cbn in Hcc. lia.
    - exfalso. assert (dec_digit c) as D.
      { destruct H as [->|(d & s & -> & _ & Hall)]; injection Eq as <- _; [unfold dec_digit; cbn; lia|apply Hall; left; reflexivity]. }
      unfold dec_digit in D. lia.
    - injection Eq as E' _. exfalso. rewrite <- E' in Hcc. cbn in Hcc. lia.
    - injection Eq as E' _. exfalso. rewrite <- E' in Hcc. unfold DQUOTE in Hcc. lia.
    - injection Eq as -> E'. symmetry in E'. apply app_eq_nil in E' as [_ ->]. contradiction.
    - injection Eq as _ ->. exact H2.
    - injection Eq as E' _. exfalso. rewrite <- E' in Hcc. cbn in Hcc. lia.
    - injection Eq as E' _. exfalso. rewrite <- E' in Hcc. cbn in Hcc. lia.
    - injection Eq as E' _. exfalso. rewrite <- E' in Hcc. cbn in Hcc. lia.
    - exfalso. destruct H as [->| ->]; injection Eq as E' _; rewrite <- E' in Hcc; unfold CR, LF in Hcc; lia. }
  assert (name_tail u (x0 ++ v)) as Hxv.
  { destruct Hx1 as [W1 W2], Hzv as [Z1 Z2]. split.
    - intros k Hk'. apply in_app_or in Hk' as [Hk'|Hk']; [apply W1; exact Hk'|]. apply Z1. apply in_or_app. right. exact Hk'.
    - right. destruct Z2 as [Z2|(z' & k & Z2 & Z3)]; [apply app_eq_nil in Z2 as [_ ->]; contradiction|].
      destruct (exists_last Hv) as (v' & k' & ->). rewrite app_assoc in Z2. apply app_inj_tail in Z2 as [_ ->]. exists (x0 ++ v'), k. split; [rewrite app_assoc; reflexivity|exact Z3]. }
  specialize (Hl (classify_ident (c0 :: x0 ++ v)) (c0 :: x0 ++ v) r' ltac:(cbn; rewrite E2, <- app_assoc; reflexivity) (lx_word _ _ _ _ Hc0 Hxv (classify_word _))).
  cbn in Hl. rewrite app_length in Hl. destruct v; [contradiction|]. cbn in Hl. lia.
Qed.

Lemma in_split_first {A} (dec : forall a b : A, {a = b} + {a <> b}) x (l : list A) : In x l -> exists l1 l2, l = l1 ++ x :: l2 /\ ~ In x l1.
Proof.
  induction l as [|y l IH]; [intros []|]. intros H. destruct (dec y x) as [->|Hne]; [exists [], l; auto|]. destruct H as [H|H]; [contradiction|].
  destruct (IH H) as (l1 & l2 & -> & Hl). exists (y :: l1), l2. split; [reflexivity|]. intros [G|G]; auto.
Qed.
(** text without tokens stays without tokens *)
Lemma unlexable_similar u p x r r' : x <> [] -> unlexable u (x ++ r) -> alike false p r r' -> (In DQUOTE r' -> In DQUOTE r) -> unlexable u (x ++ r').
Proof.
  intros Hx Hun Hs Hq tok w q E Hw. revert Hun Hq E. destruct Hs as [t0|a d s c s' Hd Hc|a d s c s' Hf _ _]; intros Hun Hq E; [exact (Hun _ _ _ E Hw)| |discriminate Hf].
  rewrite app_assoc in E. destruct (app_prefix_cases _ _ _ _ E) as [(y & E1 & E2)|(y & E1 & E2 & Hy)].
  - apply (Hun tok w (y ++ d :: s)); [|exact Hw]. rewrite app_assoc, E1, <- app_assoc. reflexivity.
  - destruct y as [|c' y]; [contradiction|]. injection E2 as <- E2. rewrite E1 in Hw.
    assert (x ++ a <> []) as Hne by (destruct x; [contradiction|discriminate]).
    destruct (sigil_inside _ _ _ _ _ Hw Hne Hc) as [->|(b & -> & Eb)].
    + apply comment_text in Hw as (body & Eq & Hb). destruct x as [|h x]; [contradiction|]. injection Eq as -> _.
      apply (Hun TComment [ch "#"] (x ++ a ++ d :: s)); [reflexivity|]. apply lx_comment. intros [].
    + apply str_text in Hw as [Eq Hb]. destruct x as [|h x]; [contradiction|]. cbn [app] in Eb. injection Eb as -> Eb.
      assert (In DQUOTE (x ++ a ++ d :: s)) as Hin.
      { assert (In DQUOTE (a ++ c :: y ++ q) \/ In DQUOTE x) as [Hin|Hin].
        - assert (In DQUOTE ((x ++ a) ++ c :: y)) as Hin by (rewrite Eb; apply in_elt). rewrite <- app_assoc in Hin. apply in_app_or in Hin as [Hin|Hin]; [right; exact Hin|left].
          apply in_app_or in Hin as [Hin|[Hin|Hin]]; apply in_or_app; [left; exact Hin|right; left; exact Hin|]. right. right. apply in_or_app. left. exact Hin.
        - rewrite E2 in Hq. apply in_or_app. right. apply Hq. exact Hin.
        - apply in_or_app. left. exact Hin. }
      apply (in_split_first N.eq_dec) in Hin as (b1 & b2 & E3 & Hb1). apply (Hun (TStr b1) (DQUOTE :: b1 ++ [DQUOTE]) b2); [|apply lx_str; exact Hb1].
      cbn [app]. rewrite E3, <- app_assoc. reflexivity.
Qed.

(** ** Applying edits *)
Section Patch.
Variables (u : uclass) (src : text) (edits : list text_edit).
Hypothesis Hsrc : plain_document src.
Hypothesis Hsep : ForallOrdPairs (fun a b => separate (te_range a) (te_range b)) edits.
Notation edit_at p := (find (in_edit (lsp_position src p)) edits).

Lemma position_before p q : p < q -> q <= length src -> p_line (lsp_position src p) < p_line (lsp_position src q) \/
  (p_line (lsp_position src p) = p_line (lsp_position src q) /\ p_char (lsp_position src p) < p_char (lsp_position src q)).
Proof.
  intros H1 H2. destruct Hsrc as (Ha & Hpl & Hs). pose proof (position_mono src p q _ _ ltac:(lia) (positions_are_lsp_ascii src p Ha Hpl Hs ltac:(lia)) (positions_are_lsp_ascii src q Ha Hpl Hs H2)) as [G|[G1 G2]]; [left; exact G|].
  right. split; [exact G1|]. destruct (Nat.eq_dec (p_char (lsp_position src p)) (p_char (lsp_position src q))) as [E|E]; [|lia]. exfalso.
  pose proof (cursor_valid src p Hpl Hs ltac:(lia)) as C1. pose proof (cursor_valid src q Hpl Hs H2) as C2.
  destruct (lsp_position src p), (lsp_position src q). cbn in *. subst. assert (Some p = Some q) as G by congruence. injection G. lia.
Qed.
Lemma leb_positions p q : p <= length src -> q <= length src -> (pos_leb (lsp_position src p) (lsp_position src q) = true <-> p <= q).
Proof.
  intros Hp Hq. unfold pos_leb. rewrite orb_true_iff, andb_true_iff, Nat.ltb_lt, Nat.eqb_eq, Nat.leb_le. split.
  - intros H. destruct (le_lt_dec p q) as [G|G]; [exact G|]. destruct (position_before q p G Hp) as [L|[L1 L2]]; lia.
  - intros H. destruct (position_le src Hsrc p q H Hq) as [L|[L1 L2]]; lia.
Qed.
Lemma in_edit_iff p sp ed : te_range ed = lsp_range src sp -> p < length src -> sp_start sp <= sp_end sp -> sp_end sp <= length src ->
  (in_edit (lsp_position src p) ed = true <-> sp_start sp <= p < sp_end sp).
Proof.
  intros E Hp H1 H2. unfold in_edit. rewrite E. cbn [lsp_range r_start r_end]. rewrite andb_true_iff, negb_true_iff.
  rewrite leb_positions by lia. destruct (pos_leb (lsp_position src (sp_end sp)) (lsp_position src p)) eqn:E2.
  - apply leb_positions in E2; [|lia|lia]. split; [intros [_ H]; discriminate|lia].
  - assert (~ sp_end sp <= p) by (intros G; apply leb_positions in G; [congruence|lia|lia]). split; [intros [H3 _]; lia|intros; split; [lia|reflexivity]].
Qed.
Lemma edit_at_span ed sp p : In ed edits -> te_range ed = lsp_range src sp -> sp_start sp <= p < sp_end sp -> sp_end sp <= length src -> edit_at p = Some ed.
Proof.
  intros Hin E Hp Hend. destruct (edit_at p) as [ed'|] eqn:Ef.
  - apply find_some in Ef as [Hin' H']. destruct (ForallOrdPairs_In Hsep ed ed' Hin Hin') as [->|G]; [reflexivity|]. exfalso.
    assert (in_edit (lsp_position src p) ed = true) as H by (apply (in_edit_iff p sp); auto; lia).
    unfold in_edit in H, H'. apply andb_true_iff in H as [A1 A2]. apply andb_true_iff in H' as [B1 B2]. apply negb_true_iff in A2, B2.
    assert (forall a b, pos_leb a b = true <-> pos_le a b) as L.
    { intros a b. unfold pos_leb, pos_le. rewrite orb_true_iff, andb_true_iff, Nat.ltb_lt, Nat.eqb_eq, Nat.leb_le. reflexivity. }
    assert (forall a b, pos_leb a b = false <-> ~ pos_le a b) as L'.
    { intros a b. rewrite <- L. destruct (pos_leb a b); split; congruence. }
    rewrite L in A1, B1. rewrite L' in A2, B2. unfold separate, pos_le in *. destruct (lsp_position src p), (te_range ed) as [[? ?] [? ?]], (te_range ed') as [[? ?] [? ?]]. cbn in *. lia.
  - exfalso. pose proof (find_none _ _ Ef _ Hin) as H. assert (in_edit (lsp_position src p) ed = true) by (apply (in_edit_iff p sp); auto; lia). congruence.
Qed.
Lemma patch_app a : forall i b, patch_from src edits i (a ++ b) = patch_from src edits i a ++ patch_from src edits (i + length a) b.
Proof.
  induction a as [|c a IH]; intros i b; cbn [app patch_from length]; [rewrite Nat.add_0_r; reflexivity|]. rewrite IH, <- app_assoc, Nat.add_succ_comm. reflexivity.
Qed.
Lemma patch_kept t : forall i, (forall p, i <= p < i + length t -> edit_at p = None) -> patch_from src edits i t = t.
Proof.
  induction t as [|c t IH]; intros i H; cbn [patch_from]; [reflexivity|]. unfold patch_char. rewrite H by (cbn; lia). cbn [app]. f_equal. apply IH. intros p Hp. apply H. cbn. lia.
Qed.
Lemma patch_inside ed sp : In ed edits -> te_range ed = lsp_range src sp -> sp_end sp <= length src -> forall t i, sp_start sp < i -> i + length t <= sp_end sp ->
  patch_from src edits i t = [].
Proof.
  intros Hin E Hend. induction t as [|c t IH]; intros i H1 H2; cbn [patch_from]; [reflexivity|]. cbn in H2. unfold patch_char.
  rewrite (edit_at_span ed sp) by (auto || lia). unfold at_start. rewrite E. cbn [lsp_range r_start].
  destruct (pos_leb (lsp_position src i) (lsp_position src (sp_start sp))) eqn:G; [apply leb_positions in G; lia|]. rewrite andb_false_r. cbn [app]. apply IH; lia.
Qed.
Lemma patch_edit ed i w : In ed edits -> te_range ed = lsp_range src (mkSpan i (i + length w)) -> w <> [] -> i + length w <= length src -> patch_from src edits i w = te_text ed.
Proof.
  intros Hin E Hw Hend. destruct w as [|c w]; [contradiction|]. cbn [patch_from]. unfold patch_char. rewrite (edit_at_span ed _ i Hin E) by (cbn in *; lia).
  unfold at_start. rewrite E. cbn [lsp_range r_start sp_start]. replace (pos_leb (lsp_position src i) (lsp_position src i)) with true by (symmetry; apply leb_positions; cbn in Hend; lia).
  cbn [andb]. rewrite (patch_inside _ _ Hin E) by (cbn in *; lia). apply app_nil_r.
Qed.

Definition name_token (c : char) (w : text) (tok : token) : Prop :=
  c = ch "@" /\ tok = TGlobalName (c :: w) \/ c = ch "%" /\ tok = TLocalName (c :: w) \/ c = ch "!" /\ tok = TDebugRef (c :: w).
Definition untouched (sp : span) : Prop := forall p, sp_start sp <= p < sp_end sp -> edit_at p = None.
Definition replaced (tok : token) (sp : span) (y : text) : Prop :=
  exists ed c w z, In ed edits /\ te_range ed = lsp_range src sp /\ te_text ed = y /\ y = c :: z /\ name_tail u z /\ name_token c w tok.
(** a label with another name *)
Definition relabelled (tok : token) (sp : span) (y : text) : Prop :=
  exists ed w p q, In ed edits /\ te_range ed = lsp_range src sp /\ te_text ed = y /\ tok = TIdent w /\ label_name u y /\ src = p ++ q /\ length p = sp_start sp /\ at_break p.
Variable lab : bool.
Definition changed (tok : token) (sp : span) (y : text) : Prop := replaced tok sp y \/ (lab = true /\ relabelled tok sp y).
Definition told (t t' : token * span) : Prop :=
  (untouched (snd t) /\ fst t' = fst t) \/ exists y, changed (fst t) (snd t) y /\ fst t' = with_name (fst t) y.

Lemma name_lexeme c w tok x : name_token c w tok -> lexeme u tok x -> x = c :: w /\ name_tail u w.
Proof.
  intros Hn H. assert (token_name tok = Some (c :: w)) as E by (destruct Hn as [[_ ->]|[[_ ->]|[_ ->]]]; reflexivity).
  pose proof (lexeme_name _ _ _ _ H E) as ->. split; [reflexivity|].
  remember (c :: w) as x eqn:Ex. destruct H as [body Hb|w' H|w' H|body Hb|c' H|c' w' t H1 H2 H3|w' H|w' H|w' H|w' H]; try discriminate E; try (injection Ex as _ ->; assumption).
Qed.
Lemma tail_no_quote z : name_tail u z -> ~ In DQUOTE z.
Proof.
  intros [H _] Hin. apply H in Hin as [Hin|Hin]; [|discriminate Hin]. apply name_char_cases in Hin. unfold DQUOTE in Hin. lia.
Qed.
Lemma unlexable_head c r : unlexable u (c :: r) -> c <> LF.
Proof. intros H ->. apply (H TNewline [LF] r); [reflexivity|]. apply lx_newline. auto. Qed.

Lemma label_no_quote y : label_name u y -> ~ In DQUOTE y.
Proof.
  intros (c & z & -> & Hc & Hz & _) [G|G]; [|exact (tail_no_quote _ Hz G)]. apply name_start_cases in Hc. unfold DQUOTE in G. lia.
Qed.
Lemma changed_name tok sp y : changed tok sp y -> exists ed, In ed edits /\ te_range ed = lsp_range src sp /\ te_text ed = y /\ exists c z, y = c :: z.
Proof.
  intros [(ed & c & w & z & H1 & H2 & H3 & H4 & _)|(_ & ed & w & p & q & H1 & H2 & H3 & _ & (c & z & H4 & _) & _)]; exists ed; eauto 6.
Qed.
(** the texts of the tokens before and after, with the same blanks between them *)
Definition swapped (t : token * span) (w w' : text) : Prop :=
  lexeme u (fst t) w /\ ((w' = w /\ untouched (snd t)) \/ exists ed, In ed edits /\ te_range ed = lsp_range src (snd t) /\ te_text ed = w').
Inductive regapped : nat -> nat -> text -> text -> list (token * span) -> list (token * span) -> Prop :=
| rg_end i j bl : regapped i j bl bl [] []
| rg_token i j bl t t' w w' r r' toks toks' : swapped (t, mkSpan (i + length bl) (i + length bl + length w)) w w' ->
    regapped (i + length bl + length w) (j + length bl + length w') r r' toks toks' ->
    regapped i j (bl ++ w ++ r) (bl ++ w' ++ r') ((t, mkSpan (i + length bl) (i + length bl + length w)) :: toks) ((t', mkSpan (j + length bl) (j + length bl + length w')) :: toks').
Lemma patch_lexes : forall i t toks n, lexes u i t toks n -> forall pre, src = pre ++ t -> length pre = i -> (lab = true -> n = 0) ->
  (forall tok sp, In (tok, sp) toks -> untouched sp \/ exists y, changed tok sp y) ->
  (forall p, i <= p < i + length t -> edit_at p <> None -> exists tok sp, In (tok, sp) toks /\ sp_start sp <= p < sp_end sp) ->
  forall j, exists toks' n', lexes u j (patch_from src edits i t) toks' n' /\ Forall2 told toks toks' /\ (n = 0 -> n' = 0) /\
    alike lab pre t (patch_from src edits i t) /\ (In DQUOTE (patch_from src edits i t) -> In DQUOTE t) /\
    (n = 0 -> regapped i j t (patch_from src edits i t) toks toks').
Proof.
  induction 1 as [i bl Hb|i bl t w r toks n Hb Hl H IH|i bl g t w r toks n Hb Hg Hgb Hun Hl H IH]; intros pre Hpre Hi Hlab Htok Hout j.
  - assert (patch_from src edits i bl = bl) as E.
    { apply patch_kept. intros p Hp. destruct (edit_at p) eqn:G; [|reflexivity]. destruct (Hout p Hp ltac:(congruence)) as (? & ? & [] & _). }
    rewrite E. exists [], 0. split; [constructor; exact Hb|]. split; [constructor|]. split; [auto|]. split; [constructor|]. split; [auto|constructor].
  - assert (i + (length bl + (length w + length r)) <= length src) as Hlen by (rewrite Hpre, !app_length; lia). pose proof (lexes_spans _ _ _ _ _ H) as Hsp.
    assert (forall p, i <= p < i + length bl -> edit_at p = None) as Hbl.
    { intros p Hp. destruct (edit_at p) eqn:G; [|reflexivity]. destruct (Hout p ltac:(rewrite !app_length; lia) ltac:(congruence)) as (tok & sp & [E|Hin] & Hsp').
      - injection E as <- <-. cbn in Hsp'. lia.
      - pose proof (spans_in_each _ _ _ _ Hsp Hin). cbn in *. lia. }
    specialize (IH (pre ++ bl ++ w) ltac:(rewrite Hpre, <- !app_assoc; reflexivity) ltac:(rewrite !app_length; lia) Hlab). specialize (IH ltac:(intros; apply Htok; right; assumption)).
    specialize (IH ltac:(intros p Hp G; destruct (Hout p ltac:(rewrite !app_length; lia) G) as (tok & sp & [E|Hin] & Hsp'); [injection E as <- <-; cbn in Hsp'; lia|eauto])).
    rewrite !patch_app. rewrite (patch_kept bl i Hbl). pose proof (lexeme_nonempty _ _ _ (proj1 Hl)) as Hwne.
    destruct (Htok t _ (or_introl eq_refl)) as [Hu|(y & Hy)].
    + rewrite (patch_kept w (i + length bl) Hu). destruct (IH (j + length bl + length w)) as (toks' & n' & L' & F & Hn & Hsim & Hq & Hgap).
      exists ((t, mkSpan (j + length bl) (j + length bl + length w)) :: toks'), n'.
      split; [apply lexes_token; [exact Hb| |exact L']|].
      { eapply longest_similar; [exact Hl|]. apply (similar_cut _ (pre ++ bl)); [exact Hwne|]. rewrite <- app_assoc. exact Hsim. }
      split; [constructor; [left; split; [exact Hu|reflexivity]|exact F]|]. split; [exact Hn|]. split; [apply similar_app, similar_app; rewrite <- app_assoc; exact Hsim|].
      split; [rewrite !in_app_iff; tauto|]. intros G. apply rg_token; [split; [exact (proj1 Hl)|left; split; [reflexivity|exact Hu]]|exact (Hgap G)].
    + destruct (changed_name _ _ _ Hy) as (ed & Hin & E & Et & c0 & z0 & Ey0).
      rewrite (patch_edit ed (i + length bl) w Hin E) by (assumption || lia). rewrite Et.
      destruct (IH (j + length bl + length y)) as (toks' & n' & L' & F & Hn & Hsim & Hq & Hgap).
      assert (longest u t w (patch_from src edits (i + length bl + length w) r)) as HL.
      { eapply longest_similar; [exact Hl|]. apply (similar_cut _ (pre ++ bl)); [exact Hwne|]. rewrite <- app_assoc. exact Hsim. }
      exists ((with_name t y, mkSpan (j + length bl) (j + length bl + length y)) :: toks'), n'.
      enough (longest u (with_name t y) y (patch_from src edits (i + length bl + length w) r) /\
              alike lab pre (bl ++ w ++ r) (bl ++ y ++ patch_from src edits (i + length bl + length w) r) /\ ~ In DQUOTE y) as (HL' & Hs' & Hnq).
      { split; [apply lexes_token; assumption|]. split; [constructor; [right; exists y; auto|exact F]|]. split; [exact Hn|]. split; [exact Hs'|]. split; [rewrite !in_app_iff; tauto|]. intros G. apply rg_token; [split; [exact (proj1 Hl)|right; exists ed; auto]|exact (Hgap G)]. }
      destruct Hy as [(ed' & c & w0 & z & _ & _ & _ & Ey & Hz & Hnt)|(Hl1 & ed' & w0 & p & q & _ & _ & _ & Etk & Hln & Es & Ep & Hbr)].
      * destruct (name_lexeme _ _ _ _ Hnt (proj1 Hl)) as [-> Hw0].
        assert (sigil_char c) as Hsc by (unfold sigil_char; destruct Hnt as [[-> _]|[[-> _]|[-> _]]]; auto).
        assert (c <> LF) as Hlf by (destruct Hsc as [->|[->| ->]]; discriminate). rewrite Ey.
        split; [destruct Hnt as [[-> ->]|[[-> ->]|[-> ->]]]; (eapply longest_rename; [|exact HL|exact Hw0|exact Hz]); auto|].
        split; [apply (sim_split lab pre bl c (w0 ++ r) c (z ++ _)); assumption|].
        intros [G|G]; [subst c; destruct Hsc as [G|[G|G]]; discriminate G|exact (tail_no_quote _ Hz G)].
      * subst t. assert (w = w0) as -> by (exact (lexeme_name _ _ _ w0 (proj1 Hl) eq_refl)). cbn [with_name].
        split; [eapply longest_reword; eassumption|]. split; [|apply label_no_quote; exact Hln].
        assert (exists d w1, w0 = d :: w1 /\ d <> LF) as (d & w1 & -> & Hd).
        { destruct Hl as [Hw _]. remember (TIdent w0) as tt eqn:Ett. destruct Hw; try discriminate Ett. eexists _, _. split; [reflexivity|]. apply name_start_cases in H0. unfold LF. lia. }
        rewrite Ey0. cbn [app]. apply sim_word; [exact Hl1|exact Hd|]. cbn [sp_start] in Ep.
        assert (pre ++ bl = p) as ->; [|exact Hbr]. rewrite Hpre, app_assoc in Es. destruct (app_prefix_cases _ _ _ _ Es) as [(v & E1 & _)|(v & E1 & _ & Hv)];
          apply (f_equal (@length _)) in E1 as E2; rewrite !app_length in E2; (assert (length v = 0) as E3 by lia); destruct v; try discriminate E3; rewrite app_nil_r in E1; congruence.
  - assert (i + (length bl + (length g + (length w + length r))) <= length src) as Hlen by (rewrite Hpre, !app_length; lia). pose proof (lexes_spans _ _ _ _ _ H) as Hsp.
    assert (lab = false) as Hlf by (destruct lab; [discriminate (Hlab eq_refl)|reflexivity]).
    assert (forall p, i <= p < i + length bl -> edit_at p = None) as Hbl.
    { intros p Hp. destruct (edit_at p) eqn:G; [|reflexivity]. destruct (Hout p ltac:(rewrite !app_length; lia) ltac:(congruence)) as (tok & sp & [E|Hin] & Hsp').
      - injection E as <- <-. cbn in Hsp'. lia.
      - pose proof (spans_in_each _ _ _ _ Hsp Hin). cbn in *. lia. }
    specialize (IH (pre ++ bl ++ g ++ w) ltac:(rewrite Hpre, <- !app_assoc; reflexivity) ltac:(rewrite !app_length; lia) ltac:(congruence)). specialize (IH ltac:(intros; apply Htok; right; assumption)).
    specialize (IH ltac:(intros p Hp G; destruct (Hout p ltac:(rewrite !app_length; lia) G) as (tok & sp & [E|Hin] & Hsp'); [injection E as <- <-; cbn in Hsp'; lia|eauto])).
    rewrite patch_app. rewrite (patch_kept bl i Hbl). pose proof (lexeme_nonempty _ _ _ (proj1 Hl)) as Hwne.
    destruct (Htok t _ (or_introl eq_refl)) as [Hu|(y & Hy)].
    + rewrite !patch_app. rewrite (patch_kept g (i + length bl)) by (intros p Hp; apply Hu; cbn; lia). rewrite (patch_kept w) by (intros p Hp; apply Hu; cbn; lia).
      destruct (IH (j + length bl + length g + length w)) as (toks' & n' & L' & F & Hn & Hsim & Hq & Hgap).
      exists ((t, mkSpan (j + length bl) (j + length bl + length g + length w)) :: toks'), (S n').
      split; [apply lexes_garbage; [exact Hb|exact Hg|exact Hgb| | |exact L']|].
      { intros g1 g2 E Hg2. rewrite app_assoc. rewrite Hlf in Hsim. eapply unlexable_similar; [destruct g2; [contradiction|discriminate]|rewrite <- app_assoc; eapply Hun; eassumption|exact Hsim|exact Hq]. }
      { eapply longest_similar; [exact Hl|]. apply (similar_cut _ (pre ++ bl ++ g)); [exact Hwne|]. rewrite <- !app_assoc. exact Hsim. }
      split; [constructor; [left; split; [exact Hu|reflexivity]|exact F]|]. split; [discriminate|]. split; [apply similar_app, similar_app, similar_app; rewrite <- !app_assoc; exact Hsim|].
      split; [rewrite !in_app_iff; tauto|discriminate].
    + pose proof Hy as Hy'. destruct Hy' as [Hy'|[G _]]; [|congruence].
      destruct Hy' as (ed & c & w0 & z & Hin & E & Et & Ey & Hz & Hnt). pose proof Hl as [Hw _]. destruct (name_lexeme _ _ _ _ Hnt Hw) as [-> Hw0].
      rewrite (app_assoc g), patch_app. rewrite (patch_edit ed (i + length bl) (g ++ c :: w0) Hin) by (rewrite ?app_length, ?Nat.add_assoc; (exact E || (destruct g; discriminate) || lia)). rewrite Et, Ey.
      rewrite app_length, Nat.add_assoc.
      destruct (IH (j + length bl + length (c :: z))) as (toks' & n' & L' & F & Hn & Hsim & Hq & Hgap).
      assert (sigil_char c) as Hsc by (unfold sigil_char; destruct Hnt as [[-> _]|[[-> _]|[-> _]]]; auto).
      exists ((with_name t (c :: z), mkSpan (j + length bl) (j + length bl + length (c :: z))) :: toks'), n'.
      split; [apply lexes_token; [exact Hb| |exact L']|].
      { assert (longest u t (c :: w0) (patch_from src edits (i + length bl + length g + length (c :: w0)) r)) as HL.
        { eapply longest_similar; [exact Hl|]. apply (similar_cut _ (pre ++ bl ++ g)); [exact Hwne|]. rewrite <- !app_assoc. exact Hsim. }
        destruct Hnt as [[-> ->]|[[-> ->]|[-> ->]]]; (eapply longest_rename; [|exact HL|exact Hw0|exact Hz]); auto. }
      split; [constructor; [right; exists y; split; [exact Hy|cbn; rewrite Ey; reflexivity]|exact F]|]. split; [discriminate|].
      assert (exists d g', g = d :: g' /\ d <> LF) as (d & g' & -> & Hd).
      { destruct g as [|d g']; [contradiction|]. exists d, g'. split; [reflexivity|]. eapply unlexable_head. apply (Hun [] (d :: g') eq_refl). discriminate. }
      split; [apply (sim_split lab pre bl d ((g' ++ c :: w0) ++ r) c (z ++ _)); assumption|].
      split; [|discriminate]. rewrite !in_app_iff. intros [G|[[G|G]|G]]; [auto|subst c; destruct Hsc as [G|[G|G]]; discriminate G|exfalso; exact (tail_no_quote _ Hz G)|auto].
Qed.
End Patch.

(** ** Renaming in a document *)
Section Renamed.
Variables (u : uclass) (src : text) (pr : parser_result) (ix : hir_index) (new : occurrence -> text -> Prop) (edits : list text_edit).
Hypothesis Hsrc : plain_document src.
Hypothesis Hix : indexed u src pr ix.
Notation l := (recorded (pr_stmts pr) (pr_tokens pr)).
Hypothesis Hrep : replaces src new l edits.
Variables (lab : bool) (errs : list (simple char)).
Hypothesis Ht : tokenize u src = Val (Some (pr_tokens pr), errs).
Hypothesis Hlab : lab = true -> errs = [].
Hypothesis Hnew : forall x y, In x l -> new x y -> sigil_name u (o_kind x) y \/ (lab = true /\ o_kind x = KLabel /\ label_name u y).

Lemma span_bounds x : In x l -> sp_start (o_span x) < sp_end (o_span x) /\ sp_end (o_span x) <= length src.
Proof.
  intros Hx. destruct (indexed_ok _ _ _ _ Hix) as (_ & _ & Hsp & Hsub & _). apply (recorded_token _ _ _ Hsp Hsub) in Hx.
  pose proof (spans_in_each _ _ _ _ Hsp Hx). unfold occ_token in *. cbn in *. lia.
Qed.
Lemma range_inj a b : sp_start a <= length src -> sp_end a <= length src -> sp_start b <= length src -> sp_end b <= length src ->
  lsp_range src a = lsp_range src b -> a = b.
Proof.
  intros A1 A2 B1 B2 E. assert (forall p q, p <= length src -> q <= length src -> lsp_position src p = lsp_position src q -> p = q) as H.
  { intros p q Hp Hq G. assert (p <= q) by (apply (leb_positions src Hsrc); [assumption..|rewrite G; apply (leb_positions src Hsrc); auto]).
    assert (q <= p) by (apply (leb_positions src Hsrc); [assumption..|rewrite G; apply (leb_positions src Hsrc); auto]). lia. }
  unfold lsp_range in E. injection E as E1 E2. apply H in E1; [|assumption..]. apply H in E2; [|assumption..]. destruct a, b. cbn in *. congruence.
Qed.
Lemma told_retold toks' : Forall2 (told u src edits lab) (pr_tokens pr) toks' -> retold new l (pr_tokens pr) toks'.
Proof.
  destruct Hrep as (Hed & Hsep & Hne). destruct (indexed_ok _ _ _ _ Hix) as (_ & _ & Hsp & Hsub & _).
  assert (forall toks toks'', (forall t, In t toks -> In t (pr_tokens pr)) -> Forall2 (told u src edits lab) toks toks'' -> retold new l toks toks'') as G.
  { intros toks toks'' Hin F. induction F as [|t t' r r' Htt F IH]; [constructor|]. constructor; [|apply IH; intros; apply Hin; right; assumption].
    assert (In t (pr_tokens pr)) as Htin by (apply Hin; left; reflexivity). pose proof (spans_in_each _ _ _ _ Hsp Htin) as Hb.
    split.
    - intros x y Hx Ex Hxy. assert (In (mkEdit (lsp_range src (o_span x)) y) edits) as Hie by (apply Hed; eauto).
      destruct Htt as [[Hu _]|(y' & Hch & E')]; [|destruct (changed_name _ _ _ _ _ _ _ Hch) as (ed & Hie' & E & Et & _)].
      + pose proof (edit_at_span src edits Hsrc Hsep _ (snd t) (sp_start (snd t)) Hie ltac:(rewrite <- Ex; reflexivity) ltac:(lia) ltac:(lia)) as E1.
        rewrite Hu in E1 by lia. discriminate.
      + rewrite E'. f_equal. rewrite <- Et. destruct (ForallOrdPairs_In Hsep _ _ Hie Hie') as [E1|[E1|E1]]; [rewrite <- E1; reflexivity|..];
          exfalso; cbn [te_range] in E1; rewrite E, Ex in E1;
          destruct (position_before src Hsrc (sp_start (snd t)) (sp_end (snd t)) ltac:(lia) ltac:(lia)) as [P|P]; unfold separate, pos_le in E1; cbn [lsp_range te_range r_start r_end] in E1; lia.
    - intros Hno. destruct Htt as [[_ E]|(y' & Hch & _)]; [exact E|]. destruct (changed_name _ _ _ _ _ _ _ Hch) as (ed & Hie & E & _). exfalso.
      apply Hed in Hie as (x & y & Hx & Hxy & ->). cbn [te_range] in E. destruct (span_bounds _ Hx). apply range_inj in E; [|lia..]. exact (Hno _ _ Hx E Hxy). }
  apply G. auto.
Qed.
Lemma token_cases tok sp : In (tok, sp) (pr_tokens pr) -> untouched src edits sp \/ exists y, changed u src edits lab tok sp y.
Proof.
  intros Hin. destruct Hrep as (Hed & Hsep & Hne). destruct (indexed_ok _ _ _ _ Hix) as (_ & _ & Hsp & Hsub & _). pose proof (spans_in_each _ _ _ _ Hsp Hin) as Hb. cbn in Hb.
  assert (forall p ed, sp_start sp <= p < sp_end sp -> find (in_edit (lsp_position src p)) edits = Some ed -> exists x y, In x l /\ new x y /\ ed = mkEdit (lsp_range src (o_span x)) y /\ occ_token x = (tok, sp)) as G.
  { intros p ed Hp E. apply find_some in E as [Hie E]. apply Hed in Hie as (x & y & Hx & Hxy & ->). exists x, y. split; [exact Hx|]. split; [exact Hxy|]. split; [reflexivity|].
    destruct (span_bounds _ Hx). apply (in_edit_iff src Hsrc p (o_span x)) in E; [|reflexivity|lia..].
    pose proof (recorded_token _ _ _ Hsp Hsub _ Hx) as Hx'. destruct (spans_in_disjoint _ _ _ _ _ Hsp Hx' Hin) as [D|D]; [exact D|]. unfold occ_token in D. cbn in D. lia. }
  destruct (find (in_edit (lsp_position src (sp_start sp))) edits) as [ed|] eqn:E.
  - right. destruct (G (sp_start sp) _ ltac:(lia) E) as (x & y & Hx & Hxy & -> & Eo). exists y. apply find_some in E as [Hie _].
    destruct (Hnew _ _ Hx Hxy) as [(c & z & Ec & Ey & Hz)|(Hl1 & Hk & Hln)].
    2: { right. split; [exact Hl1|]. exists (mkEdit (lsp_range src (o_span x)) y), (o_name x). unfold occ_token in Eo. rewrite Hk in Eo. injection Eo as <- <-.
      rewrite (Hlab Hl1) in Ht. assert (In x (tree_occs 0 (pr_stmts pr))) as Hxt.
      { rewrite (recorded_eq _ _ _ Hsp Hsub) in Hx. apply in_app_or in Hx as [Hx|Hx]; [exact Hx|]. apply filter_In in Hx as [Hx _]. apply in_flat_map in Hx as (t & _ & Hx).
        apply token_occs_use in Hx as [_ Hx]. contradiction. }
      destruct (label_in_front _ _ _ _ (proj1 Hix) Ht Hxt Hk) as (p & q & Ep & Hp & Hbr). exists p, q. auto 10. }
    left.
    assert (exists w, o_name x = c :: w) as (w & Ew).
    { pose proof (proj1 Hix) as Hp. apply parse_from_str_cases in Hp as [(errs2 & Et & Ep & _)|(toks' & errs2 & Et & Ep & _)]; [rewrite Ep in Hin; contradiction|].
      rewrite Ep in Hin. apply tokenize_lexes in Et. destruct (lexes_texts_errors _ _ _ _ _ Et [] eq_refl _ _ Hin) as (g & w & _ & Hw).
      pose proof (occ_token_name x) as Hn. rewrite Eo in Hn. cbn [fst] in Hn. pose proof (lexeme_name _ _ _ _ Hw Hn) as ->.
      unfold occ_token in Eo. remember (o_name x) as nm eqn:Enm. clear Enm. destruct (o_kind x); try discriminate Ec; injection Ec as <-; injection Eo as <- _;
        inversion Hw as [| | | | |? ? ? H1 H2 H3| | | |]; subst; try (eexists; reflexivity);
        exfalso; apply word_classify in H3; unfold classify_ident in H3; repeat match type of H3 with context [if ?b then _ else _] => destruct b end; discriminate H3. }
    exists (mkEdit (lsp_range src (o_span x)) y), c, w, z. split; [exact Hie|]. unfold occ_token in Eo. rewrite Ew in Eo.
    split; [destruct (o_kind x); injection Eo as _ <-; reflexivity|]. split; [reflexivity|]. split; [exact Ey|]. split; [exact Hz|].
    unfold name_token. destruct (o_kind x); try discriminate Ec; injection Ec as <-; injection Eo as <- _; auto.
  - left. intros p Hp. destruct (find (in_edit (lsp_position src p)) edits) as [ed|] eqn:E2; [|reflexivity].
    destruct (G _ _ Hp E2) as (x & y & Hx & Hxy & -> & Eo). apply find_some in E2 as [Hie _].
    assert (o_span x = sp) as Es by (unfold occ_token in Eo; destruct (o_kind x); congruence).
    rewrite (edit_at_span src edits Hsrc Hsep _ sp _ Hie) in E by (cbn [te_range]; rewrite ?Es; reflexivity || lia). discriminate.
Qed.
Lemma renamed_gaps : pr_tokens pr <> [] ->
  exists toks' errs', tokenize u (patched src edits) = Val (Some toks', errs') /\ retold new l (pr_tokens pr) toks' /\ (errs = [] -> errs' = []) /\
    (errs = [] -> regapped u src edits 0 0 src (patched src edits) (pr_tokens pr) toks').
Proof.
  intros Hne. destruct (indexed_ok _ _ _ _ Hix) as (_ & _ & Hsp & Hsub & _). destruct Hrep as (Hed & Hsep & _).
  destruct (patch_lexes u src edits Hsrc Hsep lab 0 src _ _ (tokenize_lexes _ _ _ _ Ht) [] eq_refl eq_refl) with (j := 0) as (toks' & n' & L & F & Hn & _ & _ & Hgap); [|exact token_cases|..].
  { intros G. rewrite (Hlab G). reflexivity. }
  { intros p Hp E. destruct (find (in_edit (lsp_position src p)) edits) as [ed|] eqn:E2; [|contradiction]. apply find_some in E2 as [Hie E2].
    apply Hed in Hie as (x & y & Hx & Hxy & ->). destruct (span_bounds _ Hx). apply (in_edit_iff src Hsrc p (o_span x)) in E2; [|reflexivity|lia..].
    pose proof (recorded_token _ _ _ Hsp Hsub _ Hx) as Hx'. destruct (occ_token x) as [tok sp] eqn:Eo.
    assert (o_span x = sp) as <- by (unfold occ_token in Eo; destruct (o_kind x); congruence). eauto. }
  destruct (lexes_tokenize u (patched src edits) toks' n' L) as (errs' & E & El).
  { right. intros ->. apply Hne. remember (pr_tokens pr) as k eqn:Ek. clear - F. inversion F. reflexivity. }
  exists toks', errs'. split; [exact E|]. split; [apply told_retold; exact F|]. split; [intros ->; cbn in Hn; specialize (Hn eq_refl); destruct errs'; [reflexivity|cbn in El; lia]|].
  intros G. apply Hgap. rewrite G. reflexivity.
Qed.
Lemma renamed_tokens : pr_tokens pr <> [] ->
  exists toks' errs', tokenize u (patched src edits) = Val (Some toks', errs') /\ retold new l (pr_tokens pr) toks' /\ (errs = [] -> errs' = []).
Proof. intros Hne. destruct (renamed_gaps Hne) as (toks' & errs' & H1 & H2 & H3 & _). eauto. Qed.
End Renamed.

Lemma opened_tokens u src pr : parse_from_str u src = Val pr -> pr_tokens pr <> [] -> exists errs, tokenize u src = Val (Some (pr_tokens pr), errs).
Proof. intros H Hne. apply parse_from_str_cases in H as [(errs & Et & Ep & _)|(toks' & errs & Et & Ep & _)]; [contradiction|]. rewrite Ep. eauto. Qed.
Lemma accepted_sigil u k new final : accepted u k new final -> k <> KLabel -> (forall b, final <> b ++ [ch ":"]) -> sigil_name u k final.
Proof.
  intros (c & body & _ & -> & Hall & _) Hk Hend. destruct (exists_last (l := c :: body) ltac:(discriminate)) as (b & z & Eb). rewrite Eb in *.
  assert (exists s, sigil k = [s]) as (s & Es) by (destruct k; try contradiction; eexists; reflexivity).
  exists s, (b ++ [z]). split; [exact Es|]. split; [rewrite Es; reflexivity|]. rewrite Forall_forall in Hall.
  assert (forall x, SpecRename.name_char u x -> SpecLex.name_char u x \/ x = ch ":") as Hc.
  { intros x [H|[H|H]]; [|left; right; right; exact H|right; exact H]. unfold is_alphanumeric in H. apply orb_true_iff in H. left. unfold SpecLex.name_char. tauto. }
  split; [intros x Hx; apply Hc, Hall, Hx|]. right. exists b, z. split; [reflexivity|]. destruct (Hc z) as [G|G]; [apply Hall; apply in_elt|exact G|].
  exfalso. apply (Hend (sigil k ++ b)). rewrite <- app_assoc, G. reflexivity.
Qed.

Definition is_label (k : symbol_kind) : bool := match k with KLabel => true | _ => false end.
Lemma is_label_true k : is_label k = true -> k = KLabel.
Proof. destruct k; discriminate || reflexivity. Qed.
Lemma accepted_label u new final : accepted u KLabel new final -> (forall b, final <> b ++ [ch ":"]) -> free_word final -> label_name u final.
Proof.
  intros (c & body & _ & E & Hall & Hnum) Hend [Hc Hr]. cbn [sigil app] in E. subst final. exists c, body. split; [reflexivity|].
  assert (forall x, SpecRename.name_char u x -> SpecLex.name_char u x \/ x = ch ":") as Hx.
  { intros x [H|[H|H]]; [|left; right; right; exact H|right; exact H]. unfold is_alphanumeric in H. apply orb_true_iff in H. left. unfold SpecLex.name_char. tauto. }
  rewrite Forall_forall in Hall. split.
  - destruct (Hx c (Hall c (or_introl eq_refl))) as [[G|[G|G]]|G]; [left; exact G|discriminate (Hnum G)|right; exact G|subst c; exfalso; exact (Hc body eq_refl)].
  - split; [|exact Hr]. split; [intros x Hi; apply Hx, Hall; right; exact Hi|]. destruct body as [|b0 body0]; [left; reflexivity|right].
    destruct (exists_last (l := b0 :: body0) ltac:(discriminate)) as (b & z & Eb). exists b, z. split; [exact Eb|]. rewrite Eb in *.
    destruct (Hx z) as [G|G]; [apply Hall; right; apply in_elt|exact G|]. exfalso. apply (Hend (c :: b)). rewrite G. reflexivity.
Qed.

(** ** The two kinds of renames *)
Lemma rename_tokens e s uri src d p : plain_document src -> opened e s uri src d -> p <= length src ->
  exists pr, parse_from_str (e_u e) src = Val pr /\ pr_stmts pr = doc_stmts d /\
  ((forall o, In o (recorded (pr_stmts pr) (pr_tokens pr)) -> ~ covers (o_span o) p) \/
   exists o errs, In o (recorded (pr_stmts pr) (pr_tokens pr)) /\ covers (o_span o) p /\ tokenize (e_u e) src = Val (Some (pr_tokens pr), errs) /\
     (forall new final, accepted (e_u e) (o_kind o) new final -> (forall b, final <> b ++ [ch ":"]) -> (o_kind o = KLabel -> errs = [] /\ free_word final) ->
       exists edits toks' errs', rename e s uri (lsp_position src p) new = Val (Reply edits) /\ tokenize (e_u e) (patched src edits) = Val (Some toks', errs') /\
         retold (renamed o final) (recorded (pr_stmts pr) (pr_tokens pr)) (pr_tokens pr) toks' /\ (errs = [] -> errs' = []))).
Proof.
  intros Hsrc Ho Hp. pose proof (accepted_plain _ _ _ _ _ _ Hsrc Ho Hp) as (pr & Hpr & Hst & H). exists pr. split; [exact Hpr|]. split; [exact Hst|].
  destruct H as [[H _]|(o & Hin & Hc & Hacc & _)]; [left; exact H|]. right.
  destruct (opened_indexed _ _ _ _ _ Ho) as (pr' & Hix & _). assert (pr' = pr) as -> by (destruct Hix as [G _]; congruence).
  destruct (indexed_ok _ _ _ _ Hix) as (_ & _ & Hsp & Hsub & _). pose proof (recorded_token _ _ _ Hsp Hsub _ Hin) as Ht.
  assert (pr_tokens pr <> []) as Hne by (intros G; rewrite G in Ht; contradiction).
  destruct (opened_tokens _ _ _ Hpr Hne) as (errs & Et). exists o, errs. split; [exact Hin|]. split; [exact Hc|]. split; [exact Et|].
  intros new final Ha Hend Hlb. destruct (Hacc _ _ Ha) as (edits & Er & Hrep).
  destruct (renamed_tokens (e_u e) src pr (doc_index d) (renamed o final) edits Hsrc Hix Hrep (is_label (o_kind o)) errs Et) as (toks' & errs' & E1 & E2 & E3); [| |exact Hne|].
  - intros G. apply Hlb, is_label_true, G.
  - intros x y Hx [(Hkx & _) ->]. destruct (is_label (o_kind o)) eqn:Ek.
    + apply is_label_true in Ek. right. split; [reflexivity|]. split; [congruence|]. eapply accepted_label; [rewrite <- Ek; exact Ha|exact Hend|apply Hlb, Ek].
    + left. rewrite <- Hkx. eapply accepted_sigil; [exact Ha| |exact Hend]. intros G. rewrite G in Ek. discriminate.
  - exists edits, toks', errs'. auto.
Qed.
Lemma moves_sigil u n0 z k nm y c w : sigil k = [c] -> nm = c :: w -> name_tail u w -> moves n0 z nm y -> sigil_name u k y.
Proof.
  intros Es -> [Hw _] (p & ds & n & ds' & (E & Hds & Hdd & _ & _) & _ & _ & (Hds' & Hd' & _) & ->).
  destruct p as [|c' p].
  - exfalso. cbn in E. subst ds. specialize (Hdd c (or_introl eq_refl)). destruct k; try discriminate Es; injection Es as <-; lia.
  - injection E as <- E. exists c, (p ++ ds'). split; [exact Es|]. split; [reflexivity|].
    assert (forall x, (48 <= x <= 57)%N -> SpecLex.name_char u x) as Hdig.
    { intros x Hx. right. left. unfold is_numeric, is_ascii, ascii_digit, in_range. assert ((x <? 128)%N = true) as -> by (apply N.ltb_lt; lia).
      apply andb_true_iff. split; apply N.leb_le; lia. }
    split.
    + intros x Hx. apply in_app_or in Hx as [Hx|Hx]; [apply Hw; rewrite E; apply in_or_app; left; exact Hx|left; apply Hdig, Hd', Hx].
    + right. destruct (exists_last Hds') as (b & q & Eb). exists (p ++ b), q. split; [rewrite Eb, app_assoc; reflexivity|]. apply Hdig, Hd'. rewrite Eb. apply in_elt.
Qed.
Lemma occ_sigil u src pr ix x : indexed u src pr ix -> In x (recorded (pr_stmts pr) (pr_tokens pr)) -> o_kind x <> KLabel ->
  exists c w, sigil (o_kind x) = [c] /\ o_name x = c :: w /\ name_tail u w.
Proof.
  intros Hix Hx Hk. destruct (indexed_ok _ _ _ _ Hix) as (_ & _ & Hsp & Hsub & _). pose proof (recorded_token _ _ _ Hsp Hsub _ Hx) as Hin.
  pose proof (proj1 Hix) as Hp. apply parse_from_str_cases in Hp as [(errs & Et & Ep & _)|(toks' & errs & Et & Ep & _)]; [rewrite Ep in Hin; contradiction|].
  rewrite Ep in Hin. apply tokenize_lexes in Et. destruct (occ_token x) as [tok sp] eqn:Eo. destruct (lexes_texts_errors _ _ _ _ _ Et [] eq_refl _ _ Hin) as (g & w & _ & Hw).
  pose proof (occ_token_name x) as Hn. rewrite Eo in Hn. cbn [fst] in Hn. pose proof (lexeme_name _ _ _ _ Hw Hn) as ->.
  unfold occ_token in Eo. remember (o_name x) as nm eqn:Enm. clear Enm. destruct (o_kind x); try contradiction; injection Eo as <- _;
    inversion Hw as [| | | | |? ? ? H1 H2 H3| | | |]; subst; try (eexists _, _; split; [reflexivity|]; split; [reflexivity|assumption]);
    exfalso; apply word_classify in H3; unfold classify_ident in H3; repeat match type of H3 with context [if ?b then _ else _] => destruct b end; discriminate H3.
Qed.
Lemma occ_label u src pr ix x : indexed u src pr ix -> In x (recorded (pr_stmts pr) (pr_tokens pr)) -> o_kind x = KLabel ->
  exists c w, o_name x = c :: w /\ name_start u c /\ name_tail u w.
Proof.
  intros Hix Hx Hk. destruct (indexed_ok _ _ _ _ Hix) as (_ & _ & Hsp & Hsub & _). pose proof (recorded_token _ _ _ Hsp Hsub _ Hx) as Hin.
  pose proof (proj1 Hix) as Hp. apply parse_from_str_cases in Hp as [(errs & Et & Ep & _)|(toks' & errs & Et & Ep & _)]; [rewrite Ep in Hin; contradiction|].
  rewrite Ep in Hin. apply tokenize_lexes in Et. destruct (occ_token x) as [tok sp] eqn:Eo. destruct (lexes_texts_errors _ _ _ _ _ Et [] eq_refl _ _ Hin) as (g & w & _ & Hw).
  pose proof (occ_token_name x) as Hn. rewrite Eo in Hn. cbn [fst] in Hn. pose proof (lexeme_name _ _ _ _ Hw Hn) as ->.
  unfold occ_token in Eo. rewrite Hk in Eo. injection Eo as <- _. remember (o_name x) as nm. inversion Hw; subst; eauto.
Qed.
Lemma moves_label u n0 z nm y c w : nm = c :: w -> name_start u c -> name_tail u w -> moves n0 z nm y -> free_word y -> label_name u y.
Proof.
  intros -> Hc [Hw _] (p & ds & n & ds' & (E & Hds & Hdd & _ & _) & _ & _ & (Hds' & Hd' & _) & ->) [_ Hr].
  destruct p as [|c' p].
  - exfalso. cbn in E. subst ds. specialize (Hdd c (or_introl eq_refl)). apply name_start_cases in Hc. lia.
  - injection E as <- E. exists c, (p ++ ds'). split; [reflexivity|]. split; [exact Hc|]. split; [|exact Hr].
    assert (forall x, (48 <= x <= 57)%N -> SpecLex.name_char u x) as Hdig.
    { intros x Hx. right. left. unfold is_numeric, is_ascii, ascii_digit, in_range. assert ((x <? 128)%N = true) as -> by (apply N.ltb_lt; lia).
      apply andb_true_iff. split; apply N.leb_le; lia. }
    split.
    + intros x Hx. apply in_app_or in Hx as [Hx|Hx]; [apply Hw; rewrite E; apply in_or_app; left; exact Hx|left; apply Hdig, Hd', Hx].
    + right. destruct (exists_last Hds') as (b & q & Eb). exists (p ++ b), q. split; [rewrite Eb, app_assoc; reflexivity|]. apply Hdig, Hd'. rewrite Eb. apply in_elt.
Qed.
Lemma shift_tokens e s uri src d p : plain_document src -> visits_all (e_ord e) -> opened e s uri src d -> p <= length src ->
  exists pr, parse_from_str (e_u e) src = Val pr /\ pr_stmts pr = doc_stmts d /\
  ((forall o, In o (recorded (pr_stmts pr) (pr_tokens pr)) -> ~ covers (o_span o) p) \/
   exists o errs, In o (recorded (pr_stmts pr) (pr_tokens pr)) /\ covers (o_span o) p /\ tokenize (e_u e) src = Val (Some (pr_tokens pr), errs) /\
     (forall new z n, asks_shift new z -> has_number (o_name o) n -> no_overflow (recorded (pr_stmts pr) (pr_tokens pr)) o n z ->
       (o_kind o = KLabel -> errs = [] /\ forall x y, In x (recorded (pr_stmts pr) (pr_tokens pr)) -> moved o n z x y -> free_word y) ->
       exists edits toks' errs', rename e s uri (lsp_position src p) new = Val (Reply edits) /\ tokenize (e_u e) (patched src edits) = Val (Some toks', errs') /\
         retold (moved o n z) (recorded (pr_stmts pr) (pr_tokens pr)) (pr_tokens pr) toks' /\ (errs = [] -> errs' = []))).
Proof.
  intros Hsrc Hv Ho Hp. pose proof (shift_plain _ _ _ _ _ _ Hsrc Hv Ho Hp) as (pr & Hpr & Hst & H). exists pr. split; [exact Hpr|]. split; [exact Hst|].
  destruct H as [H|(o & Hin & Hc & Hacc & _)]; [left; exact H|]. right.
  destruct (opened_indexed _ _ _ _ _ Ho) as (pr' & Hix & _). assert (pr' = pr) as -> by (destruct Hix as [G _]; congruence).
  destruct (indexed_ok _ _ _ _ Hix) as (_ & _ & Hsp & Hsub & _). pose proof (recorded_token _ _ _ Hsp Hsub _ Hin) as Ht.
  assert (pr_tokens pr <> []) as Hne by (intros G; rewrite G in Ht; contradiction).
  destruct (opened_tokens _ _ _ Hpr Hne) as (errs & Et). exists o, errs. split; [exact Hin|]. split; [exact Hc|]. split; [exact Et|].
  intros new z n Ha Hn Hov Hlb. destruct (Hacc _ _ _ Ha Hn Hov) as (edits & Er & Hrep).
  destruct (renamed_tokens (e_u e) src pr (doc_index d) (moved o n z) edits Hsrc Hix Hrep (is_label (o_kind o)) errs Et) as (toks' & errs' & E1 & E2 & E3); [| |exact Hne|].
  - intros G. apply Hlb, is_label_true, G.
  - intros x y Hx Hxm. pose proof Hxm as [(Hkx & _) Hm]. destruct (is_label (o_kind o)) eqn:Ek.
    { apply is_label_true in Ek. right. split; [reflexivity|]. split; [congruence|]. destruct (Hlb Ek) as [_ Hf]. destruct (occ_label _ _ _ _ _ Hix Hx ltac:(congruence)) as (c & w & H1 & H2 & H3).
      eapply moves_label; [exact H1|exact H2|exact H3|exact Hm|]. eapply Hf; eassumption. }
    left. assert (o_kind o <> KLabel) as Hk by (intros G; rewrite G in Ek; discriminate). destruct (occ_sigil _ _ _ _ _ Hix Hx ltac:(congruence)) as (c & w & H1 & H2 & H3). eapply moves_sigil; eassumption.
  - exists edits, toks', errs'. auto.
Qed.
