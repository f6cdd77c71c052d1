(** What stands in front of the labels of a syntax tree. *)
From Verif Require Import Text Rope Chumsky Tokenizer Parser Index SpecText SpecLex SpecParse SpecIndex
  PText PLexSpec PLexProps PTokens PParse PParseProps PIndex PIndexDoc PIndexText PDiagDoc.

Definition opens_label (t : token) : Prop :=
  t = TNewline \/ (exists c, In c (str ",=[") /\ t = TPunct c) \/ exists w, t = TIdent w.
Definition preceded (x : stoken) (seg : list stoken) : Prop :=
  exists l1 a l2, seg = l1 ++ a :: x :: l2 /\ opens_label (fst a).
Lemma preceded_l x a b : preceded x a -> preceded x (a ++ b).
Proof. intros (l1 & y & l2 & -> & H). exists l1, y, (l2 ++ b). split; [rewrite <- app_assoc; reflexivity|exact H]. Qed.
Lemma preceded_r x a b : preceded x b -> preceded x (a ++ b).
Proof. intros (l1 & y & l2 & -> & H). exists (a ++ l1), y, l2. split; [rewrite <- app_assoc; reflexivity|exact H]. Qed.
Lemma preceded_cons x a b : preceded x b -> preceded x (a :: b).
Proof. apply (preceded_r x [a]). Qed.
Lemma preceded_here x a b : opens_label (fst a) -> preceded x (a :: x :: b).
Proof. intros H. exists [], a, b. auto. Qed.
Lemma comma_sep_in {A} (item : A -> list stoken -> Prop) l seg : comma_sep item l seg -> forall a, In a l ->
  exists x p q, item a x /\ seg = p ++ x ++ q.
Proof.
  induction 1 as [|b x Hx|b x sp c l xs Hx H IH]; intros a Ha.
  - contradiction.
  - destruct Ha as [<-|[]]. exists x, [], []. rewrite app_nil_r. auto.
  - destruct Ha as [<-|Ha]; [exists x, [], (tp (ch ",") sp :: xs); auto|]. destruct (IH a Ha) as (y & p & q & Hy & ->).
    exists y, (x ++ tp (ch ",") sp :: p), q. split; [exact Hy|]. rewrite <- app_assoc. reflexivity.
Qed.
Lemma opens_punct c sp : In c (str ",=[") -> opens_label (fst (tp c sp)).
Proof. intros H. right. left. exists c. auto. Qed.
Lemma opens_word w : opens_label (fst (tident w)).
Proof. right. right. eexists. reflexivity. Qed.
Ltac opens := first [apply opens_punct; cbn; tauto | apply opens_word].
Lemma body_labels f m refs seg : body_seg f m refs seg -> forall t, In t refs -> preceded (tident t) seg.
Proof.
  intros H. destruct H as [m t Hm|m ty v c1 t1 c2 t2 Hm|m soup c1 k1 e1 t1 c2 k2 e2 t2 Hs|m soup c1 k1 e1 d c2 cases cs Hm Hs Hc|m es seg Hm Hc|m soup Hs Hc]; intros x Hx.
  - destruct Hx as [<-|[]]. apply preceded_here. opens.
  - destruct Hx as [<-|[<-|[]]].
    + do 3 apply preceded_cons. apply preceded_here. opens.
    + do 5 apply preceded_cons. apply preceded_here. opens.
  - apply preceded_cons, preceded_r. destruct Hx as [<-|[<-|[]]].
    + do 2 apply preceded_cons. apply preceded_here. opens.
    + do 6 apply preceded_cons. apply preceded_here. opens.
  - apply preceded_cons, preceded_r. destruct Hx as [<-|Hx].
    + apply preceded_l. do 2 apply preceded_cons. apply preceded_here. opens.
    + apply preceded_r. destruct (comma_sep_in _ _ _ Hc _ Hx) as (y & p & q & (ty & v & k & e & ->) & ->). apply preceded_r, preceded_l.
      do 3 apply preceded_cons. apply preceded_here. opens.
  - apply preceded_cons. destruct (comma_sep_in _ _ _ Hc _ Hx) as (y & p & q & (o & comma & v & c & _ & ->) & ->). apply preceded_r, preceded_l.
    apply preceded_here. opens.
  - contradiction.
Qed.

Definition ends_line (seg : list stoken) : Prop := exists p a, seg = p ++ [a] /\ fst a = TNewline.
Lemma newlines_end l : newlines l -> l <> [] -> ends_line l.
Proof. intros H Hne. destruct (exists_last Hne) as (p & a & ->). exists p, a. split; [reflexivity|]. apply Forall_app in H as [_ H]. inversion H. assumption. Qed.
Lemma ends_line_app a b : ends_line b -> ends_line (a ++ b).
Proof. intros (p & x & -> & H). exists (a ++ p), x. rewrite app_assoc. auto. Qed.
Lemma instrs_labels ok l n seg : instrs_seg ok l n seg ->
  (forall i t, In i l -> In t (i_refs i) -> preceded (tident t) seg) /\ (seg = [] \/ ends_line seg).
Proof.
  induction 1 as [|i l n m pre seg post rest Hpre (f & tgt & body & Ht & Hb & -> & _) Hpost Hne H [IH1 IH2]].
  - split; [intros i t []|auto].
  - split.
    + intros j t [<-|Hj] Hr.
      * apply preceded_r, preceded_l, preceded_r, preceded_l. eapply body_labels; eassumption.
      * do 3 apply preceded_r. eapply IH1; eassumption.
    + right. do 2 apply ends_line_app. destruct IH2 as [->|IH2]; [rewrite app_nil_r; apply newlines_end; assumption|apply ends_line_app; exact IH2].
Qed.
Definition block_label_tokens (b : basic_block) : list stoken :=
  opt_seg tident (bb_label b) ++ flat_map (fun i => map tident (i_refs i)) (bb_instrs b).
Lemma in_block_labels x b : In x (block_label_tokens b) -> opt_seg tident (bb_label b) = [x] \/ exists i t, In i (bb_instrs b) /\ In t (i_refs i) /\ x = tident t.
Proof.
  unfold block_label_tokens. intros H. apply in_app_or in H as [H|H].
  - destruct (bb_label b); cbn in *; [destruct H as [<-|[]]; auto|contradiction].
  - right. apply in_flat_map in H as (i & Hi & H). apply in_map_iff in H as (t & <- & Ht). eauto.
Qed.
Lemma blocks_labels ok bbs n seg : blocks_seg ok bbs n seg -> forall pre, ends_line pre -> forall x, In x (flat_map block_label_tokens bbs) -> preceded x (pre ++ seg).
Proof.
  induction 1 as [|b l n m seg rest (label & comma & nls & r & E1 & _ & Hn & Hne & Hi & -> & _) H IH]; intros pre Hp x Hx; [contradiction|].
  cbn [flat_map] in Hx. apply in_app_or in Hx as [Hx|Hx].
  - apply in_block_labels in Hx as [Hx|(i & t & Hi' & Ht & ->)].
    + rewrite E1 in Hx. injection Hx as <-. destruct Hp as (p & a & -> & Ha). rewrite <- app_assoc. apply preceded_r. apply preceded_here. left. exact Ha.
    + apply preceded_r. apply preceded_l. do 2 apply preceded_cons. apply preceded_r. destruct (instrs_labels _ _ _ _ Hi) as [G _]. eapply G; eassumption.
  - rewrite app_assoc. apply IH; [|exact Hx]. apply ends_line_app. apply (ends_line_app [tident label; tp (ch ":") comma]).
    destruct (instrs_labels _ _ _ _ Hi) as [_ [->|G]]; [rewrite app_nil_r; apply newlines_end; assumption|apply ends_line_app; exact G].
Qed.
Lemma fbody_labels ok b n seg : fbody_seg ok b n seg -> forall x, In x (flat_map block_label_tokens (fb_blocks b)) -> preceded x seg.
Proof.
  intros (nls & o & n1 & seg1 & bbs & n2 & seg2 & Hn & Hne & Ho & Hb & E & _ & ->) x Hx. apply preceded_cons. rewrite !app_assoc. apply preceded_l.
  assert (ends_line (nls ++ seg1)) as He.
  { destruct o as [b0|]; cbn [first_block_seg] in Ho.
    - destruct Ho as (_ & _ & Hi & _). destruct (instrs_labels _ _ _ _ Hi) as [_ [->|G]]; [rewrite app_nil_r; apply newlines_end; assumption|apply ends_line_app; exact G].
    - destruct Ho as [-> _]. rewrite app_nil_r. apply newlines_end; assumption. }
  rewrite E in Hx. assert (In x (flat_map block_label_tokens bbs) \/ exists b0, o = Some b0 /\ In x (block_label_tokens b0)) as [G|(b0 & -> & G)].
  { destruct o; [cbn [flat_map] in Hx; apply in_app_or in Hx as [Hx|Hx]; eauto|auto]. }
  - eapply blocks_labels; eassumption.
  - cbn [first_block_seg] in Ho. destruct Ho as (E0 & _ & Hi & _). apply preceded_l, preceded_r. apply in_block_labels in G as [G|(i & t & Hi' & Ht & ->)].
    + rewrite E0 in G. discriminate.
    + destruct (instrs_labels _ _ _ _ Hi) as [G _]. eapply G; eassumption.
Qed.
Definition stmt_label_tokens (s : statement) : list stoken :=
  match s with SFuncDef _ _ body => flat_map block_label_tokens (fb_blocks body) | _ => [] end.
Lemma stmt_labels ok s n seg rest : stmt_seg ok s n seg rest -> forall x, In x (stmt_label_tokens s) -> preceded x seg.
Proof.
  intros H x Hx. destruct H as [| |kw sig sseg body n bseg e rest Hs Hb He| |]; try contradiction.
  apply preceded_cons, preceded_r, preceded_l. eapply fbody_labels; eassumption.
Qed.
Lemma module_labels ok ss n seg : module_seg ok ss n seg -> forall x, In x (flat_map stmt_label_tokens ss) -> preceded x seg.
Proof.
  induction 1 as [|s n ss m pre seg post rest _ _ Hs H IH|g k s n ss m pre seg post rest _ _ _ Hs H IH]; intros x Hx; cbn [flat_map] in Hx; [contradiction|..];
    apply in_app_or in Hx as [Hx|Hx].
  - apply preceded_r, preceded_l. eapply stmt_labels; eassumption.
  - do 3 apply preceded_r. apply IH, Hx.
  - do 2 apply preceded_r. apply preceded_l. eapply stmt_labels; eassumption.
  - do 4 apply preceded_r. apply IH, Hx.
Qed.
Lemma tree_labels ss : forall id o, In o (tree_occs id ss) -> o_kind o = KLabel -> In (occ_token o) (flat_map stmt_label_tokens ss).
Proof.
  induction ss as [|s ss IH]; intros id o Ho Hk; cbn [tree_occs] in Ho; [contradiction|]. cbn [flat_map]. apply in_or_app.
  apply in_app_or in Ho as [Ho|Ho]; [|right; eapply IH; eassumption]. left.
  destruct s; cbn [stmt_occs] in Ho; try (destruct Ho as [<-|[]]; discriminate Hk); [|contradiction].
  destruct Ho as [<-|Ho]; [discriminate Hk|]. apply in_app_or in Ho as [Ho|Ho]; [unfold param_occs in Ho; apply in_map_iff in Ho as (a & <- & _); discriminate Hk|].
  cbn [stmt_label_tokens]. apply in_flat_map in Ho as (b & Hb & Ho). apply in_flat_map. exists b. split; [exact Hb|]. unfold block_label_tokens. apply in_or_app.
  unfold block_occs in Ho. apply in_app_or in Ho as [Ho|Ho].
  - left. destruct (bb_label b) as [l|]; [|contradiction]. destruct Ho as [<-|[]]. left. reflexivity.
  - right. apply in_flat_map in Ho as (i & Hi & Ho). apply in_flat_map. exists i. split; [exact Hi|]. unfold instr_occs in Ho. apply in_app_or in Ho as [Ho|Ho].
    + destruct (i_target i); [|contradiction]. destruct Ho as [<-|[]]. discriminate Hk.
    + apply in_map_iff in Ho as (r & <- & Hr). apply (in_map tident) in Hr. exact Hr.
Qed.

(** comments end their lines, so they do not stand in front of labels *)
Lemma comment_before_newline u i t toks n : lexes u i t toks n -> n = 0 -> forall l1 a b l2, toks = l1 ++ a :: b :: l2 -> fst a = TComment -> fst b = TNewline.
Proof.
  induction 1 as [i bl Hb|i bl t w r toks n Hb Hl H IH|i bl g t w r toks n Hb Hg Hgb Hun Hl H IH]; intros Hn l1 a b l2 E Ha; [destruct l1; discriminate E| |discriminate Hn].
  destruct l1 as [|x l1]; [|injection E as _ E; eapply IH; eassumption]. injection E as <- E. cbn [fst] in Ha. subst t toks.
  subst n. inversion H as [|i' bl' t' w' r' toks' n' Hb' Hl' H' E1 E2 E3 E4|]; subst. cbn [fst].
  destruct Hl as [Hw Hl], Hl' as [Hw' _]. assert (forall c q, bl' ++ w' ++ r' = c :: q -> c = LF) as Hlf.
  { intros c q Eq. destruct (N.eq_dec c LF) as [G|G]; [exact G|exfalso]. assert (exists body, w = ch "#" :: body /\ ~ In LF body) as (body & -> & Hbody).
    { remember TComment as tt eqn:Et. destruct Hw as [body Hbody|x0 H0|x0 H0|body Hbody|c0 H0|c0 w0 t0 H1 H2 H3|x0 H0|x0 H0|x0 H0|x0 H0]; try discriminate Et; [eauto|].
      exfalso. apply word_classify in H3. subst t0. unfold classify_ident in H3. repeat match type of H3 with context [if ?b then _ else _] => destruct b end; discriminate H3. }
    specialize (Hl TComment (ch "#" :: body ++ [c]) q). cbn [length app] in Hl. rewrite app_length in Hl. cbn [length] in Hl.
    assert (S (length body + 1) <= S (length body)); [|lia]. apply Hl; [rewrite Eq, <- app_assoc; reflexivity|]. apply lx_comment. intros Hin.
    apply in_app_or in Hin as [Hin|[Hin|[]]]; [exact (Hbody Hin)|congruence]. }
  destruct bl' as [|c bl']; [|exfalso; pose proof (Hlf _ _ eq_refl) as G0; apply Forall_inv in Hb'; rewrite G0 in Hb'; destruct Hb' as [G|G]; discriminate G].
  cbn [app] in Hlf. destruct w' as [|c w']; [exfalso; exact (lexeme_nonempty _ _ _ Hw' eq_refl)|]. specialize (Hlf _ _ eq_refl). subst c.
  clear - Hw'. remember (LF :: w') as w eqn:E. destruct Hw' as [body Hbody|x0 H0|x0 H0|body Hbody|c0 H0|c0 w0 t0 H1 H2 H3|x0 H0|x0 H0|x0 H0|x0 H0]; try discriminate E; try reflexivity; exfalso.
  - destruct H0 as [H0|(d & r & H0 & _ & Hall)]; [rewrite H0 in E; discriminate E|]. rewrite E in Hall. specialize (Hall LF (or_introl eq_refl)). unfold dec_digit, LF in Hall. lia.
  - injection E as E _. rewrite E in H0. cbn in H0. unfold LF in H0. intuition discriminate.
  - injection E as E _. rewrite E in H1. assert (SpecLex.name_char u LF) as G by (destruct H1 as [H1|H1]; [left|right; right]; exact H1). apply name_char_cases in G. unfold LF in G. lia.
Qed.
Lemma preceded_comments u t toks x : lexes u 0 t toks 0 -> preceded x (without_comments toks) -> fst x <> TNewline -> fst x <> TComment -> preceded x toks.
Proof.
  intros HL (l1 & a & l2 & E & Ha) Hx Hx'.
  assert (forall p toks, lexes u 0 t (p ++ toks) 0 -> forall l1, without_comments toks = l1 ++ a :: x :: l2 -> preceded x toks) as G.
  { clear E HL. intros p q. revert p. induction q as [|y q IH]; intros p HL k E; [destruct k; discriminate E|].
    assert (lexes u 0 t ((p ++ [y]) ++ q) 0) as HL' by (rewrite <- app_assoc; exact HL). specialize (IH _ HL').
    unfold without_comments in E. cbn [filter] in E. destruct (match fst y with TComment => false | _ => true end) eqn:Ey.
    - destruct k as [|z k]; [|injection E as _ E; apply preceded_cons; eapply IH; exact E]. injection E as -> E.
      destruct q as [|z q]; [discriminate E|]. unfold without_comments in E. cbn [filter] in E. destruct (match fst z with TComment => false | _ => true end) eqn:Ez.
      + injection E as -> E. apply preceded_here. exact Ha.
      + (* a comment in between *)
        assert (fst z = TComment) as Hz by (destruct (fst z); discriminate Ez || reflexivity).
        destruct q as [|v q]; [discriminate E|]. assert (fst v = TNewline) as Hv.
        { eapply (comment_before_newline _ _ _ _ _ HL eq_refl (p ++ [a]) z v q); [rewrite <- app_assoc; reflexivity|exact Hz]. }
        cbn [filter] in E. rewrite Hv in E. injection E as -> E. contradiction.
    - apply preceded_cons. eapply IH. exact E. }
  apply (G [] toks HL l1 E).
Qed.

(** ** The character in front of a label *)
Definition breaks (c : char) : Prop := In c [SPACE; TAB; LF; ch ","; ch "="; ch "["].
Definition at_break (pre : text) : Prop := exists q b, pre = q ++ [b] /\ breaks b.
Lemma word_glue u w w' t t' r : longest u t w (w' ++ r) -> (exists n, t = TIdent n) -> lexeme u t' w' -> (exists n, t' = TIdent n) -> False.
Proof.
  intros [Hw Hl] (n & ->) Hw' (n' & ->).
  assert (forall n w, lexeme u (TIdent n) w -> exists c y, w = c :: y /\ name_start u c /\ name_tail u y) as Hid.
  { clear. intros n w H. remember (TIdent n) as t eqn:E. destruct H; try discriminate E. eauto. }
  apply Hid in Hw as (c & y & -> & Hc & Hy). apply Hid in Hw' as (c' & y' & -> & Hc' & Hy').
  assert (SpecLex.name_char u c') as Hn by (destruct Hc' as [G|G]; [left|right; right]; exact G).
  assert (name_tail u (y ++ c' :: y')) as Ht.
  { destruct Hy as [Y1 _], Hy' as [Z1 Z2]. split.
    - intros x Hx. apply in_app_or in Hx as [Hx|[<-|Hx]]; auto.
    - right. destruct Z2 as [->|(z & k & -> & Hk)]; [exists y, c'; auto|]. exists (y ++ c' :: z), k. rewrite <- app_assoc. auto. }
  pose proof (classify_word ((c :: y) ++ c' :: y')) as Hwt.
  specialize (Hl (classify_ident ((c :: y) ++ c' :: y')) ((c :: y) ++ c' :: y') r ltac:(rewrite <- app_assoc; reflexivity)).
  rewrite app_length in Hl. cbn [length] in Hl. specialize (Hl (lx_word u c (y ++ c' :: y') _ Hc Ht Hwt)). lia.
Qed.
Lemma opens_break u i t toks n : lexes u i t toks n -> n = 0 -> forall pre, i = length pre -> forall l1 a x l2, toks = l1 ++ a :: x :: l2 -> opens_label (fst a) -> (exists w, fst x = TIdent w) ->
  exists p q, pre ++ t = p ++ q /\ length p = sp_start (snd x) /\ at_break p.
Proof.
  induction 1 as [i bl Hb|i bl t w r toks n Hb Hl H IH|i bl g t w r toks n Hb Hg Hgb Hun Hl H IH]; intros Hn pre Hi l1 a x l2 E Ha Hx; [destruct l1; discriminate E| |discriminate Hn].
  destruct l1 as [|y l1].
  - injection E as <- E. cbn [fst] in Ha. subst toks n. inversion H as [|i' bl' t' w' r' toks' n' Hb' Hl' H' E1 E2 E3 E4|]; subst. cbn [fst snd sp_start] in *.
    exists (pre ++ bl ++ w ++ bl'), (w' ++ r'). split; [rewrite <- !app_assoc; reflexivity|]. split; [rewrite !app_length; lia|].
    destruct bl' as [|c bl2].
    + assert (at_break w) as (q & b & -> & Hbr).
      { cbn [app] in Hl. destruct Ha as [->|[(c & Hc & ->)|Ha]].
        - destruct Hl as [Hw _]. remember TNewline as tt eqn:Et. destruct Hw as [body Hbody|x0 H0|x0 H0|body Hbody|c0 H0|c0 w0 t0 H1 H2 H3|x0 H0|x0 H0|x0 H0|x0 H0]; try discriminate Et.
          + exfalso. apply word_classify in H3. subst t0. unfold classify_ident in H3. repeat match type of H3 with context [if ?b then _ else _] => destruct b end; discriminate H3.
          + destruct H0 as [->| ->]; [exists [], LF|exists [CR], LF]; (split; [reflexivity|cbn; tauto]).
        - destruct Hl as [Hw _]. remember (TPunct c) as tt eqn:Et. destruct Hw as [body Hbody|x0 H0|x0 H0|body Hbody|c0 H0|c0 w0 t0 H1 H2 H3|x0 H0|x0 H0|x0 H0|x0 H0]; try discriminate Et.
          + injection Et as ->. exists [], c. split; [reflexivity|]. cbn in Hc |- *. unfold breaks. cbn. tauto.
          + exfalso. apply word_classify in H3. subst t0. unfold classify_ident in H3. repeat match type of H3 with context [if ?b then _ else _] => destruct b end; discriminate H3.
        - exfalso. destruct Hl' as [Hw' _]. eapply word_glue; eassumption. }
      exists (pre ++ bl ++ q), b. split; [rewrite app_nil_r, <- !app_assoc; reflexivity|exact Hbr].
    + destruct (exists_last (l := c :: bl2) ltac:(discriminate)) as (q & b & Eq). rewrite Eq in *. exists (pre ++ bl ++ w ++ q), b. split; [rewrite <- !app_assoc; reflexivity|].
      apply Forall_app in Hb' as [_ Hb']. apply Forall_inv in Hb'. destruct Hb' as [-> | ->]; cbn; tauto.
  - injection E as _ E. destruct (IH Hn (pre ++ bl ++ w) ltac:(rewrite !app_length; lia) l1 a x l2 E Ha Hx) as (p & q & Ep & Hp). exists p, q. split; [|exact Hp].
    rewrite <- Ep, <- !app_assoc. reflexivity.
Qed.

Lemma label_in_front u src pr x : parse_from_str u src = Val pr -> tokenize u src = Val (Some (pr_tokens pr), []) -> In x (tree_occs 0 (pr_stmts pr)) -> o_kind x = KLabel ->
  exists p q, src = p ++ q /\ length p = sp_start (o_span x) /\ at_break p.
Proof.
  intros Hp Ht Hx Hk. apply parse_from_str_module in Hp as [_ [Hm|(n & Hm)]]; [rewrite Hm in Hx; contradiction|].
  pose proof (module_labels _ _ _ _ Hm _ (tree_labels _ _ _ Hx Hk)) as G. pose proof (tokenize_lexes _ _ _ _ Ht) as HL. cbn [length] in HL.
  assert (occ_token x = (TIdent (o_name x), o_span x)) as Eo by (unfold occ_token; rewrite Hk; reflexivity).
  rewrite drop_comments in G. apply (preceded_comments _ _ _ _ HL) in G; [|rewrite Eo; discriminate..]. destruct G as (l1 & a & l2 & E & Ha).
  destruct (opens_break _ _ _ _ _ HL eq_refl [] eq_refl _ _ _ _ E Ha) as (p & q & Ep & Hl & Hb); [rewrite Eo; eexists; reflexivity|].
  exists p, q. rewrite Eo in Hl. auto.
Qed.
