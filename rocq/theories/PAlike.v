(** The server answers the same for documents that differ in their layout. *)
From Verif Require Import Text Rope Chumsky Tokenizer Parser Numbers Index SemTok Diag Rename Cfg Backtrace Server SpecText SpecLex SpecParse SpecIndex SpecDiag SpecBacktrace SpecCfg SpecView SpecPatch SpecSimilar SpecRebind SpecLayout
  PText PLexSpec PLexProps PTokens PParse PParseProps PIndex PIndexDoc PIndexText PDiag PBacktrace PNav PRelex PNatural PRetree PRebind PUndo PLayout.

Lemma found_below_det fs rs path a b : found_below fs rs path a -> found_below fs rs path b -> a = b.
Proof.
  assert (forall r x y, below r path x -> below r path y -> x = y) as Hu by (intros r x y Hx Hy; apply below_iff in Hx, Hy; congruence).
  revert a b. induction rs as [|r rs IH]; intros a b Ha Hb.
  - destruct a as [x|]; [destruct Ha as (pre & r & post & E & _); destruct pre; discriminate E|]. destruct b as [x|]; [destruct Hb as (pre & r & post & E & _); destruct pre; discriminate E|]. reflexivity.
  - assert (forall o, found_below fs (r :: rs) path o -> (exists x, o = Some x /\ below r path x /\ fs x = Some true) \/ ((forall x, below r path x -> fs x <> Some true) /\ found_below fs rs path o)) as G.
    { intros [x|] H; cbn [found_below] in H.
      - destruct H as ([|r' pre] & r0 & post & E & H1 & H2 & H3); cbn [app] in E; injection E as <- E; [left; eauto|right].
        split; [intros y Hy; apply (H3 r y (or_introl eq_refl) Hy)|]. exists pre, r0, post. split; [exact E|]. split; [exact H1|]. split; [exact H2|]. intros; eapply H3; [right|]; eassumption.
      - right. split; [intros y Hy; apply (H r y (or_introl eq_refl) Hy)|]. intros r' x' Hr Hx. apply (H r' x'); [right; exact Hr|exact Hx]. }
    destruct (G a Ha) as [(x & -> & X1 & X2)|[X1 X2]], (G b Hb) as [(y & -> & Y1 & Y2)|[Y1 Y2]].
    + rewrite (Hu _ _ _ X1 Y1). reflexivity.
    + destruct (Y1 _ X1 X2).
    + destruct (X1 _ Y1 Y2).
    + exact (IH _ _ X2 Y2).
Qed.
Lemma external_location_det e rs x a b : external_location e rs x a -> external_location e rs x b -> a = b.
Proof. intros (o & H1 & ->) (o' & H2 & ->). rewrite (found_below_det _ _ _ _ _ H1 H2). reflexivity. Qed.
Lemma forall2_det {A B} (R : A -> B -> Prop) (H : forall a b c, R a b -> R a c -> b = c) : forall l m n, Forall2 R l m -> Forall2 R l n -> m = n.
Proof.
  induction l as [|x l IH]; intros m n H1 H2; inversion H1; inversion H2; subst; [reflexivity|]. f_equal; [eapply H; eassumption|apply IH; assumption].
Qed.
Lemma filter_forall2 {A B} (R : A -> B -> Prop) f g : (forall a b, R a b -> f a = g b) -> forall l m, Forall2 R l m -> Forall2 R (filter f l) (filter g m).
Proof. intros H l m F. induction F as [|a b l m Hab F IH]; [constructor|]. cbn [filter]. rewrite (H _ _ Hab). destruct (g b); [constructor; assumption|exact IH]. Qed.

(** ** External definitions *)
Section Ext.
Variable T : stoken -> stoken -> Prop.
Hypothesis Hfst : forall a b, T a b -> fst a = fst b.
Lemma same_dbg x y : named T tdbg x y -> fst x = fst y.
Proof. intros H. apply Hfst in H. destruct x, y. cbn in H. injection H as ->. reflexivity. Qed.
Lemma same_global x y : named T tglobal x y -> fst x = fst y.
Proof. intros H. apply Hfst in H. destruct x, y. cbn in H. injection H as ->. reflexivity. Qed.
Lemma decl_for_same : forall a b d, Forall2 (same_stmt T) a b -> decl_for a d = decl_for b d.
Proof.
  intros a b d H. unfold decl_for. generalize (@None text). induction H as [|x y a b Hxy H IH]; intros acc; [reflexivity|]. cbn [fold_left]. rewrite IH. f_equal.
  destruct x as [v dd|sg ad g|k sg bd|v l|v dd], y as [v' dd'|sg' ad' g'|k' sg' bd'|v' l'|v' dd']; try contradiction; try reflexivity.
  destruct Hxy as ((_ & _ & Hn & _) & _ & Hg). destruct g, g'; cbn [both] in Hg; try contradiction; [|reflexivity]. rewrite (same_dbg _ _ Hg), (same_global _ _ Hn). reflexivity.
Qed.
Lemma stmt_ext_same pre pre' x y f : Forall2 (same_stmt T) pre pre' -> same_stmt T x y -> stmt_ext pre x f = stmt_ext pre' y f.
Proof.
  intros Hp H. destruct x as [v dd|sg ad g|k sg bd|v l|v dd], y as [v' dd'|sg' ad' g'|k' sg' bd'|v' l'|v' dd']; try contradiction; try reflexivity.
  destruct H as [Hv Hd]. cbn [stmt_ext]. inversion Hd as [|a b l l' Hab Hl]; subst; [reflexivity|]. destruct a as [a sa], b as [b sb]. pose proof (Hfst _ _ Hab) as E. cbn [fst] in E. subst b.
  inversion Hl; subst; [|destruct a; reflexivity]. destruct a; try reflexivity. rewrite (decl_for_same _ _ (fst v) Hp), (same_dbg _ _ Hv). reflexivity.
Qed.
Lemma ext_defs_same f : forall ss ss', Forall2 (same_stmt T) ss ss' -> forall pre pre', Forall2 (same_stmt T) pre pre' -> ext_defs pre ss f = ext_defs pre' ss' f.
Proof.
  induction 1 as [|x y ss ss' Hxy H IH]; intros pre pre' Hp; [reflexivity|]. cbn [ext_defs]. rewrite (stmt_ext_same _ _ _ _ f Hp Hxy). f_equal.
  apply IH. apply Forall2_app; [exact Hp|constructor; [exact Hxy|constructor]].
Qed.
End Ext.

(** ** Answers *)
Section Answers.
Variables (hi hi' : nat) (pr pr' : parser_result).
Let T := counterparts (pr_tokens pr) (pr_tokens pr').
Let l := recorded (pr_stmts pr) (pr_tokens pr).
Let l' := recorded (pr_stmts pr') (pr_tokens pr').
Hypothesis Hsp : spans_in 0 hi (pr_tokens pr).
Hypothesis Hsp' : spans_in 0 hi' (pr_tokens pr').
Hypothesis Hsub : subseq (flat_map stmt_tokens (pr_stmts pr)) (pr_tokens pr).
Hypothesis Hsub' : subseq (flat_map stmt_tokens (pr_stmts pr')) (pr_tokens pr').
Hypothesis Hrg : ranges_in_order 0 (flat_map func_ranges (pr_stmts pr)).
Hypothesis Hfst : forall a b, T a b -> fst a = fst b.
Hypothesis Hst : Forall2 (same_stmt T) (pr_stmts pr) (pr_stmts pr').
Hypothesis Hocc : Forall2 (same_occ T) l l'.

Lemma occ_alike x x' : same_occ T x x' -> o_ud x = o_ud x' /\ o_kind x = o_kind x' /\ o_body x = o_body x' /\ o_name x = o_name x'.
Proof.
  intros (H1 & H2 & H3 & H4). split; [exact H1|]. split; [exact H2|]. split; [exact H3|]. apply Hfst in H4.
  pose proof (occ_token_name x) as E. rewrite H4, occ_token_name in E. injection E as E. congruence.
Qed.
Lemma spans_alike ud k b n : Forall2 (same_occ T) (filter (entry_is ud k b n) l) (filter (entry_is ud k b n) l').
Proof.
  apply filter_forall2; [|exact Hocc]. intros x x' H. destruct (occ_alike _ _ H) as (H1 & H2 & H3 & H4). unfold entry_is. rewrite H1, H2, H3, H4. reflexivity.
Qed.
Lemma answers_alike e rs uri src uri' src' ud p p' r r' o o' :
  In (o, o') (combine l l') -> covers (o_span o) p -> covers (o_span o') p' -> (global (o_kind o) -> ~ dual (pr_stmts pr) (o_name o)) ->
  answers e rs uri src pr p ud r -> answers e rs uri' src' pr' p' ud r' -> told_alike T src uri src' uri' o o' r r'.
Proof.
  intros Hin Hp Hp' Hdu H H'. pose proof (in_combine_l _ _ _ _ Hin) as Ho. pose proof (in_combine_r _ _ _ _ Hin) as Ho'.
  pose proof (combine_forall2 _ _ _ Hocc _ _ Hin) as So.
  destruct r as [[org locs]|]; [|destruct (H _ Ho Hp)]. destruct r' as [[org' locs']|]; [|destruct (H' _ Ho' Hp')].
  destruct H as (o1 & ls & H1 & H2 & -> & -> & Hx). destruct H' as (o2 & ls' & H1' & H2' & -> & -> & Hx').
  assert (forall z, In z l -> occ_token z = occ_token o -> z = o) as Hu.
  { intros z Hz Et. destruct (recorded_unique _ _ _ Hsp Hsub Hrg _ _ Hz Ho) as [E|D]; [change (snd (occ_token z) = snd (occ_token o)); rewrite Et; reflexivity|exact E|].
    exfalso. rewrite Et in D. unfold dual_token, occ_token in D. cbn [fst] in D. destruct (o_kind o) eqn:K; try contradiction; apply Hdu; unfold global; auto. }
  pose proof (Hu _ H1 (covers_same _ _ _ Hsp Hsub _ _ _ H1 Ho H2 Hp)) as ->.
  pose proof (covers_same _ _ _ Hsp' Hsub' _ _ _ H1' Ho' H2' Hp') as Et. destruct (proj2 (forall2_pair _ _ _ Hocc) _ H1') as (o3 & Hin3). pose proof (combine_forall2 _ _ _ Hocc _ _ Hin3) as S3.
  assert (o3 = o) as ->.
  { apply Hu; [exact (in_combine_l _ _ _ _ Hin3)|]. destruct So as (_ & _ & _ & To), S3 as (_ & _ & _ & T3). rewrite Et in T3.
    destruct (counterparts_order _ _ _ _ _ _ Hsp Hsp' _ _ _ _ T3 To) as [[E _]|[[_ E]|[_ E]]]; [exact E|..]; destruct Hp' as [C1 C2]; change (snd (occ_token o')) with (o_span o') in E; lia. }
  destruct (occ_alike _ _ S3) as (_ & K & B & N). rewrite <- K, <- B, <- N. assert (o_span o2 = o_span o') as -> by (change (snd (occ_token o2) = snd (occ_token o')); rewrite Et; reflexivity).
  assert (ls' = ls) as ->.
  { destruct ud; cbn [external_answer] in Hx, Hx'; try congruence. destruct Hx as (lss & -> & F), Hx' as (lss' & -> & F'). f_equal.
    eapply forall2_det; [exact (external_location_det e rs)|exact F'|]. unfold externals in *. rewrite <- K, <- N. rewrite <- (ext_defs_same T Hfst _ _ _ Hst [] [] (Forall2_nil _)). exact F. }
  exists (filter (entry_is ud (o_kind o) (o_body o) (o_name o)) l), (filter (entry_is ud (o_kind o) (o_body o) (o_name o)) l'), ls. split; [apply spans_alike|]. split; reflexivity.
Qed.
End Answers.

Lemma respaced_answers e s s' uri uri' src src' d d' : plain_document src -> plain_document src' -> opened e s uri src d -> opened e s' uri' src' d' ->
  respaced (e_u e) None src src' -> ~ Forall blank src -> roots s' = roots s -> can_resolve (roots s) -> lines_from_1 (doc_stmts d) ->
  exists pr pr', parse_from_str (e_u e) src = Val pr /\ parse_from_str (e_u e) src' = Val pr' /\
    Forall2 (same_occ (counterparts (pr_tokens pr) (pr_tokens pr'))) (recorded (pr_stmts pr) (pr_tokens pr)) (recorded (pr_stmts pr') (pr_tokens pr')) /\
    forall o o' p p', In (o, o') (combine (recorded (pr_stmts pr) (pr_tokens pr)) (recorded (pr_stmts pr') (pr_tokens pr'))) ->
      covers (o_span o) p -> covers (o_span o') p' -> (global (o_kind o) -> ~ dual (pr_stmts pr) (o_name o)) ->
      (exists r r', goto_definition e s uri (lsp_position src p) = Val r /\ goto_definition e s' uri' (lsp_position src' p') = Val r' /\
         told_alike (counterparts (pr_tokens pr) (pr_tokens pr')) src uri src' uri' o o' r r') /\
      (exists r r', goto_declaration e s uri (lsp_position src p) = Val r /\ goto_declaration e s' uri' (lsp_position src' p') = Val r' /\
         told_alike (counterparts (pr_tokens pr) (pr_tokens pr')) src uri src' uri' o o' r r') /\
      (exists r r', references e s uri (lsp_position src p) = Val (option_map snd r) /\ references e s' uri' (lsp_position src' p') = Val (option_map snd r') /\
         told_alike (counterparts (pr_tokens pr) (pr_tokens pr')) src uri src' uri' o o' r r').
Proof.
  intros H1 H2 Ho Ho' Hr Hb Er Hc Hl. destruct (declaration_places _ _ _ _ _ 0 H1 Ho (Nat.le_0_l _)) as (pr & _ & Hp & Es & _).
  destruct (respaced_tokens _ _ _ Hr Hb) as (toks & toks' & Et & Et' & Em).
  assert (pr_tokens pr = toks) as Ek.
  { apply parse_from_str_cases in Hp as [(errs & E & _)|(tk & errs & E & -> & _)]; rewrite Et in E; [discriminate E|]. injection E as <- _. reflexivity. }
  assert (toks <> []) as Hne.
  { pose proof (tokenize_lexes _ _ _ _ Et) as L. exact (lexes_nonblank_tokens _ _ _ _ _ L Hb). }
  destruct (respaced_parse _ _ _ _ Hr Hp ltac:(rewrite Ek; exact Hne)) as (pr' & Hp' & Em' & Hst & _ & (Hocc & _) & _).
  exists pr, pr'. split; [exact Hp|]. split; [exact Hp'|]. split; [exact Hocc|]. intros o o' p p' Hin Hcp Hcp' Hdu.
  pose proof (proj1 (parse_from_str_module _ _ _ Hp)) as Hsp. pose proof (proj1 (parse_from_str_module _ _ _ Hp')) as Hsp'.
  pose proof (layout _ _ _ Hp) as (_ & Hrg & _). pose proof (provenance _ _ _ Hp) as Hsub. pose proof (provenance _ _ _ Hp') as Hsub'.
  pose proof (combine_forall2 _ _ _ (map_fst_similar _ _ Em')) as Hfst.
  assert (p <= length src) as Lp.
  { pose proof (spans_in_each _ _ _ _ Hsp (recorded_token _ _ _ Hsp Hsub _ (in_combine_l _ _ _ _ Hin))) as L. destruct Hcp. change (snd (occ_token o)) with (o_span o) in L. lia. }
  assert (p' <= length src') as Lp'.
  { pose proof (spans_in_each _ _ _ _ Hsp' (recorded_token _ _ _ Hsp' Hsub' _ (in_combine_r _ _ _ _ Hin))) as L. destruct Hcp'. change (snd (occ_token o')) with (o_span o') in L. lia. }
  assert (pr_stmts pr' = doc_stmts d') as Es'.
  { destruct (declaration_places _ _ _ _ _ 0 H2 Ho' (Nat.le_0_l _)) as (x & _ & Hx & E & _). rewrite Hp' in Hx. injection Hx as <-. exact E. }
  assert (lines_from_1 (doc_stmts d')) as Hl'.
  { rewrite <- Es'. rewrite <- Es in Hl. intros f x Hx. apply (Hl f x). rewrite (ext_defs_same _ Hfst f _ _ Hst [] [] (Forall2_nil _)). exact Hx. }
  pose proof (fun ud => answers_alike _ _ pr pr' Hsp Hsp' Hsub Hsub' Hrg Hfst Hst Hocc e (roots s) uri src uri' src' ud p p') as A.
  split; [|split].
  - destruct (definition_places _ _ _ _ _ p H1 Ho Hc Hl Lp) as (x & r & Hx & _ & G1 & G2). rewrite Hp in Hx. injection Hx as <-.
    destruct (definition_places e s' uri' src' d' p' H2 Ho' ltac:(rewrite Er; exact Hc) Hl' Lp') as (x & r' & Hx & _ & G1' & G2'). rewrite Hp' in Hx. injection Hx as <-. rewrite Er in G2'.
    exists r, r'. split; [exact G1|]. split; [exact G1'|]. eapply A; eassumption.
  - destruct (declaration_places _ _ _ _ _ p H1 Ho Lp) as (x & r & Hx & _ & G1 & G2). rewrite Hp in Hx. injection Hx as <-.
    destruct (declaration_places e s' uri' src' d' p' H2 Ho' Lp') as (x & r' & Hx & _ & G1' & G2'). rewrite Hp' in Hx. injection Hx as <-. rewrite Er in G2'.
    exists r, r'. split; [exact G1|]. split; [exact G1'|]. eapply A; eassumption.
  - destruct (reference_places _ _ _ _ _ p H1 Ho Lp) as (x & r & Hx & _ & G1 & G2). rewrite Hp in Hx. injection Hx as <-.
    destruct (reference_places e s' uri' src' d' p' H2 Ho' Lp') as (x & r' & Hx & _ & G1' & G2'). rewrite Hp' in Hx. injection Hx as <-. rewrite Er in G2'.
    exists r, r'. split; [exact G1|]. split; [exact G1'|]. eapply A; eassumption.
Qed.
