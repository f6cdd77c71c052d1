(** What is in front of the first syntax error of a document. *)
From Verif Require Import Text Chumsky Tokenizer Parser Rope Numbers Index Diag SpecLex SpecParse SpecExact SpecFault SpecViable PText PLexSpec PLexProps PTokens PChumsky PParseProps PRope PIndexDoc PParse PGram PSound PComplete PExact PPlace PFurther PHopeless PViable.

(** ** Statements in front of less *)
Lemma reads_more f m refs dbg st rest z : reads f m refs dbg st rest -> reads f m refs dbg (st ++ z) (rest ++ z).
Proof. intros (body & Hb & He & -> & sp & q & ->). exists body. split; [exact Hb|]. split; [exact He|]. split; [rewrite <- !app_assoc; reflexivity|]. exists sp, (q ++ z). reflexivity. Qed.
Lemma instr_at_less i seg a z : instr_at i seg (a ++ z) -> a <> [] -> instr_at i seg a.
Proof.
  intros (f & tgt & st & Ht & E & R & P & S) N. destruct R as (body & Hb & He & -> & sp & q & Ea). destruct a as [|t a]; [congruence|]. cbn [app] in Ea. injection Ea as -> Eq.
  assert (Es : seg = tgt ++ body ++ opt_seg tdbg (i_dbg i)).
  { apply (app_inv_tail ((tnl sp :: a) ++ z)). rewrite E, <- !app_assoc. reflexivity. }
  exists f, tgt, (body ++ opt_seg tdbg (i_dbg i) ++ tnl sp :: a). split; [exact Ht|]. split; [rewrite Es, <- !app_assoc; reflexivity|]. split; [|split; [|exact S]].
  - exists body. split; [exact Hb|]. split; [exact He|]. split; [reflexivity|]. exists sp, a. reflexivity.
  - intros f' m' refs' dbg' rest' R'. apply (reads_more _ _ _ _ _ _ z) in R'. rewrite <- !app_assoc in R'. exact (P _ _ _ _ _ R').
Qed.
Lemma instrs_at_less l seg rest : instrs_at l seg rest -> forall a z, rest = a ++ z -> instrs_at l seg a.
Proof.
  induction 1 as [rest|i l pre seg post more rest H1 H2 H3 H4 H5 IH]; intros a z ->; [constructor|]. constructor; [exact H1|exact H2|exact H3| |apply (IH a z eq_refl)].
  apply (instr_at_less _ _ _ z); [rewrite <- !app_assoc; exact H4|]. destruct post; [congruence|discriminate].
Qed.
Lemma blocks_at_less l seg rest : blocks_at l seg rest -> forall a z, rest = a ++ z -> blocks_at l seg a.
Proof.
  induction 1 as [rest|b l seg more rest H1 H2 IH]; intros a z ->; [constructor|]. constructor; [|apply (IH a z eq_refl)].
  destruct H1 as (label & comma & nls & is_ & E1 & E2 & Hn & Hne & Hi & -> & E3). exists label, comma, nls, is_. split; [exact E1|]. split; [exact E2|]. split; [exact Hn|]. split; [exact Hne|].
  split; [|split; [reflexivity|exact E3]]. apply (instrs_at_less _ _ _ Hi _ z). rewrite <- app_assoc. reflexivity.
Qed.
Lemma fbody_at_less b seg a z : fbody_at b seg (a ++ z) -> fbody_at b seg a.
Proof.
  intros (nls & o & seg1 & bbs & seg2 & Hn & Hne & Ho & Hb & E & ->). exists nls, o, seg1, bbs, seg2. split; [exact Hn|]. split; [exact Hne|].
  split; [|split; [apply (blocks_at_less _ _ _ Hb _ z); reflexivity|split; [exact E|reflexivity]]].
  destruct o as [x|]; [|exact Ho]. destruct Ho as (H1 & H2 & H3 & H4). split; [exact H1|]. split; [exact H2|]. split; [|exact H4].
  apply (instrs_at_less _ _ _ H3 _ z). rewrite <- app_assoc. reflexivity.
Qed.
Lemma eol_less e (a z : list stoken) : eol_seg e (a ++ z) -> eol_seg e a.
Proof. intros [H|[H E]]; [left; exact H|right]. split; [exact H|]. apply app_eq_nil in E. apply E. Qed.
Lemma deps_less ds (a z : list stoken) : deps_stop ds (a ++ z) -> deps_stop ds a.
Proof. destruct ds; cbn [deps_stop]; intros H; [intros x q ->|intros sp x q ->]; eapply H; reflexivity. Qed.
Lemma stmt_at_less s seg a z : stmt_at s seg (a ++ z) -> stmt_at s seg a.
Proof.
  intros H. destruct s; cbn [stmt_at] in *.
  - inversion H; subst. constructor; [assumption|eapply eol_less; eassumption].
  - inversion H; subst. econstructor; [eassumption|eassumption|eapply eol_less; eassumption].
  - destruct H as (sseg & bseg & e & H1 & H2 & H3 & ->). exists sseg, bseg, e. split; [exact H1|]. split; [|split; [eapply eol_less; eassumption|reflexivity]].
    rewrite app_assoc in H2. apply fbody_at_less in H2. exact H2.
  - inversion H; subst. constructor; [assumption|eapply deps_less; eassumption].
  - inversion H; subst. constructor; [assumption|eapply eol_less; eassumption].
Qed.
Lemma lead_done eoi st r : lead eoi st r -> exists ss done, st = done ++ r /\ module_at ss done.
Proof.
  induction 1 as [r|st s r r2 E H (ss & done & -> & M)]; [exists [], []; split; [reflexivity|constructor]|]. apply statement_inv in E as (pre & seg & post & H1 & H2 & H3 & ->).
  exists (s :: ss), (pre ++ seg ++ post ++ done). split; [rewrite <- !app_assoc; reflexivity|]. constructor; [exact H1|exact H2| |exact M]. rewrite app_assoc in H3. exact (stmt_at_less _ _ _ _ H3).
Qed.

(** ** The places of the errors of a statement *)
Notation nls_ := (star (sing (eq TNewline))).
Section Doc.
Variable eoi : span.
Lemma nls_end st : match g_nls eoi st with POk _ _ al r => forall l, al = Some l -> l_rem l = length r | PErr _ _ => False | PPanic => True end.
Proof.
  unfold g_nls, p_repeated, p_repeated_at_least. match goal with |- context [p_rep ?f _ _ _ _ _ _ _] => generalize f end. intros fuel.
  assert (G : forall old errs outs, match p_rep fuel (p_just token_eqb eoi TNewline) 0 old errs outs None st with POk _ _ al r => forall l, al = Some l -> l_rem l = length r | PErr _ _ => False | PPanic => True end); [|apply G].
  revert st. induction fuel as [|fuel IH]; intros st old errs outs; [exact I|]. cbn [p_rep]. destruct st as [|[t sp] st]; unfold p_just at 1.
  - destruct (length outs); cbn [Nat.ltb Nat.leb]; cbn [merge_alts]; intros l E; injection E as <-; reflexivity.
  - destruct (token_eqb t TNewline).
    + destruct (match old with Some k => k =? _ | None => false end); [exact I|]. cbn [merge_alts]. apply IH.
    + destruct (length outs); cbn [Nat.ltb Nat.leb]; cbn [merge_alts]; intros l E; injection E as <-; reflexivity.
Qed.
Definition spoken (st : strm) (e : located token) : Prop := reach (cat nls_ lstmt) st e.
Lemma statement_reach st : match g_statement eoi st with
  | POk _ _ al r => forall l, al = Some l -> spoken st l \/ l_rem l = length r
  | PErr _ e => spoken st e
  | PPanic => True
  end.
Proof.
  assert (V : via (cat nls_ lstmt) (p_ignore_then (g_nls eoi) (g_stmt_alternatives eoi))).
  { apply via_map, via_then; [apply via_nls|apply via_choices|apply inh_lstmt]. }
  unfold g_statement. fold (g_stmt_alternatives eoi). unfold p_padded_by, p_then_ignore, p_map at 1, p_then at 1. specialize (V st).
  destruct (p_ignore_then _ _ st) as [es v al r|es e|]; [|exact V|exact I]. pose proof (nls_end r) as N. destruct (g_nls eoi r) as [es' v' al' r'|es' e'|]; [|contradiction|exact I].
  destruct V as [_ V]. intros l E. destruct al as [a|]; cbn [merge_alts] in E; [|right; apply N; exact E]. injection E as <-. destruct al' as [b|]; [|left; apply V; reflexivity].
  unfold loc_max. destruct (Nat.ltb_spec (l_rem a) (l_rem b)); [left; apply V; reflexivity|]. destruct (Nat.ltb_spec (l_rem b) (l_rem a)); [right; apply N; reflexivity|].
  right. cbn [l_rem]. rewrite <- (N b eq_refl). lia.
Qed.
Definition spot (st : strm) (e : located token) : Prop := exists a y, st = a ++ y /\ l_rem e = length y /\ viable a.
Lemma begins_nil : begins_statement [].
Proof. destruct inh_lstmt as (x & s & n & H). exists x, s, n. exact H. Qed.
Lemma lead_spoken st r e : lead eoi st r -> spoken r e -> spot st e.
Proof.
  intros L (pre & y & w & -> & R & (n1 & seg & X & N & s & n & S)). apply lead_done in L as (ss & done & -> & M). exists (done ++ pre), y. split; [apply app_assoc|]. split; [exact R|].
  apply star_newlines in N. destruct (split_at _ _ _ _ X) as [(k & -> & K)|(k & -> & K)].
  - exists ss, done, n1, k. split; [reflexivity|]. split; [exact M|]. split; [exact N|]. exists w, s, n. rewrite <- K. exact S.
  - exists ss, done, pre, []. split; [rewrite app_nil_r; reflexivity|]. split; [exact M|]. split; [apply Forall_app in N; apply N|apply begins_nil].
Qed.
Lemma lead_spot st r e : lead eoi st r -> l_rem e = length r -> spot st e.
Proof.
  intros L R. apply lead_done in L as (ss & done & -> & M). exists done, r. split; [reflexivity|]. split; [exact R|]. exists ss, done, [], []. split; [rewrite !app_nil_r; reflexivity|]. split; [exact M|]. split; [constructor|apply begins_nil].
Qed.
Lemma spot_max st a b : spot st a -> (forall l, b = Some l -> spot st l) -> spot st (loc_max a b).
Proof.
  intros H K. destruct b as [b|]; [|exact H]. specialize (K b eq_refl). unfold loc_max. destruct (l_rem a <? l_rem b); [exact H|]. destruct (l_rem b <? l_rem a); [exact K|].
  destruct H as (x & y & E & R & X). exists x, y. auto.
Qed.
Lemma spot_alts st a b : (forall l, a = Some l -> spot st l) -> (forall l, b = Some l -> spot st l) -> forall l, merge_alts a b = Some l -> spot st l.
Proof. intros H K l E. destruct a as [a|]; [|auto]. injection E as <-. apply spot_max; [apply H; reflexivity|exact K]. Qed.
Lemma rep_spot fuel : forall old outs alt (st0 st : strm), lead eoi st0 st -> (forall l, alt = Some l -> spot st0 l) ->
  match p_rep fuel (p_recover (g_statement eoi)) 0 old [] outs alt st with
  | POk [] _ alt' r => lead eoi st0 r /\ forall l, alt' = Some l -> spot st0 l
  | _ => True
  end.
Proof.
  induction fuel as [|fuel IH]; intros old outs alt st0 st H A; [exact I|]. cbn [p_rep]. unfold p_recover at 1.
  assert (K : forall f more q old outs alt, match p_rep fuel (p_recover (g_statement eoi)) 0 old (f :: more) outs alt q with POk [] _ _ _ => False | _ => True end).
  { clear. induction fuel as [|fuel IH]; intros f more q old outs alt; [exact I|]. cbn [p_rep]. destruct (p_recover (g_statement eoi) q) as [es a al r|es e|]; [| |exact I].
    - destruct (match old with Some n => n =? length r | None => false end); [exact I|]. cbn [app]. apply IH.
    - destruct (length outs); exact I. }
  pose proof (statement_reach st) as S. destruct (g_statement eoi st) as [es a al r|es e|] eqn:G; [| |exact I].
  - destruct (match old with Some n => n =? length r | None => false end); [exact I|]. cbn [app]. destruct es as [|f more].
    + assert (L : lead eoi st0 r) by (apply (lead_snoc eoi _ a st); [exact H|]; rewrite G; reflexivity).
      apply IH; [exact L|]. apply spot_alts; [exact A|]. intros l El. destruct (S l El) as [Q|Q]; [apply (lead_spoken st0 st); assumption|apply (lead_spot st0 r); assumption].
    + specialize (K f more r (Some (length r)) (outs ++ [a]) (merge_alts alt al)). destruct (p_rep _ _ _ _ _ _ _ _) as [[|g es] b al' q|es b|]; try contradiction; exact I.
  - pose proof (retry_cases (g_statement eoi) es e (match st with [] => [] | _ :: r => r end)) as R. destruct (p_retry _ _ _ _) as [es' a al r|es' e'|]; [| |exact I].
    + destruct R as (more & _ & _ & _ & _ & _ & -> & _ & _). destruct (match old with Some n => n =? length r | None => false end); [exact I|]. cbn [app].
      assert (exists f more2, more ++ [e] = f :: more2) as (f & more2 & ->) by (destruct more; cbn [app]; eauto).
      specialize (K f more2 r (Some (length r)) (outs ++ [a]) (merge_alts alt al)). destruct (p_rep _ _ _ _ _ _ _ _) as [[|g es2] b al' q|es2 b|]; try contradiction; exact I.
    + destruct R as [-> ->]. assert (Q : forall l, merge_alts alt (Some e) = Some l -> spot st0 l).
      { apply spot_alts; [exact A|]. intros l El. injection El as <-. apply (lead_spoken st0 st); assumption. }
      destruct (length outs); cbn [Nat.ltb Nat.leb]; (split; [exact H|exact Q]).
Qed.
Lemma module_spot st : match g_module eoi st with
  | POk (f :: _) _ _ _ => sec st f \/ spot st f
  | PErr (f :: _) _ => sec st f \/ spot st f
  | PErr [] f => spot st f
  | _ => True
  end.
Proof.
  pose proof (module_first_error eoi st) as F.
  assert (Q : forall f, first_error eoi st f -> sec st f \/ spot st f).
  { intros f [H|(r & es & L & G)]; [left; exact H|right]. pose proof (statement_reach r) as S. rewrite G in S. exact (lead_spoken st r f L S). }
  destruct (g_module eoi st) as [[|f es] a alt r|[|f es] e|] eqn:G; [exact I|apply Q; exact F| |apply Q; exact F|exact I]. clear F Q.
  revert G. unfold g_module, p_then_ignore, p_map, p_then, p_repeated, p_repeated_at_least. pose proof (rep_spot (length st + 3) None [] None st st (lead_nil eoi _)) as H.
  specialize (H ltac:(discriminate)). pose proof (rep_lead eoi (length st + 3) None [] None st st (lead_nil eoi _)) as H0. destruct (p_rep _ _ _ _ _ _ _ st) as [[|f es] a alt r|es e0|]; [| |contradiction|discriminate].
  - destruct H as [L A]. unfold p_end. destruct r as [|[x sx] r]; [discriminate|]. cbn [app]. intros E. injection E as <-. apply spot_max; [|exact A]. apply (lead_spot st ((x, sx) :: r)); [exact L|reflexivity].
  - destruct (p_end eoi r); discriminate.
Qed.
End Doc.

(** ** Documents *)
Lemma first_viable u src toks terrs o e1 errs (a w : strm) : tokenize u src = Val (Some toks, terrs) -> parse_tokens src toks = Val (o, e1 :: errs) ->
  without_comments toks = a ++ w -> e_reason e1 <> CustomMsg not_overflow ->
  e_span e1 = match w with t :: _ => snd t | [] => mkSpan (byte_len src) (byte_len src + 1) end -> viable a.
Proof.
  intros Ht E Ew Er Es. unfold parse_tokens, parse_recovery in E. replace (filter not_comment toks) with (without_comments toks) in E by (apply filter_ext; intros [x sx]; destruct x; reflexivity).
  set (eoi := mkSpan _ _) in *. apply tokenize_spans in Ht. assert (Hs : spans_in 0 (length src) (without_comments toks)) by (eapply spans_in_sub; [apply subseq_filter|exact Ht]). rewrite Ew in Hs, E.
  assert (Hend : forall t, In t (a ++ w) -> snd t <> eoi).
  { intros t Hin K. apply (spans_in_each _ _ _ _ Hs) in Hin. rewrite K in Hin. unfold eoi in Hin. cbn [sp_start sp_end] in Hin. pose proof (length_le_byte_len src). lia. }
  assert (Hpos : forall f, stands eoi (a ++ w) f -> l_err f = e1 -> l_rem f = length w).
  { intros f (pre & y & E1 & E2 & E3) <-. destruct y as [|[tk sp] y].
    - destruct w as [|t w]; [exact E2|]. exfalso. destruct E3 as (E3 & _). apply (Hend t); [apply in_or_app; right; left; reflexivity|]. congruence.
    - destruct E3 as [E3 _]. destruct w as [|t w].
      + exfalso. apply (Hend (tk, sp)); [rewrite E1; apply in_or_app; right; left; reflexivity|]. cbn [snd]. congruence.
      + rewrite E2. cbn [length]. f_equal. apply (span_position _ a w pre y t (tk, sp) (spans_in_nodup _ _ _ Hs) eq_refl E1). cbn [snd]. congruence. }
  assert (Hspot : forall f, spot (a ++ w) f -> l_rem f = length w -> viable a).
  { intros f (b & y & E1 & E2 & V) L. assert (b = a) as <-; [|exact V]. assert (length y = length w) by congruence. clear - E1 H. revert b E1. induction a as [|t a IH]; intros [|t' b] E1; cbn [app] in E1; [reflexivity| | |].
    - exfalso. apply (f_equal (@length _)) in E1. cbn [length] in E1. rewrite app_length in E1. lia.
    - exfalso. apply (f_equal (@length _)) in E1. cbn [length] in E1. rewrite app_length in E1. lia.
    - injection E1 as <- E1. f_equal. apply IH. exact E1. }
  pose proof (module_spot eoi (a ++ w)) as M. pose proof (lax_module eoi (a ++ w)) as X.
  destruct (g_module eoi (a ++ w)) as [es b alt r|es e|]; [| |discriminate].
  - injection E as _ E. destruct es as [|f es]; [discriminate|]. cbn [map] in E. injection E as E _. destruct M as [(m & _ & _ & K & _)|M]; [congruence|]. apply (Hspot f M). apply Hpos; [|exact E].
    destruct X as (_ & _ & X). inversion X as [|? ? [Y|(m & _ & _ & K & _)] _]; [exact Y|congruence].
  - injection E as _ E. destruct X as [X X2]. destruct es as [|f es]; cbn [app map] in E; injection E as E _.
    + apply (Hspot e M). apply Hpos; [exact X|exact E].
    + destruct M as [(m & _ & _ & K & _)|M]; [congruence|]. apply (Hspot f M). apply Hpos; [|exact E]. inversion X2 as [|? ? [Y|(m & _ & _ & K & _)] _]; [exact Y|congruence].
Qed.
Lemma marked_viable u src a t w e : marked u src a t w e -> viable a.
Proof. intros (toks & terrs & o & errs & T & P & W & S & R). exact (first_viable u src toks terrs o e errs a (t :: w) T P W R S). Qed.
