(** Nothing behind a syntax error can repair it. *)
From Verif Require Import Text Chumsky Tokenizer Parser Rope Numbers Index Diag SpecLex SpecParse SpecExact SpecLines SpecFault PText PLexSpec PLexProps PTokens PChumsky PParseProps PRope PIndexDoc PParse PGram PSound PComplete PExact PLines PLinesExact PPlace PFurther.

(** ** Statements depend on their own lines only *)
Lemma good_stops line : forall p nl Y, good p (line ++ nl :: Y) -> fst nl = TNewline -> (p = Open -> exists o, opener (fst o) /\ tidy (o :: line ++ [nl])) -> tidy (line ++ [nl]) -> False.
Proof.
  induction line as [|t line IH]; intros p nl Y G N O T; cbn [app good] in *.
  - destruct G as [G _]. destruct (G N) as [-> _]. destruct (O eq_refl) as (o & Ho & To). exact (To [] o nl [] eq_refl Ho N).
  - destruct G as [_ G]. apply (IH _ _ _ G N); [|exact (tidy_app_r [t] (line ++ [nl]) T)]. intros E. exists t. split; [|exact T].
    destruct (fst t) eqn:F; try discriminate; [right; eauto| |destruct p; discriminate]. cbn [next_place] in E. destruct (N.eqb_spec c (ch ",")) as [->|]; [left; reflexivity|discriminate].
Qed.
Lemma good_solid seg p : good p seg -> p <> Open -> tidy seg -> no_newline seg.
Proof.
  intros G Hp T. destruct (first_newline seg) as [H|(b & nl & d & -> & En & _)]; [exact H|]. exfalso. apply (good_stops b p nl d G En); [congruence|].
  apply (tidy_app_l (b ++ [nl]) d). rewrite <- app_assoc. exact T.
Qed.
Lemma split_at {A} (a b c d : list A) : a ++ b = c ++ d -> (exists e, a = c ++ e /\ d = e ++ b) \/ (exists e, c = a ++ e /\ b = e ++ d).
Proof.
  revert c. induction a as [|x a IH]; intros [|y c] E; cbn [app] in E; [left; exists []; auto|right; exists (y :: c); auto|left; exists (x :: a); auto|].
  injection E as <- E. destruct (IH c E) as [(e & -> & ->)|(e & -> & ->)]; [left; exists e; auto|right; exists e; auto].
Qed.
Lemma reads_local f m refs dbg line nl X rest : reads f m refs dbg (line ++ nl :: X) rest -> no_newline line -> fst nl = TNewline -> tidy (line ++ [nl]) ->
  rest = nl :: X /\ forall X', reads f m refs dbg (line ++ nl :: X') (nl :: X').
Proof.
  intros (body & Hb & He & E & sp & q & ->) Hl N T. rewrite app_assoc in E.
  assert (G : good Within (body ++ opt_seg tdbg dbg)) by (apply (body_good _ _ _ _ Hb), good_no_newline; destruct dbg; cbn [opt_seg]; solid).
  destruct (split_at _ _ _ _ E) as [(e & E1 & E2)|(e & E1 & E2)].
  - destruct e as [|y e].
    + rewrite app_nil_r in E1. cbn [app] in E2. split; [exact E2|]. intros X'. exists body. split; [exact Hb|]. split; [exact He|]. split; [rewrite E1, <- app_assoc; reflexivity|].
      destruct nl as [tk s]. cbn [fst] in N. subst tk. exists s, X'. reflexivity.
    + exfalso. cbn [app] in E2. assert (Ey : fst y = TNewline) by (injection E2 as Ey _; rewrite <- Ey; reflexivity). rewrite E1 in Hl. apply Forall_app in Hl. destruct Hl as [_ Hl]. inversion Hl as [|? ? H _]. exact (H Ey).
  - destruct e as [|y e].
    + rewrite app_nil_r in E1. cbn [app] in E2. split; [symmetry; exact E2|]. intros X'. exists body. split; [exact Hb|]. split; [exact He|]. split; [rewrite <- E1, app_assoc, E1; reflexivity|].
      destruct nl as [tk s]. cbn [fst] in N. subst tk. exists s, X'. reflexivity.
    + exfalso. cbn [app] in E2. assert (Ey : nl = y) by (injection E2 as Ey _; exact Ey). rewrite E1 in G. subst y. apply (good_stops line Within nl e G N); [discriminate|exact T].
Qed.
Lemma instr_at_local i seg nl X : instr_at i seg (nl :: X) -> tidy (seg ++ [nl]) -> fst nl = TNewline -> forall X', instr_at i seg (nl :: X').
Proof.
  intros (f & tgt & st & Ht & E & R & P & S) T N X'. pose proof R as (body & Hb & He & Est & _). rewrite Est, !app_assoc in E. apply app_inv_tail in E. rewrite <- app_assoc in E.
  assert (L : no_newline (body ++ opt_seg tdbg (i_dbg i))).
  { apply (good_solid _ Within); [apply (body_good _ _ _ _ Hb), good_no_newline; destruct (i_dbg i); cbn [opt_seg]; solid|discriminate|]. rewrite E in T. apply tidy_app_l in T. apply tidy_app_r in T. exact T. }
  assert (TL : tidy ((body ++ opt_seg tdbg (i_dbg i)) ++ [nl])) by (rewrite E in T; rewrite <- app_assoc in T; apply tidy_app_r in T; exact T).
  rewrite app_assoc in Est. exists f, tgt, ((body ++ opt_seg tdbg (i_dbg i)) ++ nl :: X'). split; [exact Ht|]. split; [rewrite E, <- !app_assoc; reflexivity|].
  rewrite Est in R, P. split; [apply (reads_local _ _ _ _ _ _ _ _ R L N TL)|]. split; [|exact S].
  intros f' m' refs' dbg' rest' R'. destruct (reads_local _ _ _ _ _ _ _ _ R' L N TL) as [_ K]. exact (P _ _ _ _ _ (K X)).
Qed.
Lemma instrs_at_local l seg rest : instrs_at l seg rest -> tidy seg -> forall rest', instrs_at l seg rest'.
Proof.
  induction 1 as [|i l pre seg post more rest Hpre Hpost Hne Hi Hl IH]; intros T rest'; [constructor|].
  destruct post as [|nl post]; [congruence|]. cbn [app] in Hi. constructor; [exact Hpre|exact Hpost|exact Hne| |].
  - apply (instr_at_local _ _ _ _ Hi); [|inversion Hpost; assumption]. apply tidy_app_r in T. apply (tidy_app_l (seg ++ [nl]) (post ++ more)). rewrite <- app_assoc. exact T.
  - apply IH. apply tidy_app_r, tidy_app_r in T. exact (tidy_app_r (nl :: post) more T).
Qed.
Lemma blocks_at_local l seg rest : blocks_at l seg rest -> tidy seg -> forall rest', blocks_at l seg rest'.
Proof.
  induction 1 as [|b l seg more rest Hb Hl IH]; intros T rest'; [constructor|]. constructor; [|apply IH; apply tidy_app_r in T; exact T].
  destruct Hb as (label & comma & nls & is_ & E1 & E2 & Hn & Hne & Hi & -> & E3). exists label, comma, nls, is_. split; [exact E1|]. split; [exact E2|]. split; [exact Hn|]. split; [exact Hne|].
  split; [|split; [reflexivity|exact E3]]. apply (instrs_at_local _ _ _ Hi). apply tidy_app_l in T. apply (tidy_app_r (tident label :: tp (ch ":") comma :: nls) is_). exact T.
Qed.
Lemma fbody_at_local b seg rest : fbody_at b seg rest -> tidy seg -> forall rest', fbody_at b seg rest'.
Proof.
  intros (nls & o & seg1 & bbs & seg2 & Hn & Hne & Ho & Hb & E & ->) T rest'. exists nls, o, seg1, bbs, seg2. split; [exact Hn|]. split; [exact Hne|].
  assert (T2 : tidy (seg1 ++ seg2)).
  { apply (tidy_app_r (tp (ch "{") (fb_open b) :: nls)) in T || idtac. apply (tidy_app_l _ [tp (ch "}") (fb_close b)]). rewrite <- app_assoc. exact T. }
  split; [|split; [apply (blocks_at_local _ _ _ Hb); apply tidy_app_r in T2; exact T2|split; [exact E|reflexivity]]].
  destruct o as [x|]; [|exact Ho]. destruct Ho as (H1 & H2 & H3 & H4). split; [exact H1|]. split; [exact H2|]. split; [|exact H4].
  apply (instrs_at_local _ _ _ H3). apply tidy_app_l in T2. exact T2.
Qed.
Lemma eol_local e z (t : stoken) w w' : eol_seg e (z ++ t :: w) -> eol_seg e (z ++ t :: w').
Proof. intros [H|[_ H]]; [left; exact H|]. destruct z; discriminate. Qed.
Lemma stmt_at_local s seg z (t : stoken) w w' : stmt_at s seg (z ++ t :: w) -> tidy seg -> fst t <> TPunct (ch ",") -> stmt_at s seg (z ++ t :: w').
Proof.
  intros H T C. destruct s; cbn [stmt_at] in *.
  - inversion H; subst. constructor; [assumption|eapply eol_local; eassumption].
  - inversion H; subst. econstructor; [eassumption|eassumption|eapply eol_local; eassumption].
  - destruct H as (sseg & bseg & e & H1 & H2 & H3 & ->). exists sseg, bseg, e. split; [exact H1|]. split; [|split; [eapply eol_local; eassumption|reflexivity]].
    apply (fbody_at_local _ _ _ H2). apply (tidy_app_l bseg e). apply (tidy_app_r ((TDefine, define_kw) :: sseg)). exact T.
  - inversion H; subst. constructor; [assumption|]. match goal with D : deps_stop _ _ |- _ => revert D end. unfold deps_stop. destruct dependencies.
    + intros D x q E. destruct z as [|y z]; cbn [app] in *; injection E as -> _; eapply D; reflexivity.
    + intros D sp x q E. destruct z as [|y [|y2 z]]; cbn [app] in *.
      * injection E as -> _. apply C. reflexivity.
      * injection E as -> -> _. eapply D. reflexivity.
      * injection E as -> -> _. eapply D. reflexivity.
  - inversion H; subst. constructor; [assumption|eapply eol_local; eassumption].
Qed.

(** ** The statements before the first error *)
Section Doc.
Variable eoi : span.
Inductive lead : strm -> strm -> Prop :=
| lead_nil r : lead r r
| lead_cons st s r r2 : vw (g_statement eoi st) = VOk 0 s r -> lead r r2 -> lead st r2.
Lemma lead_snoc st s r r2 : lead st r -> vw (g_statement eoi r) = VOk 0 s r2 -> lead st r2.
Proof. induction 1; intros E; [econstructor; [exact E|constructor]|econstructor; eauto]. Qed.
Lemma lead_suffix st r : lead st r -> exists pre, st = pre ++ r.
Proof.
  induction 1 as [r|st s r r2 E H [pre ->]]; [exists []; reflexivity|]. apply statement_inv in E as (p & seg & post & _ & _ & _ & ->).
  exists (p ++ seg ++ post ++ pre). rewrite <- !app_assoc. reflexivity.
Qed.
Lemma statement_strip st s r : vw (g_statement eoi st) = VOk 0 s r -> strip r = r.
Proof. intros E. pose proof E as E2. apply statement_inv in E2 as (p & seg & post & H1 & H2 & H3 & ->). rewrite (statement_fw eoi s p seg post r H1 H2 H3) in E. congruence. Qed.
Lemma statement_move (a1 a2 : strm) (t : stoken) w w' s : vw (g_statement eoi (a1 ++ t :: w)) = VOk 0 s (a2 ++ t :: w) -> tidy (a1 ++ [t]) -> fst t <> TPunct (ch ",") ->
  vw (g_statement eoi (a1 ++ t :: w')) = VOk 0 s (a2 ++ t :: w') /\ exists c, a1 = c ++ a2.
Proof.
  intros E T C. pose proof (statement_strip _ _ _ E) as Es. apply statement_inv in E as (p & seg & post & H1 & H2 & H3 & E).
  assert (E' : a1 = p ++ seg ++ post ++ a2).
  { apply (app_inv_tail (t :: w)). rewrite E, <- !app_assoc. reflexivity. }
  subst a1. split; [|exists (p ++ seg ++ post); rewrite <- !app_assoc; reflexivity].
  rewrite <- !app_assoc. assert (Ts : tidy seg) by (rewrite <- !app_assoc in T; apply tidy_app_r in T; apply tidy_app_l in T; exact T).
  rewrite app_assoc in H3. apply (stmt_at_local _ _ _ _ _ w') in H3; [|exact Ts|exact C]. rewrite <- app_assoc in H3.
  rewrite (statement_fw eoi s p seg post (a2 ++ t :: w') H1 H2 H3). f_equal. destruct a2 as [|[x sx] a2]; cbn [app] in *.
  - destruct t as [x sx]. apply strip_id. intros ->. exact (strip_no_nl _ _ _ Es).
  - apply strip_id. intros ->. exact (strip_no_nl _ _ _ Es).
Qed.
Lemma module_strip ss (st : strm) : module_at ss st -> module_at ss (strip st).
Proof.
  intros H. inversion H as [|s ss' pre seg post rest Hpre Hpost Hs Hss]; subst; [constructor|]. rewrite strip_nls by exact Hpre.
  destruct (stmt_at_head _ _ _ Hs) as ([x sx] & q & -> & Hx). cbn [app]. rewrite strip_id by exact Hx. apply (ma_cons s ss' [] ((x, sx) :: q) post rest); try assumption. constructor.
Qed.
Lemma module_next ss (st : strm) s r : module_at ss st -> vw (g_statement eoi st) = VOk 0 s r -> st <> [] -> exists ss', module_at ss' r.
Proof.
  intros H E Hne. inversion H as [|s' ss' pre seg post rest Hpre Hpost Hs Hss]; subst; [congruence|].
  rewrite (statement_fw eoi _ _ _ _ _ Hpre Hpost Hs) in E. injection E as _ <-. exists ss'. apply module_strip. exact Hss.
Qed.
Lemma module_first ss (st : strm) : module_at ss st -> st <> [] -> exists s r, vw (g_statement eoi st) = VOk 0 s r.
Proof.
  intros H Hne. inversion H as [|s' ss' pre seg post rest Hpre Hpost Hs Hss]; subst; [congruence|].
  rewrite (statement_fw eoi _ _ _ _ _ Hpre Hpost Hs). eauto.
Qed.
Lemma lead_module st r : lead st r -> forall (a1 a2 : strm) (t : stoken) w w' ss, st = a1 ++ t :: w -> r = a2 ++ t :: w -> tidy (a1 ++ [t]) -> fst t <> TPunct (ch ",") ->
  module_at ss (a1 ++ t :: w') -> exists ss', module_at ss' (a2 ++ t :: w') /\ tidy (a2 ++ [t]).
Proof.
  induction 1 as [r|st s r r2 E H IH]; intros a1 a2 t w w' ss E1 E2 T C M.
  - assert (a1 = a2) as -> by (apply (app_inv_tail (t :: w)); congruence). eauto.
  - destruct (lead_suffix _ _ H) as [p Ep]. assert (Er : r = (p ++ a2) ++ t :: w) by (rewrite Ep, E2, <- app_assoc; reflexivity). rewrite E1, Er in E.
    destruct (statement_move _ _ _ _ w' _ E T C) as [E' [c ->]]. destruct (module_next _ _ _ _ M E') as [ss' M']; [destruct (c ++ p ++ a2); discriminate|].
    refine (IH (p ++ a2) a2 t w w' ss' Er E2 _ C M'). rewrite <- app_assoc in T. apply tidy_app_r in T. exact T.
Qed.

(** ** The first error of a document *)
Lemma retry_cases {A} (p : pp A) es e st : match p_retry p es e st with POk es' _ _ _ => exists more pre q b al r, es' = more ++ [e] /\ st = pre ++ q /\ p q = POk more b al r | PErr es' e' => es' = es /\ e' = e | PPanic => True end.
Proof.
  induction st as [|y st IH]; cbn [p_retry].
  - destruct (p []) as [es' a alt r|es' e'|] eqn:E; [exists es', [], [], a, alt, r; auto|auto|exact I].
  - destruct (p (y :: st)) as [es' a alt r|es' e'|] eqn:E; [exists es', [], (y :: st), a, alt, r; auto| |exact I].
    destruct (p_retry p es e st) as [es2 a2 alt2 r2|es2 e2|]; [|exact IH|exact I].
    destruct IH as (more & pre & q & b & al & r & H1 & H2 & H3). exists more, (y :: pre), q, b, al, r. split; [exact H1|]. split; [|exact H3]. cbn [app]. f_equal. exact H2.
Qed.
Definition first_error (st : strm) (f : located token) : Prop := sec st f \/ exists r es, lead st r /\ g_statement eoi r = PErr es f.
Lemma rep_lead fuel : forall old outs alt (st0 st : strm), lead st0 st ->
  match p_rep fuel (p_recover (g_statement eoi)) 0 old [] outs alt st with
  | POk [] _ alt' r => lead st0 r /\ exists es e l, g_statement eoi r = PErr es e /\ alt' = Some l /\ l_rem l <= l_rem e
  | POk (f :: _) _ _ _ => first_error st0 f
  | PErr _ _ => False
  | PPanic => True
  end.
Proof.
  induction fuel as [|fuel IH]; intros old outs alt st0 st H; [exact I|]. cbn [p_rep]. unfold p_recover at 1. destruct (lead_suffix _ _ H) as [p0 Ep].
  assert (K : forall f more q old outs alt, match p_rep fuel (p_recover (g_statement eoi)) 0 old (f :: more) outs alt q with POk (g :: _) _ _ _ => g = f | POk [] _ _ _ => False | PErr _ _ => False | PPanic => True end).
  { clear. induction fuel as [|fuel IH]; intros f more q old outs alt; [exact I|]. cbn [p_rep]. destruct (p_recover (g_statement eoi) q) as [es a al r|es e|]; [| |exact I].
    - destruct (match old with Some n => n =? length r | None => false end); [exact I|]. cbn [app]. apply IH.
    - destruct (length outs); reflexivity. }
  destruct (g_statement eoi st) as [es a al r|es e|] eqn:G; [| |exact I].
  - destruct (match old with Some n => n =? length r | None => false end); [exact I|]. cbn [app]. destruct es as [|f more].
    + apply IH. apply (lead_snoc _ a st); [exact H|]. rewrite G. reflexivity.
    + specialize (K f more r (Some (length r)) (outs ++ [a]) (merge_alts alt al)). destruct (p_rep _ _ _ _ _ _ _ _) as [[|g es] b al' q|es b|]; try contradiction; [|exact I]. subst g.
      pose proof (fwd_statement eoi st) as F. rewrite G in F. destruct F as (_ & _ & F). left. rewrite Ep. apply sec_app. inversion F; assumption.
  - pose proof (retry_cases (g_statement eoi) es e (match st with [] => [] | _ :: r => r end)) as R. destruct (p_retry _ _ _ _) as [es' a al r|es' e'|]; [| |exact I].
    + destruct R as (more & pre & q & b0 & al2 & r2 & -> & Eq & Gq). destruct (match old with Some n => n =? length r | None => false end); [exact I|]. cbn [app].
      assert (exists f more2, more ++ [e] = f :: more2 /\ first_error st0 f) as (f & more2 & -> & Hf).
      { destruct more as [|f more]; cbn [app]; do 2 eexists; (split; [reflexivity|]); [right; exists st, es; auto|].
        pose proof (fwd_statement eoi q) as F. rewrite Gq in F. destruct F as (_ & _ & F). left. rewrite Ep. apply sec_app. inversion F as [|f0 l0 F1 F2]; subst.
        destruct st as [|y st]; [destruct pre, q; try discriminate; exact F1|]. apply (sec_app [y]). rewrite Eq. apply sec_app. exact F1. }
      specialize (K f more2 r (Some (length r)) (outs ++ [a]) (merge_alts alt al)). destruct (p_rep _ _ _ _ _ _ _ _) as [[|g es2] b al' q2|es2 b|]; try contradiction; [|exact I]. subst g. exact Hf.
    + destruct R as [-> ->]. destruct (length outs); cbn [Nat.ltb Nat.leb]; (split; [exact H|]); exists es, e; (destruct alt as [l|]; cbn [merge_alts]; eexists; (split; [exact G|]); (split; [reflexivity|]); [rewrite max_rem|]; lia).
Qed.
Lemma module_first_error st : match g_module eoi st with
  | POk (f :: _) _ _ _ => first_error st f
  | PErr (f :: _) _ => first_error st f
  | PErr [] f => exists r es e, lead st r /\ g_statement eoi r = PErr es e /\ l_rem f <= l_rem e
  | _ => True
  end.
Proof.
  unfold g_module, p_then_ignore, p_map, p_then, p_repeated, p_repeated_at_least. pose proof (rep_lead (length st + 3) None [] None st st (lead_nil _)) as H.
  destruct (p_rep _ _ _ _ _ _ _ st) as [[|f es] a alt r|es e|]; [| |contradiction|exact I].
  - destruct H as (L & es & e & l & G & -> & Hl). unfold p_end. destruct r as [|[x sx] r]; cbn [app]; [exact I|]. exists ((x, sx) :: r), es, e. split; [exact L|]. split; [exact G|]. rewrite max_rem. lia.
  - destruct (p_end eoi r) as [es' b alt' r'|es' e'|]; cbn [app]; [exact H|exact H|exact I].
Qed.
Lemma no_repair (a w w' : strm) (t : stoken) (f : located token) r es e ss : lead (a ++ t :: w) r -> g_statement eoi r = PErr es e -> l_rem f <= l_rem e -> l_rem f = S (length w) ->
  tidy (a ++ [t]) -> fst t <> TPunct (ch ",") -> ~ module_at ss (a ++ t :: w').
Proof.
  intros L G H1 H2 T C M. destruct (lead_suffix _ _ L) as [p Ep]. pose proof (fwd_statement eoi r) as F. rewrite G in F. destruct F as [F _]. apply place_le in F.
  assert (exists a2, r = a2 ++ t :: w) as [a2 Er].
  { destruct (split_at _ _ _ _ Ep) as [(x & _ & X)|(x & E1 & X)]; [exists x; exact X|]. destruct x as [|y x]; [exists []; symmetry; exact X|]. exfalso. cbn [app] in X. injection X as _ X. subst w. rewrite app_length in *. lia. }
  destruct (lead_module _ _ L _ _ _ _ w' _ eq_refl Er T C M) as (ss' & M' & T2). destruct (module_first _ _ M') as (s & q & E); [destruct a2; discriminate|].
  destruct (rel_statement eoi t w w' r (a2 ++ t :: w')) as [R|R].
  - exists a2. auto.
  - rewrite G in R. cbn [reach] in R. lia.
  - rewrite G in R. destruct (g_statement eoi (a2 ++ t :: w')) as [es2 b al q2|es2 e2|]; [exact R|discriminate|discriminate].
Qed.
End Doc.

Lemma span_position (toks a w pre y : list (token * span)) (t t' : token * span) : NoDup (map snd toks) -> toks = a ++ t :: w -> toks = pre ++ t' :: y -> snd t = snd t' -> length y = length w.
Proof.
  revert a pre. induction toks as [|z toks IH]; intros a pre N E1 E2 S; [destruct a; discriminate|]. cbn [map] in N. apply NoDup_cons_iff in N as [N1 N2].
  destruct a as [|x a]; destruct pre as [|x' pre]; cbn [app] in *.
  - injection E1 as _ <-. injection E2 as _ <-. reflexivity.
  - exfalso. injection E1 as -> _. injection E2 as _ ->. apply N1. rewrite S. apply in_map, in_or_app. right. left. reflexivity.
  - exfalso. injection E1 as _ ->. injection E2 as -> _. apply N1. rewrite <- S. apply in_map, in_or_app. right. left. reflexivity.
  - injection E1 as _ E1. injection E2 as _ E2. exact (IH a pre N2 E1 E2 S).
Qed.
Lemma hopeless_module u src toks terrs o e1 errs (a w w' : strm) (t : stoken) ss : tokenize u src = Val (Some toks, terrs) -> parse_tokens src toks = Val (o, e1 :: errs) ->
  without_comments toks = a ++ t :: w -> e_span e1 = snd t -> e_reason e1 <> CustomMsg not_overflow -> tidy (a ++ [t]) -> fst t <> TPunct (ch ",") -> ~ module_at ss (a ++ t :: w').
Proof.
  intros Ht E Ew Es Er T C. unfold parse_tokens, parse_recovery in E. replace (filter not_comment toks) with (without_comments toks) in E by (apply filter_ext; intros [x sx]; destruct x; reflexivity).
  set (eoi := mkSpan _ _) in E. apply tokenize_spans in Ht. assert (Hs : spans_in 0 (length src) (without_comments toks)) by (eapply spans_in_sub; [apply subseq_filter|exact Ht]). rewrite Ew in Hs, E.
  assert (Hpos : forall f, stands eoi (a ++ t :: w) f -> e_span (l_err f) = snd t -> l_rem f = S (length w)).
  { intros f (pre & y & E1 & E2 & E3) E4. destruct y as [|[tk sp] y].
    - exfalso. destruct E3 as (E3 & _). rewrite E4 in E3. assert (In t (a ++ t :: w)) as Hin by (apply in_or_app; right; left; reflexivity).
      apply (spans_in_each _ _ _ _ Hs) in Hin. rewrite E3 in Hin. unfold eoi in Hin. cbn [sp_start sp_end] in Hin. pose proof (length_le_byte_len src). lia.
    - destruct E3 as [E3 _]. rewrite E2. cbn [length]. f_equal. apply (span_position _ a w pre y t (tk, sp) (spans_in_nodup _ _ _ Hs) eq_refl E1). cbn [snd]. congruence. }
  assert (Hfirst : forall f, first_error eoi (a ++ t :: w) f -> l_err f = e1 -> ~ module_at ss (a ++ t :: w')).
  { intros f [(m & _ & _ & K & _)|(r & es & L & G)] Ef; [congruence|]. destruct (lead_suffix _ _ _ L) as [p Ep].
    pose proof (fwd_statement eoi r) as F. rewrite G in F. destruct F as [F _]. apply (place_app eoi p) in F. rewrite <- Ep in F.
    apply (no_repair eoi a w w' t f r es f ss L G (le_n _)); [|exact T|exact C]. apply Hpos; [exact F|congruence]. }
  pose proof (module_first_error eoi (a ++ t :: w)) as M. pose proof (lax_module eoi (a ++ t :: w)) as X.
  destruct (g_module eoi (a ++ t :: w)) as [es b alt r|es e|]; [| |discriminate].
  - injection E as _ E. destruct es as [|f es]; [discriminate|]. cbn [map] in E. injection E as E _. exact (Hfirst f M E).
  - injection E as _ E. destruct es as [|f es]; cbn [app map] in E; injection E as E _; [|exact (Hfirst f M E)].
    destruct M as (r & es & e' & L & G & Hl). destruct X as [X _]. apply (no_repair eoi a w w' t e r es e' ss L G Hl); [|exact T|exact C]. apply Hpos; [exact X|congruence].
Qed.
Lemma hopeless u src (a w : strm) (t : stoken) e : marked u src a t w e -> tidy (a ++ [t]) -> fst t <> TPunct (ch ",") -> ~ repaired u a t.
Proof.
  intros (toks & terrs & o & errs & H1 & H2 & H3 & H4 & H5) H6 H7 (src' & [toks' ss' errs'] & w' & E & E' & N). cbn [pr_tokens pr_errors] in *. subst errs'.
  apply document_exact in E as [_ M]. rewrite E' in M. revert M. eapply hopeless_module; eassumption.
Qed.

(** ** The messages *)
Lemma fault_says ord eoi (toks : strm) e : fault eoi toks e -> says eoi toks (e_span e) (parser_error_message ord (simple_map token_display e)).
Proof.
  assert (B : forall p q r : text, begins (p ++ q) (p ++ q ++ r)) by (intros p q r; exists r; rewrite app_assoc; reflexivity).
  intros [tk Hin [_ [[R F]|(m & good & D & G & R & F)]]|(S & R & F & _)|x Hin (Hx & R & _ & F)].
  - apply (s_token _ _ _ _ tk); [exact Hin|]. unfold parser_error_message. cbn [simple_map e_reason e_found e_expected]. rewrite R, F. cbn [option_map]. apply B.
  - apply (s_kind _ _ _ _ tk good); [exact Hin| |exact G]. unfold parser_error_message. cbn [simple_map e_reason]. rewrite R. exact D.
  - apply s_end; [exact S|]. unfold parser_error_message. cbn [simple_map e_reason e_found e_expected]. rewrite R, F. cbn [option_map]. apply B.
  - apply (s_name _ _ _ _ x); [exact Hin|exact Hx|]. unfold parser_error_message. cbn [simple_map e_reason]. rewrite R. reflexivity.
Qed.
Lemma parse_says ord src toks o errs : parse_tokens src toks = Val (o, errs) ->
  Forall (fun e => says (mkSpan (byte_len src) (byte_len src + 1)) (without_comments toks) (e_span e) (parser_error_message ord (simple_map token_display e))) errs.
Proof. intros H. apply parse_faults in H. eapply Forall_impl; [|exact H]. intros e. apply fault_says. Qed.
