(** Layout and idle lines: what is shown corresponds. *)
From Verif Require Import Text Rope Chumsky Tokenizer Parser Numbers Index SemTok Diag Rename Cfg Backtrace Server SpecText SpecLex SpecParse SpecIndex SpecDiag SpecBacktrace SpecNumbers SpecCfg SpecView SpecSemTok SpecRename SpecPatch SpecSimilar SpecRebind SpecSteps SpecDot SpecLayout SpecLines SpecRoom SpecAfter SpecAfterShift SpecAfterHints SpecReformat
  PText PRope PLexSpec PLexProps PTokens PParse PParseProps PNumbers PHints PFold PFoldText PNav PRequest PExact PView PIndex PIndexDoc PIndexText PDiag PRename PRelex PRetree PRebind PUndo PSteps PDiagDoc PKeep PCfg PDot PCoherent PSumIndex PSumView PAlike PLocal PIdle PComment PLayout PRoom PAfter PAfterView PAfterShift PAfterHints PReformat.

(** ** Tokens other than comments and newlines have one spelling *)
Definition spelling (t : token) : option text :=
  match t with
  | TType w | TFuncModifier w | TIdent w => Some w
  | TDeclare => Some (str "declare") | TDefine => Some (str "define")
  | _ => None
  end.
Lemma reserved_spelling w t : In (w, t) reserved -> spelling t = Some w.
Proof.
  assert (Forall (fun x => spelling (snd x) = Some (fst x)) reserved) as H by (unfold reserved; repeat constructor). rewrite Forall_forall in H. intros Hi. exact (H _ Hi).
Qed.
Lemma word_spelling w t : word w t -> spelling t = Some w.
Proof. intros [H|[_ ->]]; [exact (reserved_spelling _ _ H)|reflexivity]. Qed.
Lemma one_spelling u t w w' : lexeme u t w -> lexeme u t w' -> t <> TComment -> t <> TNewline -> w' = w.
Proof.
  intros H H' N1 N2. destruct H; inversion H'; subst; try contradiction; try reflexivity; try congruence;
    repeat match goal with G : word _ _ |- _ => apply word_spelling in G end; cbn [spelling] in *; congruence.
Qed.
Lemma clean_spelling u : forall i t toks n, lexes u i t toks n -> n = 0 -> Forall (fun a => exists w, lexeme u (fst a) w /\ sp_end (snd a) - sp_start (snd a) = length w) toks.
Proof.
  induction 1 as [|i bl t w r toks n Hb [Hl _] _ IH|]; intros E; try discriminate; constructor; [|apply IH; exact E]. exists w. split; [exact Hl|]. cbn [snd sp_start sp_end]. lia.
Qed.
Lemma same_lengths u src src' toks toks' a b : tokenize u src = Val (Some toks, []) -> tokenize u src' = Val (Some toks', []) -> In a toks -> In b toks' -> fst a = fst b -> fst a <> TComment -> fst a <> TNewline ->
  sp_end (snd b) - sp_start (snd b) = sp_end (snd a) - sp_start (snd a).
Proof.
  intros H H' Ha Hb E N1 N2. pose proof (clean_spelling _ _ _ _ _ (tokenize_lexes _ _ _ _ H) eq_refl) as C. pose proof (clean_spelling _ _ _ _ _ (tokenize_lexes _ _ _ _ H') eq_refl) as C'.
  rewrite Forall_forall in C, C'. destruct (C _ Ha) as (w & L & ->). destruct (C' _ Hb) as (w' & L' & ->). rewrite <- E in L'. rewrite (one_spelling _ _ _ _ L L' N1 N2). reflexivity.
Qed.

(** ** Highlighting *)
Lemma tokens_alike (T : stoken -> stoken -> Prop) src src' k k' :
  Forall2 (fun a b => T a b /\ fst a = fst b /\ (fst a <> TComment -> fst a <> TNewline -> sp_end (snd b) - sp_start (snd b) = sp_end (snd a) - sp_start (snd a))) k k' ->
  forall ds es, Forall2 (shows (lsp_position src)) (filter_map highlighted k) ds -> Forall2 (shows (lsp_position src')) (filter_map highlighted k') es -> Forall2 (token_alike T src src') ds es.
Proof.
  induction 1 as [|x y a b (Ht & E & HL) _ IH]; intros ds es; cbn [filter_map]; [intros H1 H2; inversion H1; inversion H2; constructor|].
  assert (highlighted x = match highlight (fst x) with Some ty => Some (sp_start (snd x), sp_end (snd x) - sp_start (snd x), ty) | None => None end) as -> by reflexivity.
  assert (highlighted y = match highlight (fst x) with Some ty => Some (sp_start (snd y), sp_end (snd y) - sp_start (snd y), ty) | None => None end) as -> by (rewrite E; reflexivity).
  destruct (highlight (fst x)) as [ty|] eqn:Eh; [|apply IH].
  intros H1 H2. inversion H1 as [|? [[p1 l1] i1] ? ds' X1 X2]; subst. inversion H2 as [|? [[p2 l2] i2] ? es' Y1 Y2]; subst. constructor; [|apply IH; assumption].
  cbn [shows] in X1, Y1. destruct X1 as (-> & -> & X), Y1 as (-> & -> & Y). split; [exact (legend_unique _ _ _ Y X)|]. exists x, y. split; [exact Ht|]. do 4 (split; [reflexivity|]).
  intros N. apply HL; [exact N|]. intros N2. rewrite N2 in Eh. discriminate Eh.
Qed.
Lemma shown_solid pos k : forall ds, Forall2 (shows pos) (filter_map highlighted k) ds -> Forall2 (shows pos) (filter_map highlighted (solid k)) (besides_comments ds).
Proof.
  induction k as [|x k IH]; intros ds; cbn [filter_map]; [intros H; inversion H; constructor|].
  destruct (highlighted x) as [h|] eqn:Eh.
  - intros H. inversion H as [|? [[p n] i] ? ds' X1 X2]; subst. specialize (IH _ X2). unfold besides_comments. cbn [filter snd].
    unfold highlighted in Eh. destruct h as [[q m] ty]. cbn [shows] in X1. destruct X1 as (-> & -> & X). unfold comment_type. rewrite X. unfold solid. cbn [filter].
    destruct (fst x) eqn:Ex; cbn [highlight] in Eh; try discriminate Eh; injection Eh as <- <- <-; cbn [negb]; try exact IH;
      cbn [filter_map]; unfold highlighted at 1; rewrite Ex; cbn [highlight]; (constructor; [repeat split; exact X|exact IH]).
  - intros H. specialize (IH _ H). unfold solid. cbn [filter]. destruct (fst x) eqn:Ex; try exact IH; cbn [filter_map]; rewrite Eh; exact IH.
Qed.

(** ** Layout *)
Lemma counterparts_fst k k' a b : map fst k' = map fst k -> counterparts k k' a b -> fst a = fst b.
Proof. intros E. exact (combine_forall2 _ _ _ (map_fst_similar _ _ E) a b). Qed.
Lemma counterparts_one k k' lo hi lo' hi' a b x y : spans_in lo hi k -> spans_in lo' hi' k' -> counterparts k k' a b -> counterparts k k' x y -> (a = x <-> b = y).
Proof.
  intros H H' H1 H2. pose proof (spans_in_each _ _ _ _ H (in_combine_l _ _ _ _ H1)). pose proof (spans_in_each _ _ _ _ H' (in_combine_r _ _ _ _ H1)).
  destruct (counterparts_order _ _ _ _ _ _ H H' _ _ _ _ H1 H2) as [[E1 E2]|D]; [tauto|]. split; intros ->; lia.
Qed.
Section Respaced.
Variables (e : env) (s s' : server) (uri src src' : text) (d d' : doc).
Notation u := (e_u e).
Hypothesis P1 : plain_document src.
Hypothesis P2 : plain_document src'.
Hypothesis Ho : opened e s uri src d.
Hypothesis Ho' : opened e s' uri src' d'.
Hypothesis Hr : respaced u None src src'.
Hypothesis Hb : ~ Forall blank src.
Lemma respaced_pair : exists pr pr', parse_from_str u src = Val pr /\ parse_from_str u src' = Val pr' /\ tokenize u src = Val (Some (pr_tokens pr), []) /\ tokenize u src' = Val (Some (pr_tokens pr'), []) /\
  map fst (pr_tokens pr') = map fst (pr_tokens pr) /\ Forall2 (same_stmt (counterparts (pr_tokens pr) (pr_tokens pr'))) (pr_stmts pr) (pr_stmts pr') /\
  Forall2 (alike_error (counterparts (pr_tokens pr) (pr_tokens pr')) src src') (pr_errors pr) (pr_errors pr') /\ bound_alike pr pr'.
Proof.
  destruct (declaration_places _ _ _ _ _ 0 P1 Ho (Nat.le_0_l _)) as (pr & _ & Hp & Es & _). destruct (respaced_tokens _ _ _ Hr Hb) as (toks & toks' & Et & Et' & Em).
  assert (forall t pr0 tk, parse_from_str u t = Val pr0 -> tokenize u t = Val (Some tk, []) -> pr_tokens pr0 = tk) as Ek.
  { intros t pr0 tk Hq Ht. apply parse_from_str_cases in Hq as [(errs & E & _)|(tk0 & errs & E & -> & _)]; rewrite Ht in E; [discriminate E|]. injection E as <- _. reflexivity. }
  pose proof (Ek _ _ _ Hp Et) as K.
  assert (toks <> []) as Hne by (pose proof (tokenize_lexes _ _ _ _ Et) as L; exact (lexes_nonblank_tokens _ _ _ _ _ L Hb)).
  destruct (respaced_parse _ _ _ _ Hr Hp ltac:(rewrite K; exact Hne)) as (pr' & Hp' & Em' & Hst & _ & BA). pose proof (Ek _ _ _ Hp' Et') as K'. subst toks toks'.
  exists pr, pr'. do 5 (split; [assumption|]). split; [exact Hst|]. split; [|exact BA].
  apply (proj2 (parsed_alike u src src' pr pr' Hp Et Hp' Et' ltac:(eapply forall2_impl; [|exact (map_fst_similar _ _ Em')]; intros x y E; left; exact E))).
Qed.
Lemma respaced_diagnostics diags diags' : visits_all (e_ord e) -> analyze e uri src = Val (d, diags) -> analyze e uri src' = Val (d', diags') ->
  exists pr pr' k, parse_from_str u src = Val pr /\ parse_from_str u src' = Val pr' /\ Permutation k diags' /\ Forall2 (diagnostic_alike (counterparts (pr_tokens pr) (pr_tokens pr')) uri src src') diags k.
Proof.
  intros Hv A A'. destruct respaced_pair as (pr & pr' & Hp & Hp' & Et & Et' & Em & Hst & X & (_ & BU & BR)). exists pr, pr'.
  destruct (same_diagnostics e s s' uri src src' d d' pr pr' (counterparts (pr_tokens pr) (pr_tokens pr')) P1 P2 Ho Ho' Hp Hp' (fun a b H => or_introl (counterparts_fst _ _ a b Em H))) with (diags := diags) (diags' := diags') as (k & K1 & K2); try assumption.
  - intros a b H. split; [exact (in_combine_l _ _ _ _ H)|exact (in_combine_r _ _ _ _ H)].
  - exists k. auto.
Qed.
Lemma respaced_shown : visits_all (e_ord e) -> roots s' = roots s -> values_alike e src src' (doc_stmts d) (doc_stmts d') ->
  exists pr pr', parse_from_str u src = Val pr /\ parse_from_str u src' = Val pr' /\ shown_alike (counterparts (pr_tokens pr) (pr_tokens pr')) uri src src' e s s' /\
    exists out out', semantic_tokens_full s uri = Val (Some out) /\ semantic_tokens_full s' uri = Val (Some out') /\ Forall2 (token_alike (counterparts (pr_tokens pr) (pr_tokens pr')) src src') (decode out) (decode out').
Proof.
  intros Hv Er Hval. destruct respaced_pair as (pr & pr' & Hp & Hp' & Et & Et' & Em & Hst & X & (_ & BU & BR)). exists pr, pr'. split; [exact Hp|]. split; [exact Hp'|].
  destruct (opened_here _ _ _ _ _ _ Ho Hp) as (_ & _ & E1 & _). destruct (opened_here _ _ _ _ _ _ Ho' Hp') as (_ & _ & E2 & _). rewrite E1, E2 in Hval.
  pose proof (proj1 (parse_from_str_module _ _ _ Hp)) as Hsp. pose proof (proj1 (parse_from_str_module _ _ _ Hp')) as Hsp'.
  assert (Hi : forall a b, counterparts (pr_tokens pr) (pr_tokens pr') a b -> In a (pr_tokens pr) /\ In b (pr_tokens pr')) by (intros a b H; split; [exact (in_combine_l _ _ _ _ H)|exact (in_combine_r _ _ _ _ H)]).
  split.
  - apply (same_shown e s s' uri src src' d d' pr pr' (counterparts (pr_tokens pr) (pr_tokens pr')) P1 P2 Ho Ho' Hp Hp' (fun a b H => or_introl (counterparts_fst _ _ a b Em H)) Hi); try assumption.
    intros a b x y. exact (counterparts_one _ _ _ _ _ _ a b x y Hsp Hsp').
  - destruct (tokens_of _ _ _ _ _ _ P1 Ho Hp) as (out & O1 & H1). destruct (tokens_of _ _ _ _ _ _ P2 Ho' Hp') as (out' & O2 & H2). exists out, out'. split; [exact O1|]. split; [exact O2|].
    eapply tokens_alike; [|exact H1|exact H2]. eapply forall2_impl; [|apply (combine_pairs (pr_tokens pr) (pr_tokens pr')); pose proof (f_equal (@length _) Em) as EL; rewrite !map_length in EL; symmetry; exact EL].
    intros a b H. pose proof (counterparts_fst _ _ a b Em H) as E. split; [exact H|]. split; [exact E|]. destruct (Hi _ _ H). exact (same_lengths u src src' (pr_tokens pr) (pr_tokens pr') a b Et Et' ltac:(assumption) ltac:(assumption) E).
Qed.
Lemma respaced_graphs m : graph_for s' uri m = graph_for s uri m.
Proof.
  destruct respaced_pair as (pr & pr' & Hp & Hp' & Et & Et' & Em & Hst & X & (_ & BU & BR)).
  exact (same_graphs e s s' uri src src' d d' pr pr' (counterparts (pr_tokens pr) (pr_tokens pr')) Ho Ho' Hp Hp' (fun a b H => or_introl (counterparts_fst _ _ a b Em H)) Hst m).
Qed.
End Respaced.

(** ** Idle lines *)
Section Lines.
Variables (e : env) (s s' : server) (uri src src' : text) (d d' : doc) (toks toks' : list stoken) (ss : list statement).
Notation u := (e_u e).
Hypothesis P1 : plain_document src.
Hypothesis P2 : plain_document src'.
Hypothesis Ho : opened e s uri src d.
Hypothesis Ho' : opened e s' uri src' d'.
Hypothesis Hp : parse_from_str u src = Val (mkPR toks ss []).
Hypothesis Hne : ss <> [].
Hypothesis Et' : tokenize u src' = Val (Some toks', []).
Hypothesis Hr : relined LineStart (without_comments toks) (without_comments toks').
Notation T := (counterparts (solid toks) (solid toks')).
Lemma solid_in a b : T a b -> In a toks /\ In b toks'.
Proof. intros H. pose proof (in_combine_l _ _ _ _ H) as A. pose proof (in_combine_r _ _ _ _ H) as B. apply filter_In in A as [A _]. apply filter_In in B as [B _]. auto. Qed.
Lemma lines_diagnostics diags diags' : visits_all (e_ord e) -> analyze e uri src = Val (d, diags) -> analyze e uri src' = Val (d', diags') ->
  exists k, Permutation k diags' /\ Forall2 (diagnostic_alike T uri src src') diags k.
Proof.
  intros Hv A A'. destruct (lines_parse _ _ _ _ _ _ Hp Hne Et' Hr) as (ss' & Hp' & (Em & E1 & E2 & Hst & (_ & BU & BR))). cbn [pr_tokens pr_stmts pr_errors] in *.
  destruct (same_diagnostics e s s' uri src src' d d' (mkPR toks ss []) (mkPR toks' ss' []) T P1 P2 Ho Ho' Hp Hp' (fun a b H => or_introl (counterparts_fst _ _ a b Em H))) with (diags := diags) (diags' := diags') as (k & K1 & K2); try assumption.
  - exact solid_in.
  - constructor.
  - exists k. auto.
Qed.
Lemma lines_shown : visits_all (e_ord e) -> roots s' = roots s -> values_alike e src src' (doc_stmts d) (doc_stmts d') ->
  shown_alike T uri src src' e s s' /\
  exists out out', semantic_tokens_full s uri = Val (Some out) /\ semantic_tokens_full s' uri = Val (Some out') /\ Forall2 (token_alike T src src') (besides_comments (decode out)) (besides_comments (decode out')).
Proof.
  intros Hv Er Hval. destruct (lines_parse _ _ _ _ _ _ Hp Hne Et' Hr) as (ss' & Hp' & (Em & E1 & E2 & Hst & (_ & BU & BR))). cbn [pr_tokens pr_stmts pr_errors] in *.
  destruct (opened_here _ _ _ _ _ _ Ho Hp) as (_ & _ & D1 & _). destruct (opened_here _ _ _ _ _ _ Ho' Hp') as (_ & _ & D2 & _). rewrite D1, D2 in Hval.
  destruct (solid_document _ _ _ _ Hp) as (Hsp & _). destruct (solid_document _ _ _ _ Hp') as (Hsp' & _). split.
  - apply (same_shown e s s' uri src src' d d' (mkPR toks ss []) (mkPR toks' ss' []) T P1 P2 Ho Ho' Hp Hp' (fun a b H => or_introl (counterparts_fst _ _ a b Em H)) solid_in); try assumption.
    intros a b x y. exact (counterparts_one _ _ _ _ _ _ a b x y Hsp Hsp').
  - destruct (tokens_of _ _ _ _ _ _ P1 Ho Hp) as (out & O1 & H1). destruct (tokens_of _ _ _ _ _ _ P2 Ho' Hp') as (out' & O2 & H2). exists out, out'. split; [exact O1|]. split; [exact O2|]. cbn [pr_tokens] in H1, H2.
    assert (tokenize u src = Val (Some toks, [])) as Et.
    { exact (proj1 (proj1 (document_exact _ _ _ _) Hp)). }
    eapply tokens_alike; [|exact (shown_solid _ _ _ H1)|exact (shown_solid _ _ _ H2)].
    eapply forall2_impl; [|apply (combine_pairs (solid toks) (solid toks')); pose proof (f_equal (@length _) Em) as EL; rewrite !map_length in EL; symmetry; exact EL].
    intros a b H. pose proof (counterparts_fst _ _ a b Em H) as E. split; [exact H|]. split; [exact E|]. destruct (solid_in _ _ H). exact (same_lengths u src src' toks toks' a b Et Et' ltac:(assumption) ltac:(assumption) E).
Qed.
Lemma lines_graphs m : graph_for s' uri m = graph_for s uri m.
Proof.
  destruct (lines_parse _ _ _ _ _ _ Hp Hne Et' Hr) as (ss' & Hp' & (Em & E1 & E2 & Hst & _)). cbn [pr_tokens pr_stmts pr_errors] in *.
  exact (same_graphs e s s' uri src src' d d' (mkPR toks ss []) (mkPR toks' ss' []) T Ho Ho' Hp Hp' (fun a b H => or_introl (counterparts_fst _ _ a b Em H)) Hst m).
Qed.
End Lines.
