(** Other values of literals: what is shown corresponds. *)
From Verif Require Import Text Rope Chumsky Tokenizer Parser Numbers Index SemTok Diag Rename Cfg Backtrace Server SpecText SpecLex SpecParse SpecIndex SpecDiag SpecBacktrace SpecNumbers SpecCfg SpecView SpecSemTok SpecRename SpecPatch SpecSimilar SpecValues SpecRebind SpecSteps SpecDot SpecLayout SpecLines SpecRoom SpecAfter SpecAfterShift SpecAfterHints SpecReformat SpecValued
  PText PRope PLexSpec PLexProps PTokens PParse PParseProps PNumbers PHints PFold PFoldText PNav PRequest PExact PView PIndex PIndexDoc PIndexText PDiag PRename PRelex PNatural PRetree PRebind PUndo PSteps PDiagDoc PKeep PCfg PDot PCoherent PSumIndex PSumView PAlike PLocal PIdle PComment PLayout PRoom PAfter PAfterView PAfterShift PAfterHints PReformat PReformatDoc.

Lemma revalued_resembles a b : revalued a b -> resembles a b.
Proof. intros [->|H]; [left; reflexivity|right]. destruct a, b; try exact H; contradiction. Qed.
Lemma revalued_name a b n : revalued a b -> token_name a = Some n -> a = b.
Proof. intros [->|H] E; [reflexivity|]. destruct a, b; try contradiction; discriminate E. Qed.
Lemma revalued_highlight a b : revalued a b -> highlight a = highlight b.
Proof. intros [->|H]; [reflexivity|]. destruct a, b; try contradiction; reflexivity. Qed.

Lemma parsed_valued u src src' pr pr' : parse_from_str u src = Val pr -> tokenize u src = Val (Some (pr_tokens pr), []) -> parse_from_str u src' = Val pr' -> tokenize u src' = Val (Some (pr_tokens pr'), []) ->
  Forall2 (fun a b => resembles (fst a) (fst b)) (pr_tokens pr) (pr_tokens pr') ->
  Forall2 (same_stmt (counterparts (pr_tokens pr) (pr_tokens pr'))) (pr_stmts pr) (pr_stmts pr') /\
  Forall2 (alike_error (counterparts (pr_tokens pr) (pr_tokens pr')) src src') (pr_errors pr) (pr_errors pr').
Proof.
  intros P T P' T' R.
  pose proof (parse_similar_exactly (counterparts (pr_tokens pr) (pr_tokens pr')) src src' (pr_tokens pr) (pr_tokens pr') (combine_forall2 _ _ _ R) (counterparts_self _ _ (forall2_len _ _ _ R))) as H.
  unfold parse_from_str in P, P'. rewrite T in P. rewrite T' in P'. cbn [rbind] in P, P'.
  destruct (parse_tokens src (pr_tokens pr)) as [[ss es]|]; [|discriminate P]. destruct (parse_tokens src' (pr_tokens pr')) as [[ss' es']|]; [|contradiction]. cbn [rbind map app] in P, P'.
  injection P as P. injection P' as P'. destruct H as [Hs He].
  assert (pr_stmts pr = match ss with Some x => x | None => [] end) as E1 by (rewrite <- P; reflexivity). assert (pr_stmts pr' = match ss' with Some x => x | None => [] end) as E2 by (rewrite <- P'; reflexivity).
  assert (pr_errors pr = map (simple_map token_display) es) as E3 by (rewrite <- P; reflexivity). assert (pr_errors pr' = map (simple_map token_display) es') as E4 by (rewrite <- P'; reflexivity).
  rewrite E1, E2, E3, E4. split; [destruct ss, ss'; try contradiction Hs; [exact Hs|constructor]|]. clear - He.
  induction He as [|e e' r r' [(H0 & H1 & H2 & H3) _] _ IH]; cbn [map]; constructor; [|exact IH]. unfold alike_error, simple_map. cbn [e_span e_reason e_expected e_found]. rewrite H1, H2. split; [exact H0|]. split; [reflexivity|]. split; [reflexivity|].
  destruct (e_found e), (e_found e'); exact I || exact H3.
Qed.

Section Documents.
Variables (e : env) (s s' : server) (uri src src' : text) (d d' : doc).
Notation u := (e_u e).
Hypothesis P1 : plain_document src.
Hypothesis P2 : plain_document src'.
Hypothesis Ho : opened e s uri src d.
Hypothesis Ho' : opened e s' uri src' d'.
Hypothesis Hr : revalued_text u src src'.
Lemma valued_pair : exists pr pr', parse_from_str u src = Val pr /\ parse_from_str u src' = Val pr' /\
  Forall2 (fun a b => revalued (fst a) (fst b)) (pr_tokens pr) (pr_tokens pr') /\ Forall2 (same_stmt (counterparts (pr_tokens pr) (pr_tokens pr'))) (pr_stmts pr) (pr_stmts pr') /\
  Forall2 (alike_error (counterparts (pr_tokens pr) (pr_tokens pr')) src src') (pr_errors pr) (pr_errors pr') /\ bound_alike pr pr'.
Proof.
  destruct (declaration_places _ _ _ _ _ 0 P1 Ho (Nat.le_0_l _)) as (pr & _ & Hp & Es & _). destruct (declaration_places _ _ _ _ _ 0 P2 Ho' (Nat.le_0_l _)) as (pr' & _ & Hp' & Es' & _).
  destruct Hr as (toks & toks' & Et & Et' & R).
  assert (forall t pr0 tk, parse_from_str u t = Val pr0 -> tokenize u t = Val (Some tk, []) -> pr_tokens pr0 = tk) as Ek.
  { intros t pr0 tk Hq Ht. apply parse_from_str_cases in Hq as [(errs & E & _)|(tk0 & errs & E & -> & _)]; rewrite Ht in E; [discriminate E|]. injection E as <- _. reflexivity. }
  pose proof (Ek _ _ _ Hp Et) as K. pose proof (Ek _ _ _ Hp' Et') as K'. subst toks toks'. exists pr, pr'. do 3 (split; [assumption|]).
  assert (Forall2 (fun a b => resembles (fst a) (fst b)) (pr_tokens pr) (pr_tokens pr')) as R' by (eapply forall2_impl; [|exact R]; intros a b H; apply revalued_resembles; exact H).
  destruct (parsed_valued u src src' pr pr' Hp Et Hp' Et' R') as [S X]. split; [exact S|]. split; [exact X|].
  pose proof (proj1 (parse_from_str_module _ _ _ Hp)) as Hsp. pose proof (proj1 (parse_from_str_module _ _ _ Hp')) as Hsp'.
  pose proof (layout _ _ _ Hp) as (_ & Hrg & _). pose proof (provenance _ _ _ Hp) as Hsub. pose proof (provenance _ _ _ Hp') as Hsub'.
  assert (same_bindings (counterparts (pr_tokens pr) (pr_tokens pr')) (recorded (pr_stmts pr) (pr_tokens pr)) (recorded (pr_stmts pr') (pr_tokens pr'))) as B.
  { apply (bindings_stay _ _ _ _ _ _ Hsp Hsp' R' Hsub Hrg S). intros x y t t' _ _ _ _ Hx Hy. apply (combine_forall2 _ _ _ R) in Hx, Hy.
    rewrite <- (revalued_name _ _ _ Hx (occ_token_name x)), <- (revalued_name _ _ _ Hy (occ_token_name y)), !occ_token_name. split; congruence. }
  split; [exact B|]. eapply same_reports; [exact Hsp|exact Hsp'|exact B].
Qed.

Section Parsed.
Variables (pr pr' : parser_result).
Hypothesis Hp : parse_from_str u src = Val pr.
Hypothesis Hp' : parse_from_str u src' = Val pr'.
Notation T := (counterparts (pr_tokens pr) (pr_tokens pr')).
Notation l := (recorded (pr_stmts pr) (pr_tokens pr)).
Notation l' := (recorded (pr_stmts pr') (pr_tokens pr')).
Hypothesis R : Forall2 (fun a b => revalued (fst a) (fst b)) (pr_tokens pr) (pr_tokens pr').
Hypothesis S : Forall2 (same_stmt T) (pr_stmts pr) (pr_stmts pr').
Hypothesis X : Forall2 (alike_error T src src') (pr_errors pr) (pr_errors pr').
Hypothesis B : bound_alike pr pr'.
Lemma valued_T a b : T a b -> revalued (fst a) (fst b).
Proof. exact (combine_forall2 _ _ _ R a b). Qed.
Lemma valued_in a b : T a b -> In a (pr_tokens pr) /\ In b (pr_tokens pr').
Proof. intros H. split; [exact (in_combine_l _ _ _ _ H)|exact (in_combine_r _ _ _ _ H)]. Qed.
Lemma valued_one a b x y : T a b -> T x y -> (a = x <-> b = y).
Proof. exact (counterparts_one _ _ _ _ _ _ a b x y (proj1 (parse_from_str_module _ _ _ Hp)) (proj1 (parse_from_str_module _ _ _ Hp'))). Qed.
Lemma diagnostics_kept diags diags' : visits_all (e_ord e) -> analyze e uri src = Val (d, diags) -> analyze e uri src' = Val (d', diags') ->
  exists k, Permutation k diags' /\ Forall2 (diagnostic_alike T uri src src') diags k.
Proof.
  intros Hv A A'. destruct B as (_ & BU & BR).
  exact (same_diagnostics e s s' uri src src' d d' pr pr' T P1 P2 Ho Ho' Hp Hp' valued_T valued_in S BU BR diags diags' Hv X A A').
Qed.
Lemma shown_kept : visits_all (e_ord e) -> roots s' = roots s -> values_alike e src src' (doc_stmts d) (doc_stmts d') ->
  shown_alike T uri src src' e s s'.
Proof.
  intros Hv Er Hval. destruct B as (_ & BU & BR).
  destruct (opened_here _ _ _ _ _ _ Ho Hp) as (_ & _ & E1 & _). destruct (opened_here _ _ _ _ _ _ Ho' Hp') as (_ & _ & E2 & _). rewrite E1, E2 in Hval.
  apply (same_shown e s s' uri src src' d d' pr pr' T P1 P2 Ho Ho' Hp Hp' valued_T valued_in valued_one); assumption.
Qed.
Lemma tokens_kept : exists out out', semantic_tokens_full s uri = Val (Some out) /\ semantic_tokens_full s' uri = Val (Some out') /\ Forall2 (token_kept T src src') (decode out) (decode out').
Proof.
  destruct (tokens_of _ _ _ _ _ _ P1 Ho Hp) as (out & O1 & H1). destruct (tokens_of _ _ _ _ _ _ P2 Ho' Hp') as (out' & O2 & H2). exists out, out'. split; [exact O1|]. split; [exact O2|].
  assert (Forall2 (fun a b => T a b) (pr_tokens pr) (pr_tokens pr')) as F by (apply combine_pairs; exact (forall2_len _ _ _ R)).
  assert (forall k k', Forall2 (fun a b => T a b) k k' -> forall ds es, Forall2 (shows (lsp_position src)) (filter_map highlighted k) ds -> Forall2 (shows (lsp_position src')) (filter_map highlighted k') es -> Forall2 (token_kept T src src') ds es) as G; [|exact (G _ _ F _ _ H1 H2)].
  clear - R. induction 1 as [|x y a b Ht _ IH]; intros ds es; cbn [filter_map]; [intros H1 H2; inversion H1; inversion H2; constructor|].
  assert (highlighted x = match highlight (fst x) with Some ty => Some (sp_start (snd x), sp_end (snd x) - sp_start (snd x), ty) | None => None end) as -> by reflexivity.
  assert (highlighted y = match highlight (fst x) with Some ty => Some (sp_start (snd y), sp_end (snd y) - sp_start (snd y), ty) | None => None end) as -> by (rewrite (revalued_highlight _ _ (combine_forall2 _ _ _ R _ _ Ht)); reflexivity).
  destruct (highlight (fst x)) as [ty|] eqn:Eh; [|apply IH].
  intros H1 H2. inversion H1 as [|? [[p1 l1] i1] ? ds' X1 X2]; subst. inversion H2 as [|? [[p2 l2] i2] ? es' Y1 Y2]; subst. constructor; [|apply IH; assumption].
  cbn [shows] in X1, Y1. destruct X1 as (-> & -> & X1), Y1 as (-> & -> & Y1). split; [exact (legend_unique _ _ _ Y1 X1)|]. exists x, y. split; [exact Ht|]. repeat split.
Qed.
Lemma graphs_kept m : graph_for s' uri m = graph_for s uri m.
Proof. exact (same_graphs e s s' uri src src' d d' pr pr' T Ho Ho' Hp Hp' valued_T S m). Qed.

(** ** Requests *)
Lemma occ_kept x x' : same_occ T x x' -> o_ud x = o_ud x' /\ o_kind x = o_kind x' /\ o_body x = o_body x' /\ o_name x = o_name x'.
Proof.
  intros (H1 & H2 & H3 & H4). split; [exact H1|]. split; [exact H2|]. split; [exact H3|]. pose proof (revalued_name _ _ _ (valued_T _ _ H4) (occ_token_name x)) as E.
  pose proof (occ_token_name x) as E'. rewrite E, occ_token_name in E'. injection E' as E'. congruence.
Qed.
Lemma entries_kept ud k b n : Forall2 (same_occ T) (filter (entry_is ud k b n) l) (filter (entry_is ud k b n) l').
Proof.
  apply filter_forall2; [|exact (proj1 (proj1 B))]. intros x x' H. destruct (occ_kept _ _ H) as (H1 & H2 & H3 & H4). unfold entry_is. rewrite H1, H2, H3, H4. reflexivity.
Qed.
Lemma pair_right x : In x l -> exists x', In x' l' /\ same_occ T x x'.
Proof. intros H. destruct (proj1 (forall2_pair _ _ _ (proj1 (proj1 B))) _ H) as (y & Hy). exists y. split; [exact (in_combine_r _ _ _ _ Hy)|exact (combine_forall2 _ _ _ (proj1 (proj1 B)) _ _ Hy)]. Qed.
Lemma pair_left x' : In x' l' -> exists x, In x l /\ same_occ T x x'.
Proof. intros H. destruct (proj2 (forall2_pair _ _ _ (proj1 (proj1 B))) _ H) as (y & Hy). exists y. split; [exact (in_combine_l _ _ _ _ Hy)|exact (combine_forall2 _ _ _ (proj1 (proj1 B)) _ _ Hy)]. Qed.
Variables (a b : stoken) (p p' : nat).
Hypothesis Hab : T a b.
Hypothesis Ha : covers (snd a) p.
Hypothesis Hb : covers (snd b) p'.
Lemma symbols_kept :
  (symbol_at d (lsp_position src p) = None /\ symbol_at d' (lsp_position src' p') = None) \/
  exists o o', symbol_at d (lsp_position src p) = Some o /\ symbol_at d' (lsp_position src' p') = Some o' /\ In o l /\ In o' l' /\ same_occ T o o' /\ occ_token o = a /\ occ_token o' = b.
Proof.
  destruct (opened_here _ _ _ _ _ _ Ho Hp) as (I1 & R1 & _). destruct (opened_here _ _ _ _ _ _ Ho' Hp') as (I2 & R2 & _).
  destruct (indexed_ok _ _ _ _ I1) as (_ & _ & Hsp & Hsub & _). destruct (indexed_ok _ _ _ _ I2) as (_ & _ & Hsp' & Hsub' & _).
  destruct (valued_in _ _ Hab) as [Ia Ib]. pose proof (spans_in_each _ _ _ _ Hsp Ia) as La. pose proof (spans_in_each _ _ _ _ Hsp' Ib) as Lb.
  assert (p <= length src) as Lp by (destruct Ha; lia). assert (p' <= length src') as Lp' by (destruct Hb; lia).
  assert (forall x, In x l -> covers (o_span x) p -> occ_token x = a) as U1.
  { intros x Hx [C1 C2]. destruct (spans_in_disjoint _ _ _ _ _ Hsp (recorded_token _ _ _ Hsp Hsub _ Hx) Ia) as [G|G]; [exact G|]. destruct Ha. change (snd (occ_token x)) with (o_span x) in G. lia. }
  assert (forall x, In x l' -> covers (o_span x) p' -> occ_token x = b) as U2.
  { intros x Hx [C1 C2]. destruct (spans_in_disjoint _ _ _ _ _ Hsp' (recorded_token _ _ _ Hsp' Hsub' _ Hx) Ib) as [G|G]; [exact G|]. destruct Hb. change (snd (occ_token x)) with (o_span x) in G. lia. }
  assert (forall x x', same_occ T x x' -> (occ_token x = a <-> occ_token x' = b)) as V by (intros x x' (_ & _ & _ & H); exact (valued_one _ _ _ _ H Hab)).
  assert (forall x, occ_token x = a -> covers (o_span x) p) as C1 by (intros x E; change (o_span x) with (snd (occ_token x)); rewrite E; exact Ha).
  assert (forall x, occ_token x = b -> covers (o_span x) p') as C2 by (intros x E; change (o_span x) with (snd (occ_token x)); rewrite E; exact Hb).
  destruct (symbol_at_cases e src d pr I1 R1 P1 p Lp) as [[E N]|(o & m & ud & E & Io & Co & _)]; destruct (symbol_at_cases e src' d' pr' I2 R2 P2 p' Lp') as [[E' N']|(o' & m' & ud' & E' & Io' & Co' & _)].
  - left. auto.
  - exfalso. destruct (pair_left _ Io') as (x & Ix & Sx). exact (N x Ix (C1 _ (proj2 (V _ _ Sx) (U2 _ Io' Co')))).
  - exfalso. destruct (pair_right _ Io) as (x & Ix & Sx). exact (N' x Ix (C2 _ (proj1 (V _ _ Sx) (U1 _ Io Co)))).
  - right. exists o, o'. do 4 (split; [assumption|]). destruct (pair_right _ Io) as (x & Ix & Sx). pose proof (proj1 (V _ _ Sx) (U1 _ Io Co)) as Tx. pose proof (U2 _ Io' Co') as To'.
    assert (x = o') as <-; [|auto]. destruct (token_kinds x o' ltac:(congruence)) as [K|[[K1 K2]|[K1 K2]]].
    + exact (local_body e src' d' pr' I2 x o' Ix Io' ltac:(congruence) K).
    + exfalso. destruct (pair_left _ Io') as (y & Iy & Sy). pose proof (proj2 (V _ _ Sy) To') as Ty. destruct (occ_kept _ _ Sx) as (_ & Kx & _). destruct (occ_kept _ _ Sy) as (_ & Ky & _).
      apply (prefers_function e src d pr I1 R1 P1 p o y Lp E Iy (C1 _ Ty)); congruence.
    + exfalso. exact (prefers_function e src' d' pr' I2 R2 P2 p' o' x Lp' E' Ix (C2 _ Tx) K1 K2).
Qed.
Lemma locations_kept os os' : Forall2 (same_occ T) os os' -> Forall2 (location_alike T uri src src') (map (location_of src uri) (map o_span os)) (map (location_of src' uri) (map o_span os')).
Proof.
  induction 1 as [|x x' os os' (_ & _ & _ & H) _ IH]; cbn [map]; constructor; [|exact IH]. split; [reflexivity|]. split; [reflexivity|].
  exact (token_range src src' T _ _ H).
Qed.
Lemma requests_kept : requests_alike T uri src src' e s s' a b (lsp_position src p) (lsp_position src' p').
Proof.
  destruct (opened_here _ _ _ _ _ _ Ho Hp) as (I1 & R1 & _ & G1). destruct (opened_here _ _ _ _ _ _ Ho' Hp') as (I2 & R2 & _ & G2).
  destruct symbols_kept as [[E E']|(o & o' & E & E' & Io & Io' & So & Ta & Tb)].
  - unfold requests_alike, goto_definition, goto_declaration, references, get_use_def_ranges, prepare_rename, rename. rewrite G1, G2. cbn [obind]. rewrite E, E'. cbn [rbind rmap option_map]. split; [left; repeat split|]. intros new _. reflexivity.
  - assert (o_span o = snd a) as Sa by (rewrite <- Ta; reflexivity). assert (o_span o' = snd b) as Sb by (rewrite <- Tb; reflexivity). destruct (occ_kept _ _ So) as (_ & K & Bo & N). split.
    + right. exists (map (location_of src uri) (spans pr Def o)), (map (location_of src' uri) (spans pr' Def o')), (map (location_of src uri) (spans pr Decl o)), (map (location_of src' uri) (spans pr' Decl o')),
        (map (location_of src uri) (spans pr Use o)), (map (location_of src' uri) (spans pr' Use o')).
      unfold goto_definition, goto_declaration, references. pose proof (fun ud => answer_at e s uri src d pr I1 R1 G1 P1 o p ud E) as A1. pose proof (fun ud => answer_at e s' uri src' d' pr' I2 R2 G2 P2 o' p' ud E') as A2.
      rewrite !A1, !A2, Sa, Sb. cbn [ud_kind_is_def rmap rbind option_map snd]. rewrite !app_nil_r.
      rewrite (prepare_symbol e s uri src d pr _ P1 I1 R1 G1), (prepare_symbol e s' uri src' d' pr' _ P2 I2 R2 G2), E, E'. cbn [option_map]. rewrite Sa, Sb.
      split; [destruct (external_locations e (roots s) _); [right; eexists; reflexivity|left; reflexivity]|]. split; [destruct (external_locations e (roots s') _); [right; eexists; reflexivity|left; reflexivity]|].
      do 6 (split; [reflexivity|]). unfold spans, spans_of. rewrite <- K, <- Bo, <- N. split; [|split]; apply locations_kept, entries_kept.
    + intros new Hn. unfold rename. rewrite G1, G2, E, E', !unsigned_absolute by exact Hn. unfold absolute_rename. rewrite <- K.
      destruct (check_new_name u (o_kind o) new) as [[final|m]|]; [|reflexivity|exact I]. cbn [rbind].
      destruct (symbol_at_listed e src d pr I1 _ o E) as (_ & m & ud & Hm & Hud). destruct (symbol_at_listed e src' d' pr' I2 _ o' E') as (_ & m' & ud' & Hm' & Hud').
      rewrite (table_use_defs _ _ _ Hm), (table_use_defs _ _ _ Hm'), Hud, Hud', R1, R2. cbn [rbind rename_alike].
      rewrite (entry_edits e src d pr I1 P1 _ _ _ _ _ final Hm Hud), (entry_edits e src' d' pr' I2 P2 _ _ _ _ _ final Hm' Hud'). rewrite <- K, <- Bo, <- N.
      apply (forall2_maps (same_occ T)).
      * unfold entry_occs. repeat apply Forall2_app; apply entries_kept.
      * intros x y _ (_ & _ & _ & H). split; [reflexivity|]. exact (token_range src src' T _ _ H).
Qed.
End Parsed.
End Documents.

(** ** Whole documents *)
Lemma valued_diagnostics e s s' uri src src' d d' : plain_document src -> plain_document src' -> opened e s uri src d -> opened e s' uri src' d' -> revalued_text (e_u e) src src' ->
  forall diags diags', visits_all (e_ord e) -> analyze e uri src = Val (d, diags) -> analyze e uri src' = Val (d', diags') ->
  exists pr pr' k, parse_from_str (e_u e) src = Val pr /\ parse_from_str (e_u e) src' = Val pr' /\ Permutation k diags' /\ Forall2 (diagnostic_alike (counterparts (pr_tokens pr) (pr_tokens pr')) uri src src') diags k.
Proof.
  intros P1 P2 Ho Ho' Hr diags diags' Hv A A'. destruct (valued_pair e s s' uri src src' d d' P1 P2 Ho Ho' Hr) as (pr & pr' & Hp & Hp' & R & S & X & B). exists pr, pr'.
  destruct (diagnostics_kept e s s' uri src src' d d' P1 P2 Ho Ho' pr pr' Hp Hp' R S X B diags diags' Hv A A') as (k & K). exists k. split; [exact Hp|]. split; [exact Hp'|]. exact K.
Qed.
Lemma valued_shown e s s' uri src src' d d' : plain_document src -> plain_document src' -> opened e s uri src d -> opened e s' uri src' d' -> revalued_text (e_u e) src src' ->
  exists pr pr', parse_from_str (e_u e) src = Val pr /\ parse_from_str (e_u e) src' = Val pr' /\
    (visits_all (e_ord e) -> roots s' = roots s -> values_alike e src src' (doc_stmts d) (doc_stmts d') -> shown_alike (counterparts (pr_tokens pr) (pr_tokens pr')) uri src src' e s s') /\
    exists out out', semantic_tokens_full s uri = Val (Some out) /\ semantic_tokens_full s' uri = Val (Some out') /\ Forall2 (token_kept (counterparts (pr_tokens pr) (pr_tokens pr')) src src') (decode out) (decode out').
Proof.
  intros P1 P2 Ho Ho' Hr. destruct (valued_pair e s s' uri src src' d d' P1 P2 Ho Ho' Hr) as (pr & pr' & Hp & Hp' & R & S & X & B). exists pr, pr'. split; [exact Hp|]. split; [exact Hp'|]. split.
  - eapply shown_kept; eassumption.
  - eapply tokens_kept; eassumption.
Qed.
Lemma valued_graphs e s s' uri src src' d d' : plain_document src -> plain_document src' -> opened e s uri src d -> opened e s' uri src' d' -> revalued_text (e_u e) src src' -> forall m, graph_for s' uri m = graph_for s uri m.
Proof.
  intros P1 P2 Ho Ho' Hr m. destruct (valued_pair e s s' uri src src' d d' P1 P2 Ho Ho' Hr) as (pr & pr' & Hp & Hp' & R & S & X & B). eapply graphs_kept; eassumption.
Qed.
Lemma valued_requests e s s' uri src src' d d' : plain_document src -> plain_document src' -> opened e s uri src d -> opened e s' uri src' d' -> revalued_text (e_u e) src src' ->
  exists pr pr', parse_from_str (e_u e) src = Val pr /\ parse_from_str (e_u e) src' = Val pr' /\
    forall a b p p', counterparts (pr_tokens pr) (pr_tokens pr') a b -> covers (snd a) p -> covers (snd b) p' ->
    requests_alike (counterparts (pr_tokens pr) (pr_tokens pr')) uri src src' e s s' a b (lsp_position src p) (lsp_position src' p').
Proof.
  intros P1 P2 Ho Ho' Hr. destruct (valued_pair e s s' uri src src' d d' P1 P2 Ho Ho' Hr) as (pr & pr' & Hp & Hp' & R & S & X & B). exists pr, pr'. split; [exact Hp|]. split; [exact Hp'|].
  intros a b p p' Hab Ha Hb. eapply requests_kept; eassumption.
Qed.
