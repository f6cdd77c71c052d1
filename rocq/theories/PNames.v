(** Other names: what is shown corresponds. *)
From Verif Require Import Text Rope Chumsky Tokenizer Parser Numbers Index SemTok Diag Rename Cfg Backtrace Server SpecText SpecLex SpecParse SpecIndex SpecDiag SpecBacktrace SpecNumbers SpecCfg SpecView SpecSemTok SpecRename SpecPatch SpecSimilar SpecValues SpecRebind SpecSteps SpecDot SpecLayout SpecLines SpecRoom SpecAfter SpecAfterShift SpecAfterHints SpecReformat SpecValued SpecWritten SpecNames
  PText PRope PLexSpec PLexProps PTokens PParse PParseProps PNumbers PHints PFold PFoldText PNav PRequest PExact PView PIndex PIndexDoc PIndexText PDiag PRename PRelex PNatural PRetree PRebind PUndo PSteps PDiagDoc PKeep PCfg PDot PCoherent PSumIndex PSumView PAlike PLocal PIdle PComment PLayout PRoom PAfter PAfterView PAfterShift PAfterHints PReformat PReformatDoc PWritten PValues.

Lemma chosen_token t : chosen_name t = token_name t. Proof. destruct t; reflexivity. Qed.
Lemma resembles_highlight a b : resembles a b -> highlight a = highlight b.
Proof. intros [->|H]; [reflexivity|]. destruct a, b; try contradiction; reflexivity. Qed.
Lemma inside_around sp r : SpecParse.inside sp r -> around sp r = true.
Proof. intros [H1 H2]. unfold around. apply andb_true_iff. split; apply Nat.leb_le; assumption. Qed.
Lemma defs_ranges_length ss : length (function_defs ss) = length (flat_map func_ranges ss).
Proof. unfold function_defs. induction ss as [|s r IH]; [reflexivity|]. cbn [flat_map]. rewrite !app_length, IH. destruct s; reflexivity. Qed.
Lemma label_listed {u} src pr ix o i : indexed u src pr ix -> In o (recorded (pr_stmts pr) (pr_tokens pr)) -> o_kind o = KLabel -> o_body o = Some i ->
  exists f, nth_error (function_defs (pr_stmts pr)) i = Some f /\ In (o_name o, o_span o) (label_names (fb_blocks (snd f))).
Proof.
  intros Hix Ho K B. destruct (indexed_ok _ _ _ _ Hix) as (_ & _ & Hsp & Hsub & Hr). destruct (recorded_body _ _ _ Hsp Hsub o i Ho B) as (r & R1 & _).
  assert (exists f, nth_error (function_defs (pr_stmts pr)) i = Some f) as (f & Hf).
  { destruct (nth_error (function_defs (pr_stmts pr)) i) eqn:E; [eauto|]. apply nth_error_None in E. rewrite defs_ranges_length in E. apply nth_error_None in E. congruence. }
  exists f. split; [exact Hf|]. rewrite <- (labelled_tree _ 0 i f Hf). cbn [Nat.add]. apply in_map_iff. exists o. split; [reflexivity|]. rewrite (recorded_eq _ _ _ Hsp Hsub), in_app_iff in Ho. destruct Ho as [Ho|Ho].
  - apply filter_In. split; [exact Ho|]. unfold labelled. destruct (kind_dec (o_kind o) KLabel); [|congruence]. destruct (body_dec (o_body o) (Some i)); [reflexivity|congruence].
  - exfalso. apply filter_In in Ho as [Ho _]. apply in_flat_map in Ho as (t & _ & Ho). apply token_shape in Ho as [_ G]. rewrite K in G. exact G.
Qed.
Lemma recorded_together {u} src pr ix x y : indexed u src pr ix -> In x (recorded (pr_stmts pr) (pr_tokens pr)) -> In y (recorded (pr_stmts pr) (pr_tokens pr)) ->
  namespace (o_kind x) = namespace (o_kind y) -> o_body x = o_body y -> together (pr_stmts pr) (occ_token x) (occ_token y).
Proof.
  intros Hix Hx Hy K B. destruct (indexed_ok _ _ _ _ Hix) as (_ & Hi & Hsp & Hsub & Hr). pose proof (ii_scope _ _ Hi _ Hx) as Sx. unfold scope_ok in Sx.
  unfold together, occ_token. cbn [fst snd]. destruct (o_kind x) eqn:Kx, (o_kind y) eqn:Ky; cbn [namespace] in K; try discriminate K; try exact I.
  - destruct (o_body x) as [i|] eqn:Bx; [|contradiction]. destruct (label_listed src pr ix x i Hix Hx Kx Bx) as (f & Hf & Lx). destruct (label_listed src pr ix y i Hix Hy Ky (eq_sym B)) as (f' & Hf' & Ly).
    assert (f' = f) as -> by congruence. exists f. split; [exact (nth_error_In _ _ Hf)|]. split; assumption.
  - destruct (o_body x) as [i|] eqn:Bx; [|contradiction]. destruct (recorded_body _ _ _ Hsp Hsub x i Hx Bx) as (r & R1 & R2). destruct (recorded_body _ _ _ Hsp Hsub y i Hy (eq_sym B)) as (r' & R3 & R4).
    assert (r' = r) as -> by congruence. exists r. split; [exact (nth_error_In _ _ R1)|]. split; apply inside_around; assumption.
Qed.

Section Documents.
Variables (e : env) (s s' : server) (uri src src' : text) (d d' : doc).
Notation u := (e_u e).
Hypothesis P1 : plain_document src.
Hypothesis P2 : plain_document src'.
Hypothesis Ho : opened e s uri src d.
Hypothesis Ho' : opened e s' uri src' d'.
Hypothesis Hr : renamed_text u src src'.
Lemma named_pair : exists pr pr', parse_from_str u src = Val pr /\ parse_from_str u src' = Val pr' /\
  Forall2 (fun a b => resembles (fst a) (fst b)) (pr_tokens pr) (pr_tokens pr') /\ Forall2 (same_stmt (counterparts (pr_tokens pr) (pr_tokens pr'))) (pr_stmts pr) (pr_stmts pr') /\
  Forall2 (alike_error (counterparts (pr_tokens pr) (pr_tokens pr')) src src') (pr_errors pr) (pr_errors pr') /\ bound_alike pr pr' /\
  forall a a' b b', counterparts (pr_tokens pr) (pr_tokens pr') a a' -> counterparts (pr_tokens pr) (pr_tokens pr') b b' -> together (pr_stmts pr) a b -> (fst a = fst b <-> fst a' = fst b').
Proof.
  destruct Hr as (pr & toks & toks' & Hp & Et & Et' & R & C). destruct (declaration_places _ _ _ _ _ 0 P2 Ho' (Nat.le_0_l _)) as (pr' & _ & Hp' & Es' & _).
  assert (forall t pr0 tk, parse_from_str u t = Val pr0 -> tokenize u t = Val (Some tk, []) -> pr_tokens pr0 = tk) as Ek.
  { intros t pr0 tk Hq Ht. apply parse_from_str_cases in Hq as [(errs & E & _)|(tk0 & errs & E & -> & _)]; rewrite Ht in E; [discriminate E|]. injection E as <- _. reflexivity. }
  pose proof (Ek _ _ _ Hp Et) as K. pose proof (Ek _ _ _ Hp' Et') as K'. subst toks toks'. exists pr, pr'. do 3 (split; [assumption|]).
  destruct (parsed_valued u src src' pr pr' Hp Et Hp' Et' R) as [S X]. split; [exact S|]. split; [exact X|]. split; [|exact C].
  destruct (opened_here _ _ _ _ _ _ Ho Hp) as (I1 & _).
  pose proof (proj1 (parse_from_str_module _ _ _ Hp)) as Hsp. pose proof (proj1 (parse_from_str_module _ _ _ Hp')) as Hsp'.
  pose proof (layout _ _ _ Hp) as (_ & Hrg & _). pose proof (provenance _ _ _ Hp) as Hsub. pose proof (provenance _ _ _ Hp') as Hsub'.
  assert (same_bindings (counterparts (pr_tokens pr) (pr_tokens pr')) (recorded (pr_stmts pr) (pr_tokens pr)) (recorded (pr_stmts pr') (pr_tokens pr'))) as B.
  { apply (bindings_stay _ _ _ _ _ _ Hsp Hsp' R Hsub Hrg S). intros x y t t' Hx Hy Kn Bn Tx Ty. pose proof (C _ _ _ _ Tx Ty (recorded_together src pr _ x y I1 Hx Hy Kn Bn)) as G.
    apply (combine_forall2 _ _ _ R) in Tx, Ty. transitivity (fst (occ_token x) = fst (occ_token y)); [|rewrite G].
    - unfold occ_token. cbn [fst]. destruct (o_kind x), (o_kind y); cbn [namespace] in Kn; try discriminate Kn; split; congruence.
    - split; [congruence|]. unfold occ_token in Tx, Ty. cbn [fst] in Tx, Ty. clear G. destruct t as [t ts], t' as [t' ts']. cbn [fst] in *.
      assert (Q : forall (c : token) v, resembles c v -> match c with TGlobalName _ => exists n, v = TGlobalName n | TLocalName _ => exists n, v = TLocalName n | TDebugRef _ => exists n, v = TDebugRef n | TIdent _ => exists n, v = TIdent n | _ => True end).
      { intros c v [<-|H]; destruct c; try exact I; eauto; destruct v; try contradiction H; eauto. }
      apply Q in Tx, Ty. destruct (o_kind x), (o_kind y); cbn [namespace] in Kn; try discriminate Kn; destruct Tx as [n ->], Ty as [m ->]; cbn [token_name]; congruence. }
  split; [exact B|]. eapply same_reports; [exact Hsp|exact Hsp'|exact B].
Qed.

Section Parsed.
Variables (pr pr' : parser_result).
Hypothesis Hp : parse_from_str u src = Val pr.
Hypothesis Hp' : parse_from_str u src' = Val pr'.
Notation T := (counterparts (pr_tokens pr) (pr_tokens pr')).
Notation l := (recorded (pr_stmts pr) (pr_tokens pr)).
Notation l' := (recorded (pr_stmts pr') (pr_tokens pr')).
Hypothesis R : Forall2 (fun a b => resembles (fst a) (fst b)) (pr_tokens pr) (pr_tokens pr').
Hypothesis S : Forall2 (same_stmt T) (pr_stmts pr) (pr_stmts pr').
Hypothesis X : Forall2 (alike_error T src src') (pr_errors pr) (pr_errors pr').
Hypothesis BA : bound_alike pr pr'.
Lemma named_T a b : T a b -> resembles (fst a) (fst b).
Proof. exact (combine_forall2 _ _ _ R a b). Qed.
Lemma named_in a b : T a b -> In a (pr_tokens pr) /\ In b (pr_tokens pr').
Proof. intros H. split; [exact (in_combine_l _ _ _ _ H)|exact (in_combine_r _ _ _ _ H)]. Qed.
Lemma named_one a b x y : T a b -> T x y -> (a = x <-> b = y).
Proof. exact (counterparts_one _ _ _ _ _ _ a b x y (proj1 (parse_from_str_module _ _ _ Hp)) (proj1 (parse_from_str_module _ _ _ Hp'))). Qed.
Notation spanr := (span_range src src' T).
Notation tokr := (token_range src src' T).
Lemma occ_names x y : same_occ T x y -> names_at T src src' (lsp_range src (o_span x)) (lsp_range src' (o_span y)) (o_name x) (o_name y).
Proof. intros (_ & _ & _ & H). exists (occ_token x), (occ_token y). rewrite !chosen_token, !occ_token_name. repeat split. exact H. Qed.
Lemma occ_range x y : same_occ T x y -> range_alike T src src' (lsp_range src (o_span x)) (lsp_range src' (o_span y)).
Proof. intros (_ & _ & _ & H). exact (tokr _ _ H). Qed.

(** ** Diagnostics *)
Lemma needs_alike x y : same_instr T x y -> (needs_targets x <-> needs_targets y) /\ (needs_targets x -> mnemonic y = mnemonic x).
Proof.
  intros (_ & M & _). apply named_T in M. unfold tident in M. cbn [fst] in M. destruct M as [M|[N1 N2]].
  - injection M as M. unfold needs_targets, mnemonic. rewrite M. split; [reflexivity|congruence].
  - split; [split; intros H; [destruct (plain_mnemonic x N1 H)|destruct (plain_mnemonic y N2 H)]|]. intros H. destruct (plain_mnemonic x N1 H).
Qed.
Lemma diagnostics_renamed diags diags' : visits_all (e_ord e) -> analyze e uri src = Val (d, diags) -> analyze e uri src' = Val (d', diags') ->
  exists k, Permutation k diags' /\ Forall2 (diagnostic_renamed T uri src src') diags k.
Proof.
  intros Hv A A'. destruct BA as (_ & BU & BR). destruct (document_diagnostics _ _ _ _ _ P1 Hv A) as (pr0 & Q & D). assert (pr0 = pr) as -> by congruence.
  destruct (document_diagnostics _ _ _ _ _ P2 Hv A') as (pr0 & Q' & D'). assert (pr0 = pr') as -> by congruence. clear Q Q'. eapply permuted; [exact D| |exact D'].
  assert (MA : forall x y, same_instr T x y -> missing_refs x = missing_refs y).
  { intros x y H. pose proof (needs_alike x y H) as [N _]. destruct H as (_ & _ & Q & _). apply Bool.eq_iff_eq_true. rewrite !missing_refs_iff. assert (E : i_refs x = [] <-> i_refs y = []) by (inversion Q; split; congruence). rewrite E, N. reflexivity. }
  pose proof (proj1 (parse_from_str_module _ _ _ Hp)) as Hsp. pose proof (proj1 (parse_from_str_module _ _ _ Hp')) as Hsp'.
  apply Forall2_app; [|apply Forall2_app; [|apply Forall2_app]].
  - eapply forall2_maps with (R := fun x y => alike_error T src src' x y /\ at_end src x = false).
    + assert (K : forall x y, alike_error T src src' x y -> at_end src x = at_end src' y).
      { intros x y [[Hrg|[Ea Eb]] _].
        - destruct Hrg as [(a & b & Hab & E2 & E3) _]. destruct (named_in _ _ Hab) as [I1 I2].
          pose proof (spans_in_each _ _ _ _ Hsp I1) as B1. pose proof (spans_in_each _ _ _ _ Hsp' I2) as B2.
          unfold at_end, span_eqb. cbn [sp_start sp_end]. rewrite E2, E3. destruct (Nat.eqb_spec (sp_start (snd a)) (length src)); [lia|]. destruct (Nat.eqb_spec (sp_start (snd b)) (length src')); [lia|reflexivity].
        - unfold at_end. rewrite Ea, Eb. unfold ends. rewrite (byte_len_ascii src) by apply P1. rewrite (byte_len_ascii src') by apply P2. unfold span_eqb. cbn [sp_start sp_end]. rewrite !Nat.add_1_r, !Nat.eqb_refl. reflexivity. }
      pose proof X as X0. clear - X0 K. induction X0 as [|x y a b H _ IH]; [constructor|]. cbn [filter]. rewrite <- (K _ _ H). destruct (at_end src x) eqn:E; cbn [negb]; [exact IH|]. constructor; [split; assumption|exact IH].
    + intros x y _ [[Hrg (H1 & H2 & H3)] K]. split; [|split; [|constructor]].
      * left. cbn [syntax_diagnostic d_message]. unfold parser_error_message. rewrite <- H1, <- H2. destruct (e_reason x); [|reflexivity]. destruct (e_found x), (e_found y); contradiction H3 || reflexivity.
      * cbn [syntax_diagnostic d_range]. destruct Hrg as [Hrg|[Ea _]]; [exact (spanr _ _ Hrg)|]. exfalso. unfold at_end in K. rewrite Ea in K. unfold ends in K. rewrite (byte_len_ascii src) in K by apply P1.
        unfold span_eqb in K. cbn [sp_start sp_end] in K. rewrite Nat.add_1_r, !Nat.eqb_refl in K. discriminate K.
  - eapply forall2_maps; [apply (forall2_filter _ _ _ _ _ (instructions_alike T _ _ S)); intros x y _ H; exact (MA x y H)|].
    intros x y Hx H. apply filter_In in Hx as [_ Hx]. apply missing_refs_iff in Hx as [Hx _]. split; [|split; [exact (tokr _ _ (proj1 (proj2 H)))|constructor]]. left. cbn [missing_diagnostic d_message]. rewrite (proj2 (needs_alike x y H) Hx). reflexivity.
  - eapply forall2_maps; [exact BU|]. intros x y _ H. split; [|split; [exact (occ_range _ _ H)|constructor]]. right. exists (o_name x), (o_name y), (str "Use of undefined symbol `"), (str "`").
    split; [exact (occ_names _ _ H)|]. split; reflexivity.
  - eapply forall2_maps; [exact BR|]. intros x y _ [H H']. split; [|split; [exact (occ_range _ _ H)|]].
    + right. exists (o_name (fst x)), (o_name (fst y)), (str "Symbol `"), (str "` already defined previously"). split; [exact (occ_names _ _ H)|]. split; reflexivity.
    + constructor; [|constructor]. split; [reflexivity|]. split; [reflexivity|]. split; [reflexivity|]. exact (occ_range _ _ H').
Qed.

(** ** Highlighting, outline, folds, lenses *)
Lemma tokens_renamed : exists out out', semantic_tokens_full s uri = Val (Some out) /\ semantic_tokens_full s' uri = Val (Some out') /\ Forall2 (token_kept T src src') (decode out) (decode out').
Proof.
  destruct (tokens_of _ _ _ _ _ _ P1 Ho Hp) as (out & O1 & H1). destruct (tokens_of _ _ _ _ _ _ P2 Ho' Hp') as (out' & O2 & H2). exists out, out'. split; [exact O1|]. split; [exact O2|].
  assert (Forall2 (fun a b => T a b) (pr_tokens pr) (pr_tokens pr')) as F by (apply combine_pairs; exact (forall2_len _ _ _ R)).
  assert (forall k k', Forall2 (fun a b => T a b) k k' -> forall ds es, Forall2 (shows (lsp_position src)) (filter_map highlighted k) ds -> Forall2 (shows (lsp_position src')) (filter_map highlighted k') es -> Forall2 (token_kept T src src') ds es) as G; [|exact (G _ _ F _ _ H1 H2)].
  clear - R. induction 1 as [|x y a b Ht _ IH]; intros ds es; cbn [filter_map]; [intros H1 H2; inversion H1; inversion H2; constructor|].
  assert (highlighted x = match highlight (fst x) with Some ty => Some (sp_start (snd x), sp_end (snd x) - sp_start (snd x), ty) | None => None end) as -> by reflexivity.
  assert (highlighted y = match highlight (fst x) with Some ty => Some (sp_start (snd y), sp_end (snd y) - sp_start (snd y), ty) | None => None end) as -> by (rewrite (resembles_highlight _ _ (combine_forall2 _ _ _ R _ _ Ht)); reflexivity).
  destruct (highlight (fst x)) as [ty|] eqn:Eh; [|apply IH].
  intros H1 H2. inversion H1 as [|? [[p1 l1] i1] ? ds' X1 X2]; subst. inversion H2 as [|? [[p2 l2] i2] ? es' Y1 Y2]; subst. constructor; [|apply IH; assumption].
  cbn [shows] in X1, Y1. destruct X1 as (-> & -> & X1), Y1 as (-> & -> & Y1). split; [exact (legend_unique _ _ _ Y1 X1)|]. exists x, y. split; [exact Ht|]. repeat split.
Qed.
Lemma outline_renamed : visits_all (e_ord e) -> exists a b k, document_symbol e s uri = Some a /\ document_symbol e s' uri = Some b /\ Permutation k b /\ Forall2 (symbol_renamed T src src') a k.
Proof.
  intros Hv. destruct (outline _ _ _ _ _ P1 Hv Ho) as (vs & E & Hvs & _). destruct (outline _ _ _ _ _ P2 Hv Ho') as (vs' & E' & Hvs' & _).
  destruct (opened_here _ _ _ _ _ _ Ho Hp) as (_ & _ & E1 & _). destruct (opened_here _ _ _ _ _ _ Ho' Hp') as (_ & _ & E2 & _). rewrite E1 in *. rewrite E2 in *.
  assert (G : forall x y, T (tglobal x) (tglobal y) -> names_at T src src' (lsp_range src (snd x)) (lsp_range src' (snd y)) (fst x) (fst y)) by (intros x y H; eexists _, _; split; [exact H|]; repeat split).
  assert (exists k, Permutation k (vs' ++ function_outline src' (pr_stmts pr')) /\ Forall2 (symbol_renamed T src src') (vs ++ function_outline src (pr_stmts pr)) k) as (k & K1 & K2).
  { eapply permuted; [apply Permutation_app_tail; exact Hvs| |apply Permutation_app_tail; exact Hvs']. apply Forall2_app.
    - eapply forall2_maps with (R := fun x y => T (tglobal x) (tglobal y)).
      + apply (forall2_flats _ _ _ _ _ _ S). intros x y _ H. destruct x, y; try contradiction H; try constructor; [exact (proj1 H)|constructor].
      + intros x y _ H. split; [reflexivity|]. split; [exact (tokr _ _ H)|]. exact (G _ _ H).
    - apply (forall2_flats _ _ _ _ _ _ S). intros x y _ H. destruct x as [| |kw sg bd| |], y as [| |kw' sg' bd'| |]; try contradiction H; try constructor; [|constructor].
      cbn in H. destruct H as (H1 & (_ & _ & H2 & _) & (_ & H3 & _)). unfold named in H2. split; [reflexivity|]. split; [|exact (G _ _ H2)].
      split; [eexists _, _; split; [exact H1|split; reflexivity]|eexists _, _; split; [exact H3|split; reflexivity]]. }
  exists (vs ++ function_outline src (pr_stmts pr)), (vs' ++ function_outline src' (pr_stmts pr')), k. auto.
Qed.
(** function definitions *)
Lemma branching_renamed i j : same_instr T i j -> is_branching i = is_branching j.
Proof.
  intros H. destruct (needs_alike i j H) as [N M]. assert (K : forall k, branch k -> needs_targets k) by (intros k [G|G]; [left; exact G|right; left; exact G]). apply Bool.eq_iff_eq_true. rewrite !branching_iff.
  assert (E : needs_targets i -> (branch i <-> branch j)) by (intros G; unfold branch; rewrite (M G); reflexivity). split; intros G.
  - apply E; [apply K|]; exact G.
  - apply E; [apply N, K|]; exact G.
Qed.
Lemma blocks_renamed id f g : nth_error (function_defs (pr_stmts pr)) id = Some f -> nth_error (function_defs (pr_stmts pr')) id = Some g -> Forall2 (block_pair pr pr' id) (fb_blocks (snd f)) (fb_blocks (snd g)).
Proof.
  intros Hf Hg. destruct (defs_pairs pr pr' S) as [H _]. apply Forall2_nth_error_iff in H as [_ H]. destruct (H _ _ _ Hf Hg) as [_ (_ & _ & HB)].
  eapply forall2_impl; [|exact (forall2_split _ _ _ HB)]. intros b c ((L & C & I & _) & Hb & _).
  assert (K : forall n, In n (block_occs id b) -> In n l).
  { intros n Hn. apply (in_tree e s uri src d pr Ho Hp). apply (tree_of_def _ _ 0 id f Hf). right. apply in_flat_map. exists b. split; assumption. }
  split; [|split; [exact C|]].
  - destruct (bb_label b) as [x|] eqn:Eb, (bb_label c) as [y|]; try contradiction L; [|exact Logic.I]. split; [exact L|]. exists (occ Def KLabel (Some id) x). split; [|repeat split].
    apply K. unfold block_occs. rewrite Eb. left. reflexivity.
  - eapply forall2_impl; [|exact (forall2_split _ _ _ I)]. intros i j (Hij & Hi & _). split; [apply branching_renamed; exact Hij|]. destruct Hij as (_ & _ & Q & _).
    eapply forall2_impl; [|exact (forall2_split _ _ _ Q)]. intros x y (Hxy & Hx & _). split; [exact Hxy|]. exists (occ Use KLabel (Some id) x). split; [|repeat split].
    apply K. unfold block_occs. apply in_or_app. right. apply in_flat_map. exists i. split; [exact Hi|]. unfold instr_occs. apply in_or_app. right. apply in_map. exact Hx.
Qed.
Definition body_renamed (id : nat) (f g : function_body) : Prop := exists fd gd,
  nth_error (function_defs (pr_stmts pr)) id = Some fd /\ nth_error (function_defs (pr_stmts pr')) id = Some gd /\ def_pair pr pr' fd gd /\ same_body T (snd fd) (snd gd) /\
  fb_name f = fs_name (fst fd) /\ fb_name g = fs_name (fst gd) /\ ranges T (complete_range f) (complete_range g) /\ basic_blocks f = fb_blocks (snd fd) /\ basic_blocks g = fb_blocks (snd gd) /\
  Forall2 (block_pair pr pr' id) (fb_blocks (snd fd)) (fb_blocks (snd gd)) /\ length (labels g) = length (labels f) /\
  (forall t, alookup t (incoming f) = match incoming_labels (fb_blocks (snd fd)) t with [] => None | k => Some k end) /\
  (forall t, alookup t (incoming g) = match incoming_labels (fb_blocks (snd gd)) t with [] => None | k => Some k end).
Lemma bodies_renamed : length (function_bodies (doc_index d)) = length (function_bodies (doc_index d')) /\
  forall id f g, nth_error (function_bodies (doc_index d)) id = Some f -> nth_error (function_bodies (doc_index d')) id = Some g -> body_renamed id f g.
Proof.
  destruct (opened_here _ _ _ _ _ _ Ho Hp) as (I1 & _). destruct (opened_here _ _ _ _ _ _ Ho' Hp') as (I2 & _).
  destruct (defs_pairs pr pr' S) as [Hd0 Hrg]. pose proof (proj1 (Forall2_nth_error_iff _ _ _) (def_pairs e s uri src d pr pr' Ho Hp S)) as [Ld Hd1]. apply Forall2_nth_error_iff in Hrg as [Lr Hrg]. apply Forall2_nth_error_iff in Hd0 as [_ Hd0].
  destruct (bodies_of _ _ _ _ I1) as [C1 _]. destruct (bodies_of _ _ _ _ I2) as [C2 _]. split; [rewrite C1, C2; exact Ld|]. intros id f g Hf Hg.
  assert (A : forall u0 src0 pr0 ix0 id0 fb, indexed u0 src0 pr0 ix0 -> nth_error (function_bodies ix0) id0 = Some fb -> exists f, nth_error (function_defs (pr_stmts pr0)) id0 = Some f /\ fb_name fb = fs_name (fst f) /\ basic_blocks fb = fb_blocks (snd f) /\ nth_error (flat_map func_ranges (pr_stmts pr0)) id0 = Some (complete_range fb) /\
    numbers (mentions_label (snd f)) (length (labels fb)) /\ forall t, alookup t (incoming fb) = match incoming_labels (fb_blocks (snd f)) t with [] => None | l => Some l end).
  { intros u0 src0 [t0 ss0 e0] ix0 id0 fb H1 H2. exact (bodies_at _ _ _ _ _ H1 _ _ H2). }
  destruct (A _ _ _ _ _ _ I1 Hf) as (y & Y1 & Y2 & Y3 & Y4 & Y5 & Y6). destruct (A _ _ _ _ _ _ I2 Hg) as (z & Z1 & Z2 & Z3 & Z4 & Z5 & Z6).
  exists y, z. split; [exact Y1|]. split; [exact Z1|]. split; [exact (Hd1 _ _ _ Y1 Z1)|]. split; [exact (proj2 (Hd0 _ _ _ Y1 Z1))|]. split; [exact Y2|]. split; [exact Z2|]. split; [exact (Hrg _ _ _ Y4 Z4)|]. split; [exact Y3|]. split; [exact Z3|].
  split; [exact (blocks_renamed _ _ _ Y1 Z1)|]. split; [|split; [exact Y6|exact Z6]]. apply (numbers_unique (mentions_label (snd z))); [exact Z5|]. exact (label_numbers e s s' uri src src' d d' pr pr' Ho Ho' Hp Hp' BA id y z _ Y1 Z1 Y5).
Qed.
Lemma folds_renamed : exists a b, folding_range s uri = Some a /\ folding_range s' uri = Some b /\ Forall2 (fold_alike T src src') a b.
Proof.
  destruct (opened_here _ _ _ _ _ _ Ho Hp) as (_ & R1 & _ & G1). destruct (opened_here _ _ _ _ _ _ Ho' Hp') as (_ & R2 & _ & G2).
  pose proof (fold_same e s s' uri src src' d d' pr pr' T P1 P2 Ho Ho' Hp Hp' named_in) as FS. destruct bodies_renamed as [HL HB].
  assert (F : Forall2 (fun f g => exists id, body_renamed id f g) (function_bodies (doc_index d)) (function_bodies (doc_index d'))) by (apply Forall2_nth_error_iff; split; [exact HL|]; intros id f g Hf Hg; exists id; exact (HB _ _ _ Hf Hg)).
  eexists _, _. split; [exact (folding_is _ _ _ G1)|]. split; [exact (folding_is _ _ _ G2)|]. rewrite R1, R2. apply Forall2_app.
  - apply (forall2_filter_maps _ _ _ _ _ _ F). intros f g _ _ (id & fd & gd & _ & _ & _ & _ & _ & _ & Q & _ & _ & _ & L & _). unfold body_fold. rewrite L. apply FS. exact Q.
  - apply (forall2_filter_maps (same_block T)); [apply (forall2_flats _ _ _ _ _ _ F); intros f g _ (id & fd & gd & _ & _ & _ & (_ & _ & Q) & _ & _ & _ & -> & -> & _); exact Q|].
    intros x y _ _ (_ & _ & I & Q). unfold block_fold. rewrite (forall2_len _ _ _ I). apply FS. exact Q.
Qed.
Lemma lenses_renamed : visits_all (e_ord e) -> exists a b k, code_lens e s uri = Some a /\ code_lens e s' uri = Some b /\ Permutation k b /\ Forall2 (lens_renamed T uri src src') a k.
Proof.
  intros Hv. destruct (code_lenses _ _ _ _ _ P1 Hv Ho) as (a & E & Ha). destruct (code_lenses _ _ _ _ _ P2 Hv Ho') as (b & E' & Hb).
  destruct (opened_here _ _ _ _ _ _ Ho Hp) as (_ & _ & E1 & _). destruct (opened_here _ _ _ _ _ _ Ho' Hp') as (_ & _ & E2 & _). rewrite E1 in Ha. rewrite E2 in Hb.
  assert (exists k, Permutation k b /\ Forall2 (lens_renamed T uri src src') a k) as (k & K1 & K2); [|exists a, b, k; auto].
  eapply permuted; [exact Ha| |exact Hb]. eapply forall2_maps; [apply (forall2_filter _ _ _ _ _ (def_pairs e s uri src d pr pr' Ho Hp S)); intros x y _; exact (once_pair e s s' uri src src' d d' pr pr' Ho Ho' Hp Hp' BA S x y)|].
  intros x y _ [_ H]. split; [reflexivity|]. eexists _, _. split; [reflexivity|]. split; [reflexivity|]. eexists _, _. split; [exact H|]. repeat split.
Qed.

(** ** Graphs *)
Hypothesis C : forall a a' b b', T a a' -> T b b' -> together (pr_stmts pr) a b -> (fst a = fst b <-> fst a' = fst b').
Lemma graphs_renamed n sp n' sp' : T (TGlobalName n, sp) (TGlobalName n', sp') -> graph_renamed T s s' uri (pr_stmts pr) n n'.
Proof.
  intros H. destruct (opened_here _ _ _ _ _ _ Ho Hp) as (I1 & _ & _ & G1). destruct (opened_here _ _ _ _ _ _ Ho' Hp') as (I2 & _ & _ & G2). unfold graph_renamed, graph_for. rewrite (ask_eq uri s d _ G1), (ask_eq uri s' d' _ G2).
  destruct bodies_renamed as [HL HB].
  assert (Ag : forall i a b, nth_error (function_bodies (doc_index d)) i = Some a -> nth_error (function_bodies (doc_index d')) i = Some b -> text_eqb (fst (fb_name a)) n = text_eqb (fst (fb_name b)) n').
  { intros i a b Ha Hb. destruct (HB _ _ _ Ha Hb) as (fd & gd & _ & _ & [_ D] & _ & -> & -> & _). pose proof (C _ _ _ _ D H I) as G. cbn [tglobal fst] in G. apply Bool.eq_iff_eq_true. rewrite !text_eqb_eq. split; intros K; [assert (TGlobalName (fst (fs_name (fst gd))) = TGlobalName n') by (apply G; congruence)|assert (TGlobalName (fst (fs_name (fst fd))) = TGlobalName n) by (apply G; congruence)]; congruence. }
  destruct (find (fun b => text_eqb (fst (fb_name b)) n) (function_bodies (doc_index d))) as [fb|] eqn:Ef.
  - destruct (find_index _ (fun b => text_eqb (fst (fb_name b)) n') _ _ HL Ag _ Ef) as (id & fb' & N1 & N1' & E' & N2 & N3). rewrite E'. cbn [sg_title sg_dot]. split; [reflexivity|]. split; [reflexivity|].
    destruct (HB _ _ _ N1 N1') as (fd & gd & D1 & D2 & D & _ & E1 & E2 & _ & B1 & B2 & B & _). eexists id, fd, (new_label pr pr' id), _. split; [|split; [exact D1|split; [|split]]].
    + split; [exists fd; split; [exact D1|]|]; [rewrite <- E1; apply text_eqb_eq; exact N2|]. intros j h Hj Hh.
      assert (exists fj, nth_error (function_bodies (doc_index d)) j = Some fj) as (fj & Hfj). { destruct (nth_error (function_bodies (doc_index d)) j) as [fj|] eqn:G0; [eauto|]. apply nth_error_None in G0. assert (id < length (function_bodies (doc_index d))) by (apply nth_error_Some; congruence). lia. }
      assert (exists gj, nth_error (function_bodies (doc_index d')) j = Some gj) as (gj & Hgj). { destruct (nth_error (function_bodies (doc_index d')) j) as [gj|] eqn:G0; [eauto|]. apply nth_error_None in G0. assert (j < length (function_bodies (doc_index d))) by (apply nth_error_Some; congruence). lia. }
      destruct (HB _ _ _ Hfj Hgj) as (h' & _ & D1' & _ & _ & _ & E1' & _). assert (h' = h) as -> by congruence. pose proof (N3 _ _ Hj Hfj) as N. rewrite E1' in N. intros G0. apply text_eqb_eq in G0. congruence.
    + intros x x' Hx Tx. symmetry. apply (label_named e s s' uri src src' d d' pr pr' Ho Ho' Hp Hp' BA id x x'). split; [exact Tx|]. rewrite <- (labelled_tree _ 0 id fd D1) in Hx. cbn [Nat.add] in Hx. apply in_map_iff in Hx as (o & Eo & Hx). apply filter_In in Hx as [Hx Lx].
      unfold labelled in Lx. destruct (kind_dec (o_kind o) KLabel) as [K|]; [|discriminate]. destruct (body_dec (o_body o) (Some id)) as [Bo|]; [|discriminate]. exists o. split; [exact (in_tree e s uri src d pr Ho Hp _ Hx)|]. split; [exact K|]. split; [exact Bo|]. subst x. unfold occ_token, bare, tident. rewrite K. reflexivity.
    + exact (dot_read_edges _ _ _ _ _ I1 (nth_error_In _ _ N1)).
    + rewrite (dot_read_edges _ _ _ _ _ I2 (nth_error_In _ _ N1')), B1, B2, (edges_after e s s' uri src src' d d' pr pr' Ho Ho' Hp Hp' BA id _ _ B), !map_map. reflexivity.
  - assert (find (fun b => text_eqb (fst (fb_name b)) n') (function_bodies (doc_index d')) = None) as ->; [|split; reflexivity].
    destruct (find (fun b => text_eqb (fst (fb_name b)) n') (function_bodies (doc_index d'))) as [gb|] eqn:Eg; [|reflexivity]. exfalso.
    destruct (find_index _ (fun b => text_eqb (fst (fb_name b)) n) _ _ (eq_sym HL) (fun i a b Ha Hb => eq_sym (Ag i b a Hb Ha)) _ Eg) as (id & fb' & _ & _ & E' & _). congruence.
Qed.

(** ** Hints *)
Lemma labels_equal id x x' y y' : label_pair pr pr' id x x' -> label_pair pr pr' id y y' -> text_eqb (fst x) (fst y) = text_eqb (fst x') (fst y').
Proof.
  intros (Tx & z & Hz & Kz & Bz & Ez) (Ty & w & Hw & Kw & Bw & Ew). destruct (opened_here _ _ _ _ _ _ Ho Hp) as (I1 & _). assert (namespace (o_kind z) = namespace (o_kind w)) as K by congruence. assert (o_body z = o_body w) as B by congruence.
  pose proof (recorded_together src pr _ z w I1 Hz Hw K B) as G. rewrite Ez, Ew in G. pose proof (C _ _ _ _ Tx Ty G) as E. unfold tident in E. cbn [fst] in E. apply Bool.eq_iff_eq_true. rewrite !text_eqb_eq.
  split; intros F; [assert (TIdent (fst x') = TIdent (fst y')) by (apply E; congruence)|assert (TIdent (fst x) = TIdent (fst y)) by (apply E; congruence)]; congruence.
Qed.
Lemma labels_one id x x' y y' : label_pair pr pr' id x x' -> label_pair pr pr' id y y' -> spanned_eqb x y = spanned_eqb x' y'.
Proof.
  intros (H1 & _) (H2 & _). assert (Eq : forall a b : spanned, spanned_eqb a b = true <-> a = b).
  { intros [a sa] [b sb]. unfold spanned_eqb. cbn [fst snd]. rewrite andb_true_iff, text_eqb_eq, span_eqb_eq. split; [intros [-> ->]; reflexivity|intros G; inversion G; auto]. }
  apply Bool.eq_iff_eq_true. rewrite !Eq. assert (Ti : forall a b : spanned, a = b <-> tident a = tident b). { intros [a sa] [b sb]. unfold tident. cbn [fst snd]. split; intros G; inversion G; reflexivity. }
  rewrite !Ti. exact (named_one _ _ _ _ H1 H2).
Qed.
Lemma incoming_renamed id k k' a b : label_pair pr pr' id k k' -> Forall2 (block_pair pr pr' id) a b -> Forall2 (label_pair pr pr' id) (incoming_labels a (fst k)) (incoming_labels b (fst k')).
Proof.
  intros Hk H. unfold incoming_labels. apply once_pairs; [intros; eapply labels_one; eassumption| |constructor].
  apply (forall2_flats _ _ _ _ _ _ H). intros x y _ (L & _ & I). unfold branches_to. destruct (bb_label x) as [m|], (bb_label y) as [m'|]; try contradiction L; [|constructor]. cbn [both] in L.
  apply (forall2_flats _ _ _ _ _ _ I). intros i j _ [E Q]. rewrite <- E. destruct (is_branching i); [|constructor]. apply (forall2_flats _ _ _ _ _ _ Q). intros v w _ N. rewrite (labels_equal id _ _ _ _ Hk N). destruct (text_eqb (fst k') (fst w)); repeat constructor; apply L.
Qed.
Notation same_end := (end_same e s s' uri src src' d d' pr pr' T P1 P2 Ho Ho' Hp Hp' named_in).
Notation same_range := (range_same e s s' uri src src' d d' pr pr' T P1 P2 Ho Ho' Hp Hp' named_in).
Lemma parts_renamed id a b : Forall2 (label_pair pr pr' id) a b -> forall i, Forall2 (part_renamed T uri src src') (incoming_parts src uri i a) (incoming_parts src' uri i b).
Proof.
  induction 1 as [|x y a b [H _] _ IH]; intros i; [constructor|]. cbn [incoming_parts]. destruct (same_range _ _ H) as [R1 R2]. cbn [tident snd] in R1, R2. rewrite R1, R2. apply Forall2_app; [|apply IH].
  constructor; [|constructor; [|constructor]].
  - split; [reflexivity|]. reflexivity.
  - split; [reflexivity|]. split; [reflexivity|]. split; [reflexivity|]. eexists _, _. split; [exact H|]. repeat split.
Qed.
Lemma incoming_hints_renamed : Forall2 (hint_renamed T uri src src') (incoming_hints d uri) (incoming_hints d' uri).
Proof.
  destruct (opened_here _ _ _ _ _ _ Ho Hp) as (_ & R1 & _ & _). destruct (opened_here _ _ _ _ _ _ Ho' Hp') as (_ & R2 & _ & _). unfold incoming_hints. rewrite R1, R2. destruct bodies_renamed as [HL HB].
  assert (F : Forall2 (fun f g => exists id, body_renamed id f g) (function_bodies (doc_index d)) (function_bodies (doc_index d'))) by (apply Forall2_nth_error_iff; split; [exact HL|]; intros id f g Hf Hg; exists id; exact (HB _ _ _ Hf Hg)).
  apply (forall2_flats _ _ _ _ _ _ F). intros f g _ (id & fd & gd & _ & _ & _ & _ & _ & _ & _ & B1 & B2 & B & _ & I1 & I2). rewrite B1, B2. apply (forall2_filter_maps _ _ _ _ _ _ B). intros x y _ _ (L & Cm & _). unfold incoming_hint.
  destruct (bb_label x) as [k|], (bb_label y) as [k'|]; try contradiction L; [|exact I]. cbn [both] in L. cbn [obind]. rewrite I1, I2. pose proof (incoming_renamed id k k' _ _ L B) as Q.
  destruct Q as [|v w p q Hvw Hpq]; [exact I|]. cbn [obind]. destruct (bb_label_comma x) as [c|], (bb_label_comma y) as [c'|]; try contradiction Cm; [|exact I]. cbn [both obind] in Cm |- *.
  destruct (same_end _ _ Cm) as [E1 E2]. cbn [tp snd] in E1, E2. rewrite E1, E2. cbn [obind]. split; [|apply (parts_renamed id); constructor; assumption]. eexists _, _. split; [exact Cm|split; reflexivity].
Qed.
Lemma end_hints_renamed : Forall2 (hint_renamed T uri src src') (filter_map (end_hint d uri) (function_bodies (doc_index d))) (filter_map (end_hint d' uri) (function_bodies (doc_index d'))).
Proof.
  destruct (opened_here _ _ _ _ _ _ Ho Hp) as (_ & R1 & _ & _). destruct (opened_here _ _ _ _ _ _ Ho' Hp') as (_ & R2 & _ & _). destruct bodies_renamed as [HL HB].
  assert (F : Forall2 (fun f g => exists id, body_renamed id f g) (function_bodies (doc_index d)) (function_bodies (doc_index d'))) by (apply Forall2_nth_error_iff; split; [exact HL|]; intros id f g Hf Hg; exists id; exact (HB _ _ _ Hf Hg)).
  apply (forall2_filter_maps _ _ _ _ _ _ F). intros f g _ _ (id & fd & gd & _ & _ & [_ H] & _ & N1 & N2 & (_ & a & b & Hab & E1 & E2) & _). unfold end_hint. rewrite R1, R2, E1, E2, N1, N2.
  destruct (same_end _ _ Hab) as [-> ->]. cbn [obind]. destruct (same_range _ _ H) as [Q1 Q2]. cbn [tglobal snd] in Q1, Q2. rewrite Q1, Q2. cbn [obind both]. split; [exists a, b; auto|].
  constructor; [|constructor]. split; [reflexivity|]. split; [reflexivity|]. split; [reflexivity|]. eexists _, _. split; [exact H|]. repeat split.
Qed.
Lemma backtrace_renamed disp pos pos' frames : ends_alike T src src' pos pos' ->
  match inlay_hint_for_backtrace u disp pos frames, inlay_hint_for_backtrace u disp pos' frames with Val a, Val b => hint_renamed T uri src src' a b | Panic, Panic => True | _, _ => False end.
Proof.
  intros H. unfold inlay_hint_for_backtrace. destruct (match identify_relevant_frames frames with Some _ => _ | None => _ end) as [parts|] eqn:E; [|exact I]. cbn [rbind].
  destruct (backtrace_json_to_md u disp frames) as [tip|]; [|exact I]. cbn [rbind]. split; [exact H|]. cbn [ih_parts].
  assert (Forall (fun p => lp_location p = None) (parts ++ [mkPart (str "Full backtrace") None (Some tip)])) as G.
  { apply Forall_app. split; [|repeat constructor]. destruct (identify_relevant_frames frames) as [i|]; [|injection E as <-; constructor]. destruct (nth_error frames i) as [f|]; [|discriminate].
    destruct (shorten_name (f_symbol f) 50); [|discriminate]. cbn [rbind] in E. destruct (format_frame_as_md u disp f); [|discriminate]. cbn [rbind] in E. injection E as <-. repeat constructor. }
  induction G as [|p q Hp0 _ IH]; constructor; [|exact IH]. split; [reflexivity|]. rewrite Hp0. reflexivity.
Qed.
Hypothesis Hroots : roots s' = roots s.
Hypothesis Hval : values_renamed T src src' e (pr_stmts pr) (pr_stmts pr').
Lemma backtrace_hints_renamed : match rflat_map (backtrace_hint e s d) (instructions (pr_stmts pr)), rflat_map (backtrace_hint e s' d') (instructions (pr_stmts pr')) with
  Val a, Val b => Forall2 (hint_renamed T uri src src') a b | Panic, Panic => True | _, _ => False end.
Proof.
  destruct (opened_here _ _ _ _ _ _ Ho Hp) as (I1 & R1 & _ & _). destruct (opened_here _ _ _ _ _ _ Ho' Hp') as (I2 & R2 & _ & _).
  destruct (indexed_ok _ _ _ _ I1) as ([_ _ _ _ _ _ _ _ _ V] & _). destruct (indexed_ok _ _ _ _ I2) as ([_ _ _ _ _ _ _ _ _ V'] & _).
  apply (forall2_rflats _ _ _ _ _ _ (instructions_alike T _ _ S)). intros i j Hi (_ & _ & _ & Hd & _). unfold backtrace_hint. destruct (i_dbg i) as [r|], (i_dbg j) as [r'|]; try contradiction Hd; [|constructor].
  cbn [both] in Hd. unfold named in Hd. cbn [obind]. rewrite V, V'. pose proof (Hval _ _ _ _ Hd) as Q.
  destruct (ann_value src (pr_stmts pr) (fst r)) as [v|], (ann_value src' (pr_stmts pr') (fst r')) as [v'|]; cbn [obind] in Q |- *; try (rewrite Q || rewrite <- Q); try (constructor; fail).
  destruct (e_json_parse e v') as [jv|]; [|constructor]. cbn [obind]. rewrite Hroots.
  destruct (parse_backtrace_from_json _ _ jv) as [[frames|]|]; [|constructor|exact I]. cbn [rbind]. destruct (same_end _ _ Hd) as [E1 E2]. cbn [tdbg snd] in E1, E2. rewrite R1, R2, E1, E2.
  assert (ends_alike T src src' (lsp_position src (sp_end (snd r))) (lsp_position src' (sp_end (snd r')))) as He by (eexists _, _; split; [exact Hd|split; reflexivity]).
  pose proof (backtrace_renamed (e_url_display e) _ _ frames He) as K. destruct (inlay_hint_for_backtrace _ _ (lsp_position src _) frames), (inlay_hint_for_backtrace _ _ (lsp_position src' _) frames); try contradiction K; [|exact I].
  cbn [rmap rbind]. repeat constructor; apply K.
Qed.
Lemma hints_ok : hints_renamed T uri src src' (inlay_hint_handler e s uri) (inlay_hint_handler e s' uri).
Proof.
  destruct (opened_here _ _ _ _ _ _ Ho Hp) as (_ & _ & E1 & G1). destruct (opened_here _ _ _ _ _ _ Ho' Hp') as (_ & _ & E2 & G2). unfold inlay_hint_handler. rewrite G1, G2, E1, E2, !instructions_eq.
  pose proof backtrace_hints_renamed as K. destruct (rflat_map (backtrace_hint e s d) _), (rflat_map (backtrace_hint e s' d') _); try contradiction K; [|exact I]. cbn [rbind hints_renamed].
  apply Forall2_app; [exact incoming_hints_renamed|]. apply Forall2_app; [exact K|exact end_hints_renamed].
Qed.

(** ** Requests *)
Lemma pair_right x : In x l -> exists x', In (x, x') (combine l l').
Proof. exact (proj1 (forall2_pair _ _ _ (proj1 (proj1 BA))) x). Qed.
Lemma pair_left x' : In x' l' -> exists x, In (x, x') (combine l l').
Proof. exact (proj2 (forall2_pair _ _ _ (proj1 (proj1 BA))) x'). Qed.
Lemma pair_same x x' : In (x, x') (combine l l') -> same_occ T x x'.
Proof. exact (combine_forall2 _ _ _ (proj1 (proj1 BA)) x x'). Qed.
Lemma entries_renamed ud o o' : In (o, o') (combine l l') -> Forall2 (same_occ T) (filter (entry_is ud (o_kind o) (o_body o) (o_name o)) l) (filter (entry_is ud (o_kind o') (o_body o') (o_name o')) l').
Proof.
  intros H. eapply forall2_impl; [exact pair_same|]. apply filter_forall2; [|apply combine_pairs; exact (forall2_len _ _ _ (proj1 (proj1 BA)))].
  intros x x' Hx. pose proof (proj2 (proj1 BA) _ _ _ _ Hx H) as G. destruct (pair_same _ _ Hx) as (U & _). unfold same_symbol in G. unfold entry_is. rewrite <- U. rewrite <- !andb_assoc. f_equal.
  apply Bool.eq_iff_eq_true. rewrite !andb_true_iff, !text_eqb_eq. destruct (kind_dec (o_kind x) (o_kind o)), (kind_dec (o_kind x') (o_kind o')), (body_dec (o_body x) (o_body o)), (body_dec (o_body x') (o_body o')); intuition congruence.
Qed.
Variables (a b : stoken) (p p' : nat).
Hypothesis Hab : T a b.
Hypothesis Ha : covers (snd a) p.
Hypothesis Hb : covers (snd b) p'.
Lemma symbols_renamed :
  (symbol_at d (lsp_position src p) = None /\ symbol_at d' (lsp_position src' p') = None) \/
  exists o o', symbol_at d (lsp_position src p) = Some o /\ symbol_at d' (lsp_position src' p') = Some o' /\ In (o, o') (combine l l') /\ occ_token o = a /\ occ_token o' = b.
Proof.
  destruct (opened_here _ _ _ _ _ _ Ho Hp) as (I1 & R1 & _). destruct (opened_here _ _ _ _ _ _ Ho' Hp') as (I2 & R2 & _).
  destruct (indexed_ok _ _ _ _ I1) as (_ & _ & Hsp & Hsub & _). destruct (indexed_ok _ _ _ _ I2) as (_ & _ & Hsp' & Hsub' & _).
  destruct (named_in _ _ Hab) as [Ia Ib]. pose proof (spans_in_each _ _ _ _ Hsp Ia) as La. pose proof (spans_in_each _ _ _ _ Hsp' Ib) as Lb.
  assert (p <= length src) as Lp by (destruct Ha; lia). assert (p' <= length src') as Lp' by (destruct Hb; lia).
  assert (forall x, In x l -> covers (o_span x) p -> occ_token x = a) as U1.
  { intros x Hx [C1 C2]. destruct (spans_in_disjoint _ _ _ _ _ Hsp (recorded_token _ _ _ Hsp Hsub _ Hx) Ia) as [G|G]; [exact G|]. destruct Ha. change (snd (occ_token x)) with (o_span x) in G. lia. }
  assert (forall x, In x l' -> covers (o_span x) p' -> occ_token x = b) as U2.
  { intros x Hx [C1 C2]. destruct (spans_in_disjoint _ _ _ _ _ Hsp' (recorded_token _ _ _ Hsp' Hsub' _ Hx) Ib) as [G|G]; [exact G|]. destruct Hb. change (snd (occ_token x)) with (o_span x) in G. lia. }
  assert (forall x x', same_occ T x x' -> (occ_token x = a <-> occ_token x' = b)) as V by (intros x x' (_ & _ & _ & H); exact (named_one _ _ _ _ H Hab)).
  assert (forall x, occ_token x = a -> covers (o_span x) p) as C1 by (intros x E; change (o_span x) with (snd (occ_token x)); rewrite E; exact Ha).
  assert (forall x, occ_token x = b -> covers (o_span x) p') as C2 by (intros x E; change (o_span x) with (snd (occ_token x)); rewrite E; exact Hb).
  destruct (symbol_at_cases e src d pr I1 R1 P1 p Lp) as [[E N]|(o & m & ud & E & Io & Co & _)]; destruct (symbol_at_cases e src' d' pr' I2 R2 P2 p' Lp') as [[E' N']|(o' & m' & ud' & E' & Io' & Co' & _)].
  - left. auto.
  - exfalso. destruct (pair_left _ Io') as (x & Ix). pose proof (pair_same _ _ Ix) as Sx. exact (N x (in_combine_l _ _ _ _ Ix) (C1 _ (proj2 (V _ _ Sx) (U2 _ Io' Co')))).
  - exfalso. destruct (pair_right _ Io) as (x & Ix). pose proof (pair_same _ _ Ix) as Sx. exact (N' x (in_combine_r _ _ _ _ Ix) (C2 _ (proj1 (V _ _ Sx) (U1 _ Io Co)))).
  - right. exists o, o'. do 2 (split; [assumption|]). destruct (pair_right _ Io) as (x & Ix). pose proof (pair_same _ _ Ix) as Sx. pose proof (proj1 (V _ _ Sx) (U1 _ Io Co)) as Tx. pose proof (U2 _ Io' Co') as To'. pose proof (in_combine_r _ _ _ _ Ix) as Ix'.
    assert (x = o') as <-; [|auto]. destruct (token_kinds x o' ltac:(congruence)) as [K|[[K1 K2]|[K1 K2]]].
    + exact (local_body e src' d' pr' I2 x o' Ix' Io' ltac:(congruence) K).
    + exfalso. destruct (pair_left _ Io') as (y & Iy). pose proof (pair_same _ _ Iy) as Sy. pose proof (proj2 (V _ _ Sy) To') as Ty. destruct Sx as (_ & Kx & _). destruct Sy as (_ & Ky & _).
      apply (prefers_function e src d pr I1 R1 P1 p o y Lp E (in_combine_l _ _ _ _ Iy) (C1 _ Ty)); congruence.
    + exfalso. exact (prefers_function e src' d' pr' I2 R2 P2 p' o' x Lp' E' Ix' (C2 _ Tx) K1 K2).
Qed.
Lemma requests_renamed : requests_alike T uri src src' e s s' a b (lsp_position src p) (lsp_position src' p').
Proof.
  destruct (opened_here _ _ _ _ _ _ Ho Hp) as (I1 & R1 & _ & G1). destruct (opened_here _ _ _ _ _ _ Ho' Hp') as (I2 & R2 & _ & G2).
  destruct symbols_renamed as [[E E']|(o & o' & E & E' & Io & Ta & Tb)].
  - unfold requests_alike, goto_definition, goto_declaration, references, get_use_def_ranges, prepare_rename, rename. rewrite G1, G2. cbn [obind]. rewrite E, E'. cbn [rbind rmap option_map]. split; [left; repeat split|]. intros new _. reflexivity.
  - assert (o_span o = snd a) as Sa by (rewrite <- Ta; reflexivity). assert (o_span o' = snd b) as Sb by (rewrite <- Tb; reflexivity). destruct (pair_same _ _ Io) as (_ & K & _). split.
    + right. exists (map (location_of src uri) (spans pr Def o)), (map (location_of src' uri) (spans pr' Def o')), (map (location_of src uri) (spans pr Decl o)), (map (location_of src' uri) (spans pr' Decl o')),
        (map (location_of src uri) (spans pr Use o)), (map (location_of src' uri) (spans pr' Use o')).
      unfold goto_definition, goto_declaration, references. pose proof (fun ud => answer_at e s uri src d pr I1 R1 G1 P1 o p ud E) as A1. pose proof (fun ud => answer_at e s' uri src' d' pr' I2 R2 G2 P2 o' p' ud E') as A2.
      rewrite !A1, !A2, Sa, Sb. cbn [ud_kind_is_def rmap rbind option_map snd]. rewrite !app_nil_r.
      rewrite (prepare_symbol e s uri src d pr _ P1 I1 R1 G1), (prepare_symbol e s' uri src' d' pr' _ P2 I2 R2 G2), E, E'. cbn [option_map]. rewrite Sa, Sb.
      split; [destruct (external_locations e (roots s) _); [right; eexists; reflexivity|left; reflexivity]|]. split; [destruct (external_locations e (roots s') _); [right; eexists; reflexivity|left; reflexivity]|].
      do 6 (split; [reflexivity|]). unfold spans, spans_of. split; [|split]; apply locations_kept, entries_renamed; exact Io.
    + intros new Hn. unfold rename. rewrite G1, G2, E, E', !unsigned_absolute by exact Hn. unfold absolute_rename. rewrite <- K.
      destruct (check_new_name u (o_kind o) new) as [[final|m]|]; [|reflexivity|exact I]. cbn [rbind].
      destruct (symbol_at_listed e src d pr I1 _ o E) as (_ & m & ud & Hm & Hud). destruct (symbol_at_listed e src' d' pr' I2 _ o' E') as (_ & m' & ud' & Hm' & Hud').
      rewrite (table_use_defs _ _ _ Hm), (table_use_defs _ _ _ Hm'), Hud, Hud', R1, R2. cbn [rbind rename_alike].
      rewrite (entry_edits e src d pr I1 P1 _ _ _ _ _ final Hm Hud), (entry_edits e src' d' pr' I2 P2 _ _ _ _ _ final Hm' Hud').
      apply (forall2_maps (same_occ T)).
      * unfold entry_occs. repeat apply Forall2_app; apply entries_renamed; exact Io.
      * intros x y _ (_ & _ & _ & H). split; [reflexivity|]. exact (tokr _ _ H).
Qed.
End Parsed.
End Documents.

(** ** Whole documents *)
Lemma named_diagnostics e s s' uri src src' d d' : plain_document src -> plain_document src' -> opened e s uri src d -> opened e s' uri src' d' -> renamed_text (e_u e) src src' ->
  forall diags diags', visits_all (e_ord e) -> analyze e uri src = Val (d, diags) -> analyze e uri src' = Val (d', diags') ->
  exists pr pr' k, parse_from_str (e_u e) src = Val pr /\ parse_from_str (e_u e) src' = Val pr' /\ Permutation k diags' /\ Forall2 (diagnostic_renamed (counterparts (pr_tokens pr) (pr_tokens pr')) uri src src') diags k.
Proof.
  intros P1 P2 Ho Ho' Hr diags diags' Hv A A'. destruct (named_pair e s s' uri src src' d d' P2 Ho Ho' Hr) as (pr & pr' & Hp & Hp' & R & S & X & B & C). exists pr, pr'.
  assert (exists k, Permutation k diags' /\ Forall2 (diagnostic_renamed (counterparts (pr_tokens pr) (pr_tokens pr')) uri src src') diags k) as (k & K) by (eapply diagnostics_renamed; eassumption). exists k. split; [exact Hp|]. split; [exact Hp'|]. exact K.
Qed.
Lemma named_shown e s s' uri src src' d d' : plain_document src -> plain_document src' -> opened e s uri src d -> opened e s' uri src' d' -> renamed_text (e_u e) src src' -> visits_all (e_ord e) ->
  exists pr pr', parse_from_str (e_u e) src = Val pr /\ parse_from_str (e_u e) src' = Val pr' /\ shown_renamed (counterparts (pr_tokens pr) (pr_tokens pr')) uri src src' e s s'.
Proof.
  intros P1 P2 Ho Ho' Hr Hv. destruct (named_pair e s s' uri src src' d d' P2 Ho Ho' Hr) as (pr & pr' & Hp & Hp' & R & S & X & B & C). exists pr, pr'. split; [exact Hp|]. split; [exact Hp'|].
  split; [eapply outline_renamed; eassumption|]. split; [eapply folds_renamed; eassumption|]. split; [eapply lenses_renamed; eassumption|]. eapply tokens_renamed; eassumption.
Qed.
Lemma named_graphs e s s' uri src src' d d' : plain_document src -> plain_document src' -> opened e s uri src d -> opened e s' uri src' d' -> renamed_text (e_u e) src src' ->
  exists pr pr', parse_from_str (e_u e) src = Val pr /\ parse_from_str (e_u e) src' = Val pr' /\
    forall n sp n' sp', counterparts (pr_tokens pr) (pr_tokens pr') (TGlobalName n, sp) (TGlobalName n', sp') -> graph_renamed (counterparts (pr_tokens pr) (pr_tokens pr')) s s' uri (pr_stmts pr) n n'.
Proof.
  intros P1 P2 Ho Ho' Hr. destruct (named_pair e s s' uri src src' d d' P2 Ho Ho' Hr) as (pr & pr' & Hp & Hp' & R & S & X & B & C). exists pr, pr'. split; [exact Hp|]. split; [exact Hp'|]. intros n sp n' sp' H. eapply graphs_renamed; eassumption.
Qed.
Lemma named_requests e s s' uri src src' d d' : plain_document src -> plain_document src' -> opened e s uri src d -> opened e s' uri src' d' -> renamed_text (e_u e) src src' ->
  exists pr pr', parse_from_str (e_u e) src = Val pr /\ parse_from_str (e_u e) src' = Val pr' /\
    forall a b p p', counterparts (pr_tokens pr) (pr_tokens pr') a b -> covers (snd a) p -> covers (snd b) p' ->
    requests_alike (counterparts (pr_tokens pr) (pr_tokens pr')) uri src src' e s s' a b (lsp_position src p) (lsp_position src' p').
Proof.
  intros P1 P2 Ho Ho' Hr. destruct (named_pair e s s' uri src src' d d' P2 Ho Ho' Hr) as (pr & pr' & Hp & Hp' & R & S & X & B & C). exists pr, pr'. split; [exact Hp|]. split; [exact Hp'|].
  intros a b p p' Hab Ha Hb. eapply requests_renamed; eassumption.
Qed.
Lemma named_hints e s s' uri src src' d d' : plain_document src -> plain_document src' -> opened e s uri src d -> opened e s' uri src' d' -> renamed_text (e_u e) src src' -> roots s' = roots s ->
  exists pr pr', parse_from_str (e_u e) src = Val pr /\ parse_from_str (e_u e) src' = Val pr' /\
    (values_renamed (counterparts (pr_tokens pr) (pr_tokens pr')) src src' e (pr_stmts pr) (pr_stmts pr') -> hints_renamed (counterparts (pr_tokens pr) (pr_tokens pr')) uri src src' (inlay_hint_handler e s uri) (inlay_hint_handler e s' uri)).
Proof.
  intros P1 P2 Ho Ho' Hr Hro. destruct (named_pair e s s' uri src src' d d' P2 Ho Ho' Hr) as (pr & pr' & Hp & Hp' & R & S & X & B & C). exists pr, pr'. split; [exact Hp|]. split; [exact Hp'|]. intros Hv. eapply hints_ok; eassumption.
Qed.
