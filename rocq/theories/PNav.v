(** Outline, definitions, declarations and references. *)
From Verif Require Import Text Rope Chumsky Tokenizer Parser Numbers Index SemTok Diag Rename Cfg Backtrace Server SpecText SpecLex SpecParse SpecIndex SpecDiag SpecBacktrace SpecCfg SpecView
  PText PRope PLexSpec PLexProps PTokens PParse PParseProps PIndex PIndexDoc PIndexText PDiag PDiagDoc PCfg PBacktrace PHints PView PFold PExt.

(** ** Outline *)
Section Document.
Variables (e : env) (s : server) (uri src : text) (d : doc) (pr : parser_result).
Hypothesis Hix : indexed (e_u e) src pr (doc_index d).
Hypothesis Hrope : doc_rope d = src.
Hypothesis Hget : get_doc s uri = Some d.
Hypothesis Hsrc : plain_document src.

Lemma recorded_defs k : filter (of_kind Def k None) (recorded (pr_stmts pr) (pr_tokens pr)) = filter (of_kind Def k None) (tree_occs 0 (pr_stmts pr)).
Proof.
  destruct (indexed_ok _ _ _ _ Hix) as (_ & _ & Hsp & Hsub & _). rewrite (recorded_eq _ _ _ Hsp Hsub), filter_app.
  rewrite (filter_none _ (filter _ (flat_map _ _))); [apply app_nil_r|]. intros o Ho. apply filter_In in Ho as [Ho _].
  apply in_flat_map in Ho as (t & _ & Ho). apply token_occs_use in Ho as [Ho _]. destruct (of_kind Def k None o) eqn:E; [|reflexivity].
  apply of_kind_spec in E as [E _]. congruence.
Qed.
Lemma recorded_range o : In o (recorded (pr_stmts pr) (pr_tokens pr)) -> sp_start (o_span o) <= sp_end (o_span o) /\ sp_end (o_span o) <= length src.
Proof.
  intros Ho. destruct (indexed_ok _ _ _ _ Hix) as (_ & _ & Hsp & Hsub & _). apply (recorded_token _ _ _ Hsp Hsub) in Ho.
  apply (token_range _ _ _ _ Hix) in Ho. exact Ho.
Qed.
Lemma variables_outline : visits_all (e_ord e) ->
  Permutation (flat_map (fun f => filter_map (fun sp => obind (range_to_lsp src sp) (fun r => Some (mkSym (fst f) SKConstant r r))) (defs (snd f))) (e_ord e (global_vars (doc_index d))))
    (map (variable_symbol src) (variable_names (pr_stmts pr))).
Proof.
  intros Hord. destruct (indexed_ok _ _ _ _ Hix) as (_ & Hi & Hsp & Hsub & _). pose proof (ii_glob _ _ Hi) as Ht.
  assert (Hall : forall n ud sp, In (n, ud) (global_vars (doc_index d)) -> In sp (defs ud) -> sp_start sp <= sp_end sp /\ sp_end sp <= length src).
  { intros n ud sp Hin Hs. destruct Ht as [Hk Ht]. apply (in_alookup _ _ _ Hk) in Hin. specialize (Ht n). rewrite Hin in Ht. destruct Ht as (_ & _ & Ht & _).
    rewrite Ht in Hs. apply in_spans_of in Hs as (o & Ho & <- & _). apply recorded_range. exact Ho. }
  transitivity (map (variable_symbol src) (flat_map (fun x => map (pair (fst x)) (get_use_def_kind (snd x) Def)) (e_ord e (global_vars (doc_index d))))).
  - assert (forall m, (forall x sp, In x m -> In sp (defs (snd x)) -> sp_start sp <= sp_end sp /\ sp_end sp <= length src) ->
      flat_map (fun f => filter_map (fun sp => obind (range_to_lsp src sp) (fun r => Some (mkSym (fst f) SKConstant r r))) (defs (snd f))) m =
      map (variable_symbol src) (flat_map (fun x : text * use_def_list => map (pair (fst x)) (get_use_def_kind (snd x) Def)) m)) as G.
    { induction m as [|x m IH]; intros Hm; [reflexivity|]. cbn [flat_map]. rewrite map_app, IH by (intros; eapply Hm; [right; eassumption|assumption]). f_equal.
      rewrite map_map. apply filter_map_all. intros sp Hs. destruct (Hm x sp (or_introl eq_refl) Hs). rewrite plain_range by assumption. reflexivity. }
    rewrite G; [apply Permutation_refl|]. intros [n ud] sp Hin Hs. eapply Permutation_in in Hin; [|apply Hord]. eapply Hall; eassumption.
  - transitivity (map (variable_symbol src) (flat_map (fun x => map (pair (fst x)) (get_use_def_kind (snd x) Def)) (global_vars (doc_index d)))).
    { apply Permutation_map, Permutation_flat_map, Hord. }
    apply Permutation_map. transitivity (map (fun o => (o_name o, o_span o)) (filter (of_kind Def KGlobalVar None) (recorded (pr_stmts pr) (pr_tokens pr)))).
    { apply table_pairs; [exact Ht|]. eapply recorded_nodup; eassumption. }
    rewrite recorded_defs, var_occs, map_map. unfold var_names, variable_names. erewrite map_ext; [rewrite map_id; apply Permutation_refl|]. intros [? ?]; reflexivity.
Qed.
Lemma functions_outline :
  filter_map (fun f => obind (range_to_lsp src (complete_range f)) (fun r => obind (range_to_lsp src (snd (fb_name f))) (fun r' =>
    Some (mkSym (fst (fb_name f)) SKFunction r r')))) (function_bodies (doc_index d)) = function_outline src (pr_stmts pr) /\
  Forall (fun x => range_in (ds_selection x) (ds_range x)) (function_outline src (pr_stmts pr)).
Proof.
  destruct (indexed_ok _ _ _ _ Hix) as (Ho & _). pose proof (io_ranges _ _ _ _ Ho) as Hr. pose proof (io_names _ _ _ _ Ho) as Hn.
  set (fsym := fun x : span * (func_sig * func_body) => mkSym (fst (fs_name (fst (snd x)))) SKFunction (lsp_range src (range3 x)) (lsp_range src (snd (fs_name (fst (snd x)))))).
  assert (function_outline src (pr_stmts pr) = map fsym (defs3 (pr_stmts pr))) as Ef.
  { unfold function_outline, defs3. clear. induction (pr_stmts pr) as [|x ss IH]; [reflexivity|]. cbn [flat_map]. rewrite map_app, <- IH. destruct x; reflexivity. }
  assert (map fb_name (function_bodies (doc_index d)) = map (fun x => fs_name (fst (snd x))) (defs3 (pr_stmts pr))) as Hn'.
  { rewrite Hn. unfold defs3. clear. induction (pr_stmts pr) as [|x ss IH]; [reflexivity|]. cbn [flat_map]. rewrite map_app, <- IH. destruct x; reflexivity. }
  rewrite ranges3 in Hr. rewrite Ef.
  pose proof (def3_bounds e src d pr Hix Hrope (proj2 (proj2 Hsrc))) as Hb.
  assert (forall x, In x (defs3 (pr_stmts pr)) -> let sp := snd (fs_name (fst (snd x))) in
    sp_start (range3 x) <= sp_start sp /\ sp_start sp <= sp_end sp /\ sp_end sp <= sp_end (range3 x)) as Hname.
  { intros [kw [sig body]] Hx. apply in_defs3 in Hx. cbn [fst snd] in *. pose proof Hix as [Hp _]. pose proof (layout _ _ _ Hp) as (W & _ & _). rewrite Forall_forall in W. apply W in Hx as [W1 _].
    cbn [range3 fst snd sp_start sp_end]. cbn [app] in W1. inversion W1 as [|? ? ? _ K1 K2]; subst. inversion K2 as [|? ? ? K3 K4 K5]; subst. inversion K5 as [|? ? ? K6 K7 K8]; subst.
    assert (forall l n, ranges_in_order n (l ++ [fb_close body]) -> n <= sp_end (fb_close body)) as Hl.
    { induction l as [|b l IH]; intros n Hl; inversion Hl as [|? ? ? R1 R2 R3]; subst; [lia|]. apply IH in R3. lia. }
    apply Hl in K8. cbv zeta. lia. }
  assert (forall p q, p <= q -> q <= length src -> pos_le (lsp_position src p) (lsp_position src q)) as Hm.
  { intros p q H1 H2. destruct Hsrc as (Ha & Hpl & Hs). exact (position_mono src p q _ _ H1 (positions_are_lsp_ascii src p Ha Hpl Hs ltac:(lia)) (positions_are_lsp_ascii src q Ha Hpl Hs H2)). }
  split.
  - revert Hr Hn' Hb Hname. generalize (defs3 (pr_stmts pr)) as l. clear - Hsrc. induction (function_bodies (doc_index d)) as [|fb fbs IH]; intros [|x l] Hr Hn' Hb Hname; try discriminate; [reflexivity|].
    cbn [map] in Hr, Hn'. injection Hr as R1 R2. injection Hn' as N1 N2. cbn [filter_map map]. rewrite R1, N1.
    destruct (Hb x (or_introl eq_refl)) as (B1 & B2 & _). destruct (Hname x (or_introl eq_refl)) as (C1 & C2 & C3).
    rewrite !plain_range by (assumption || lia). cbn [obind]. f_equal. apply IH; [exact R2|exact N2| |]; intros; [apply Hb|apply Hname]; right; assumption.
  - apply Forall_forall. intros y Hy. apply in_map_iff in Hy as (x & <- & Hx). destruct (Hb x Hx) as (B1 & B2 & _). destruct (Hname x Hx) as (C1 & C2 & C3).
    split; apply Hm; lia.
Qed.

(** ** Places of symbols *)
Lemma external_spec rs l : can_resolve rs -> (forall x, In x l -> ext_line x <> 0%N) ->
  exists lss, external_locations e rs l = Val (concat lss) /\ Forall2 (external_location e rs) l lss.
Proof.
  intros Hc. induction l as [|x l IH]; intros Hl; [exists []; split; [reflexivity|constructor]|].
  destruct IH as (lss & E & H); [intros; apply Hl; right; assumption|]. destruct (found_below_spec (e_fs e) rs (ext_path x) Hc) as (o & Eo & Ho).
  cbn [external_locations]. rewrite Eo. cbn [rbind]. destruct o as [y|].
  - assert (ext_line x <> 0%N) as Hx by (apply Hl; left; reflexivity). unfold u32_pred. destruct (ext_line x =? 0)%N eqn:E0; [apply N.eqb_eq in E0; contradiction|].
    cbn [rbind]. rewrite E. cbn [rbind]. eexists (_ :: lss). split; [|constructor; [exists (Some y); split; [exact Ho|reflexivity]|exact H]].
    cbn [concat app]. do 2 f_equal. rewrite N2Nat.inj_sub. reflexivity.
  - rewrite E. exists ([] :: lss). split; [reflexivity|]. constructor; [exists None; split; [exact Ho|reflexivity]|exact H].
Qed.
Lemma table_use_defs o m : table_of (doc_index d) (o_kind o) (o_body o) = Some m -> use_defs_of d o = Val (alookup (o_name o) m).
Proof.
  unfold table_of, use_defs_of, body_of_id, get_by_symbol_kind. intros H.
  destruct (o_kind o), (o_body o) as [id|]; try discriminate; try (injection H as <-; reflexivity);
    (destruct (nth_error (function_bodies (doc_index d)) id) as [fb|]; [|discriminate]; injection H as <-; reflexivity).
Qed.
Lemma externals_of o m x : table_of (doc_index d) (o_kind o) (o_body o) = Some m -> alookup (o_name o) m = Some x ->
  external_defs x = externals (pr_stmts pr) o.
Proof.
  intros Hm Hx. destruct (indexed_ok _ _ _ _ Hix) as (Ho & _). destruct Hix as [_ Hc]. apply create_index_ext in Hc as [G1 G2 G3].
  assert (forall m', no_ext m' -> alookup (o_name o) m' = Some x -> external_defs x = []) as Hno.
  { intros m' H' Hx'. apply alookup_in in Hx'. unfold no_ext in H'. rewrite Forall_forall in H'. exact (H' _ Hx'). }
  unfold externals, table_of in *. destruct (o_kind o), (o_body o) as [id|]; try discriminate;
    try (injection Hm as <-; apply (Hno _ G1 Hx)); try (injection Hm as <-; apply (Hno _ G2 Hx)).
  - injection Hm as <-. rewrite <- (io_external _ _ _ _ Ho), Hx. reflexivity.
  - destruct (nth_error (function_bodies (doc_index d)) id) as [fb|] eqn:E; [|discriminate]. injection Hm as <-. apply nth_error_In in E. rewrite Forall_forall in G3. destruct (G3 _ E) as [B1 _]. apply (Hno _ B1 Hx).
  - destruct (nth_error (function_bodies (doc_index d)) id) as [fb|] eqn:E; [|discriminate]. injection Hm as <-. apply nth_error_In in E. rewrite Forall_forall in G3. destruct (G3 _ E) as [_ B1]. apply (Hno _ B1 Hx).
Qed.
Lemma ranges_answer ud p : p <= length src -> (ud = Def -> can_resolve (roots s) /\ lines_from_1 (pr_stmts pr)) ->
  exists r, get_use_def_ranges e s uri (lsp_position src p) ud = Val r /\ answers e (roots s) uri src pr p ud r.
Proof.
  intros Hp Hl. unfold get_use_def_ranges. rewrite Hget. cbn [obind]. unfold symbol_at. rewrite Hrope.
  destruct Hsrc as (Ha & Hpl & Hs). rewrite (cursor_valid src p Hpl Hs Hp). cbn [obind]. destruct (indexed_ok _ _ _ _ Hix) as (_ & Hi & _).
  destruct (find_symbol_at_position (doc_index d) p) as [o|] eqn:Ef.
  - cbn [obind]. apply (lookup_some _ _ _ _ _ _ Hix) in Ef as [Ho Hcov]. pose proof (proj1 (listed_recorded _ _ _ Hi) Ho) as Hor. destruct Ho as (m & x & Hm & Hx & Hin).
    rewrite (table_use_defs _ _ Hm), Hx. cbn [rbind].
    assert (get_use_def_kind x ud = spans_of (recorded (pr_stmts pr) (pr_tokens pr)) ud (o_kind o) (o_body o) (o_name o)) as Hk.
    { pose proof (table_ok _ _ Hi _ _ _ Hm) as [_ Ht]. specialize (Ht (o_name o)). rewrite Hx in Ht. destruct ud; cbn [get_use_def_kind]; tauto. }
    rewrite Hk, Hrope. rewrite (filter_map_all _ (location_of src uri)).
    2:{ intros sp Hsp. apply in_spans_of in Hsp as (o' & Ho' & <- & _). destruct (recorded_range _ Ho'). rewrite plain_range by (assumption || exact (conj Ha (conj Hpl Hs))). reflexivity. }
    destruct (recorded_range _ Hor) as [R1 R2]. rewrite plain_range by (assumption || exact (conj Ha (conj Hpl Hs))). cbn [obind].
    assert (covers (o_span o) p) as Hcov'. { unfold span_contains in Hcov. apply andb_true_iff in Hcov as [C1 C2]. apply Nat.leb_le in C1. apply Nat.ltb_lt in C2. split; assumption. }
    destruct ud; cbn [ud_kind_is_def rbind].
    + eexists. split; [reflexivity|]. exists o, []. rewrite Nat.eqb_refl || idtac. repeat (split; [assumption || reflexivity|]). reflexivity.
    + rewrite (externals_of _ _ _ Hm Hx). destruct (Hl eq_refl) as [Hc Hl']. destruct (external_spec (roots s) (externals (pr_stmts pr) o) Hc) as (lss & E & Hlss).
      { intros y Hy. unfold externals in Hy. destruct (o_kind o); try contradiction. eapply Hl'. exact Hy. }
      rewrite E. cbn [rbind]. eexists. split; [reflexivity|]. exists o, (concat lss). repeat (split; [assumption || reflexivity|]). exists lss. split; [reflexivity|exact Hlss].
    + eexists. split; [reflexivity|]. exists o, []. repeat (split; [assumption || reflexivity|]). reflexivity.
  - cbn [obind]. exists None. split; [reflexivity|]. intros o Ho [C1 C2]. apply (listed_recorded _ _ _ Hi) in Ho. pose proof (lookup_none _ _ _ _ _ Hix Ef o Ho) as Hn.
    unfold span_contains in Hn. apply andb_false_iff in Hn as [Hn|Hn]; [apply Nat.leb_gt in Hn|apply Nat.ltb_ge in Hn]; lia.
Qed.
End Document.

Lemma outline e s uri src d : plain_document src -> visits_all (e_ord e) -> opened e s uri src d ->
  exists vs, document_symbol e s uri = Some (vs ++ function_outline src (doc_stmts d)) /\
    Permutation vs (map (variable_symbol src) (variable_names (doc_stmts d))) /\
    Forall (fun x => range_in (ds_selection x) (ds_range x)) (function_outline src (doc_stmts d)).
Proof.
  intros Hsrc Hord Ho. apply opened_indexed in Ho as (pr & Hix & Hrope & -> & Hg). unfold document_symbol. rewrite Hg. cbn [obind]. rewrite Hrope.
  destruct (functions_outline e src d pr Hix Hrope Hsrc) as [E1 E2]. rewrite E1. eexists. split; [reflexivity|]. split; [|exact E2].
  apply variables_outline; assumption.
Qed.
Lemma places e s uri src d ud p : plain_document src -> opened e s uri src d -> (ud = Def -> can_resolve (roots s) /\ lines_from_1 (doc_stmts d)) ->
  p <= length src -> exists pr r, parse_from_str (e_u e) src = Val pr /\ pr_stmts pr = doc_stmts d /\
    get_use_def_ranges e s uri (lsp_position src p) ud = Val r /\ answers e (roots s) uri src pr p ud r.
Proof.
  intros Hsrc Ho Hl Hp. apply opened_indexed in Ho as (pr & Hix & Hrope & Hst & Hg). rewrite Hst in *.
  destruct (ranges_answer e s uri src d pr Hix Hrope Hg Hsrc ud p Hp Hl) as (r & E & H). exists pr, r. split; [apply Hix|]. auto.
Qed.
Lemma definition_places e s uri src d p : plain_document src -> opened e s uri src d -> can_resolve (roots s) -> lines_from_1 (doc_stmts d) -> p <= length src ->
  exists pr r, parse_from_str (e_u e) src = Val pr /\ pr_stmts pr = doc_stmts d /\
    goto_definition e s uri (lsp_position src p) = Val r /\ answers e (roots s) uri src pr p Def r.
Proof. intros H1 H2 H3 H4 H5. apply (places e s uri src d Def p H1 H2); auto. Qed.
Lemma declaration_places e s uri src d p : plain_document src -> opened e s uri src d -> p <= length src ->
  exists pr r, parse_from_str (e_u e) src = Val pr /\ pr_stmts pr = doc_stmts d /\
    goto_declaration e s uri (lsp_position src p) = Val r /\ answers e (roots s) uri src pr p Decl r.
Proof. intros H1 H2 H5. apply (places e s uri src d Decl p H1 H2); [discriminate|exact H5]. Qed.
Lemma reference_places e s uri src d p : plain_document src -> opened e s uri src d -> p <= length src ->
  exists pr r, parse_from_str (e_u e) src = Val pr /\ pr_stmts pr = doc_stmts d /\
    references e s uri (lsp_position src p) = Val (option_map snd r) /\ answers e (roots s) uri src pr p Use r.
Proof.
  intros H1 H2 H5. destruct (places e s uri src d Use p H1 H2 ltac:(discriminate) H5) as (pr & r & G1 & G2 & G3 & G4).
  exists pr, r. unfold references. rewrite G3. auto.
Qed.
Lemma past_end e s uri src d ud pos : plain_document src -> opened e s uri src d -> lsp_lines src <= p_line pos ->
  get_use_def_ranges e s uri pos ud = Val None.
Proof.
  intros Hsrc Ho Hl. apply opened_indexed in Ho as (pr & Hix & Hrope & _ & Hg). unfold get_use_def_ranges. rewrite Hg. cbn [obind]. unfold symbol_at. rewrite Hrope.
  destruct (cursor_no_line src pos (proj1 (proj2 Hsrc))) as [H1 H2]. destruct (Nat.eq_dec (lsp_lines src) (p_line pos)) as [E|E].
  - rewrite (H2 E). cbn [obind]. destruct (find_symbol_at_position (doc_index d) (length src + p_char pos)) as [o|] eqn:Ef; [|reflexivity]. exfalso.
    apply (lookup_some _ _ _ _ _ _ Hix) in Ef as [Ho Hc]. apply (listed_token _ _ _ _ _ Hix) in Ho. apply (token_range _ _ _ _ Hix) in Ho. cbn [occ_token snd] in Ho.
    unfold span_contains in Hc. apply andb_true_iff in Hc as [_ Hc]. apply Nat.ltb_lt in Hc. lia.
  - rewrite H1 by lia. reflexivity.
Qed.
Lemma nothing_past_end e s uri src d pos : plain_document src -> opened e s uri src d -> lsp_lines src <= p_line pos ->
  goto_definition e s uri pos = Val None /\ goto_declaration e s uri pos = Val None /\ references e s uri pos = Val None.
Proof.
  intros H1 H2 H3. unfold goto_definition, goto_declaration, references. rewrite !(past_end e s uri src d) by assumption. auto.
Qed.
