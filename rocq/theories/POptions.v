(** Proofs for C85. *)
From Verif Require Import Text Rope Chumsky Tokenizer Parser Index SemTok Diag Rename Cfg Backtrace Server SpecText SpecParse SpecIndex SpecDiag SpecBacktrace SpecCfg SpecView PIndex PHints PRename PNav PCoherent Options SpecOptions.

Lemma in_spans l ud k b n sp : In sp (spans_of l ud k b n) <-> exists o, In o l /\ o_kind o = k /\ o_body o = b /\ o_name o = n /\ o_ud o = ud /\ o_span o = sp.
Proof.
  unfold spans_of. rewrite in_map_iff. split.
  - intros (o & <- & H). apply filter_In in H as [H E]. exists o. unfold entry_is in E. apply andb_true_iff in E as [E E4]. apply andb_true_iff in E as [E E3]. apply andb_true_iff in E as [E1 E2].
    destruct (kind_dec _ _); [|discriminate]. destruct (body_dec _ _); [|discriminate]. apply text_eqb_eq in E4. split; [exact H|]. split; [assumption|]. split; [assumption|]. split; [exact E4|]. split; [|reflexivity].
    destruct (o_ud o), ud; congruence.
  - intros (o & H & E1 & E2 & E3 & E4 & E5). exists o. split; [exact E5|]. apply filter_In. split; [exact H|]. unfold entry_is. subst. destruct (kind_dec _ _); [|congruence]. destruct (body_dec _ _); [|congruence].
    replace (text_eqb (o_name o) (o_name o)) with true by (symmetry; apply text_eqb_eq; reflexivity). destruct (o_ud o); reflexivity.
Qed.
Lemma references_wanted e s uri src d p incl : plain_document src -> opened e s uri src d -> p <= length src ->
  exists pr r, parse_from_str (e_u e) src = Val pr /\ references_request e s uri (lsp_position src p) incl = Val r /\ reference_answer uri src pr p false r.
Proof.
  intros H1 H2 H3. destruct (reference_places _ _ _ _ _ p H1 H2 H3) as (pr & r & E1 & _ & E2 & A). exists pr, (option_map snd r). split; [exact E1|]. split; [exact E2|].
  destruct r as [[origin locs]|]; cbn [option_map snd]; [|exact A]. destruct A as (o & ls & Ho & Hc & _ & El & Ex). cbn [external_answer] in Ex. subst ls. rewrite app_nil_r in El. subst locs.
  exists o. split; [exact Ho|]. split; [exact Hc|]. intros x. rewrite in_map_iff. split.
  - intros (sp & <- & H). apply in_spans in H as (o' & K1 & K2 & K3 & K4 & K5 & <-). exists o'. split; [exact K1|]. split; [repeat split; assumption|]. split; [left; exact K5|reflexivity].
  - intros (o' & K1 & (K2 & K3 & K4) & [K5|K5] & ->); [|discriminate]. exists (o_span o'). split; [reflexivity|]. apply in_spans. exists o'. repeat split; assumption.
Qed.
(** definitions, declarations and references together *)
Lemma references_together e s uri src d p incl origin locs : plain_document src -> opened e s uri src d -> p <= length src ->
  goto_definition e s uri (lsp_position src p) = Val (Some (origin, locs)) ->
  exists pr own ext decls refs, parse_from_str (e_u e) src = Val pr /\ locs = own ++ ext /\ goto_declaration e s uri (lsp_position src p) = Val (Some (origin, decls)) /\
    references_request e s uri (lsp_position src p) incl = Val (Some refs) /\ reference_answer uri src pr p true (Some (own ++ decls ++ refs)).
Proof.
  intros Hsrc Hop Hp Hdef. apply opened_indexed in Hop as (pr & Hix & Hrope & Hst & Hg).
  destruct (symbol_at_cases e src d pr Hix Hrope Hsrc p Hp) as [[E Hno]|(o & m & ud & E & Ho & Hc & Hm & Hud)].
  { exfalso. unfold goto_definition, get_use_def_ranges in Hdef. rewrite Hg in Hdef. cbn [obind] in Hdef. rewrite E in Hdef. discriminate. }
  set (A := answer_at e s uri src d pr Hix Hrope Hg Hsrc). unfold goto_definition in Hdef. rewrite (A _ _ Def E) in Hdef. cbn [ud_kind_is_def] in Hdef.
  destruct (external_locations e (roots s) (externals (pr_stmts pr) o)) as [ext|] eqn:Ee; [|discriminate]. cbn [rmap] in Hdef. injection Hdef as <- <-.
  set (L := map (location_of src uri)). exists pr, (L (spans pr Def o)), ext, (L (spans pr Decl o)), (L (spans pr Use o)).
  split; [apply Hix|]. split; [reflexivity|]. split. { unfold goto_declaration. rewrite (A _ _ Decl E). cbn [ud_kind_is_def rmap rbind]. rewrite app_nil_r. reflexivity. }
  split. { unfold references_request, references. rewrite (A _ _ Use E). cbn [ud_kind_is_def rmap rbind option_map snd]. rewrite app_nil_r. reflexivity. }
  assert (K : forall ud x, In x (L (spans pr ud o)) <-> exists o', In o' (recorded (pr_stmts pr) (pr_tokens pr)) /\ same_name o o' /\ o_ud o' = ud /\ x = location_of src uri (o_span o')).
  { intros k x. unfold L. rewrite in_map_iff. split.
    - intros (sp & <- & H). apply in_spans in H as (o' & K1 & K2 & K3 & K4 & K5 & <-). exists o'. split; [exact K1|]. split; [repeat split; assumption|]. split; [exact K5|reflexivity].
    - intros (o' & K1 & (K2 & K3 & K4) & K5 & ->). exists (o_span o'). split; [reflexivity|]. apply in_spans. exists o'. repeat split; assumption. }
  exists o. split; [exact Ho|]. split; [exact Hc|]. intros x. rewrite !in_app_iff, !K. split.
  - intros [(o' & K1 & K2 & K3 & K4)|[(o' & K1 & K2 & K3 & K4)|(o' & K1 & K2 & K3 & K4)]]; exists o'; (split; [exact K1|]); (split; [exact K2|]); (split; [right; reflexivity|exact K4]).
  - intros (o' & K1 & K2 & _ & K4). destruct (o_ud o') eqn:Eu; [right; left|left|right; right]; exists o'; auto.
Qed.
