(** Property theorems C86: what the editor shows after a rename. *)
From Verif Require Import Text Rope Chumsky Tokenizer Parser Numbers Index SemTok Diag Rename Cfg Backtrace Server SpecText SpecLex SpecParse SpecIndex SpecDiag SpecBacktrace SpecNumbers SpecCfg SpecView SpecSemTok SpecRename SpecPatch SpecSimilar SpecRebind SpecSteps SpecComment SpecAfter
  PAfter PAfterView ExamplesIndex ExamplesCfg ExamplesView ExamplesRename ExamplesPatch ExamplesRebind ExamplesLabel ExamplesUndo ExamplesSteps ExamplesSum ExamplesComment ExamplesAfter.

(** C86: the diagnostics are the ones from before, moved with the text; those about the renamed symbol tell its new name *)
Theorem C86_diagnostics : forall e s uri src d pr p o new final edits d' diags diags', renaming e s uri src d pr p o new final edits -> visits_all (e_ord e) ->
  analyze e uri src = Val (d, diags) -> analyze e uri (patched src edits) = Val (d', diags') ->
  let l := recorded (pr_stmts pr) (pr_tokens pr) in
  exists others, Permutation diags (others ++ reports_about src uri l o (fun x => x)) /\
    Permutation diags' (map (carried_diagnostic uri edits) (others ++ reports_about src uri l o (under final))).
Proof. exact after_diagnostics. Qed.
Print Assumptions C86_diagnostics.
(** C86: the outline shows the new name, the folds stay, the highlighting moves with the text *)
Theorem C86_views : forall e s s' uri src d d' pr p o new final edits, renaming e s uri src d pr p o new final edits -> opened e s' uri (patched src edits) d' -> visits_all (e_ord e) ->
  (exists a b, document_symbol e s uri = Some a /\ document_symbol e s' uri = Some b /\ Permutation b (map (carried_symbol o final edits) a)) /\
  (exists k, folding_range s uri = Some k /\ folding_range s' uri = Some k) /\
  (exists out out', semantic_tokens_full s uri = Val (Some out) /\ semantic_tokens_full s' uri = Val (Some out') /\ decode out' = map (carried_token edits) (decode out)).
Proof. exact after_views. Qed.
Print Assumptions C86_views.
(** C86: asked at the start of any name, navigation leads to the moved places *)
Theorem C86_answers : forall e s s' uri src d d' pr p o new final edits, renaming e s uri src d pr p o new final edits -> opened e s' uri (patched src edits) d' ->
  forall y, In y (recorded (pr_stmts pr) (pr_tokens pr)) -> let q := lsp_position src (sp_start (o_span y)) in let q' := carried edits q in
  goto_declaration e s' uri q' = rmap (option_map (carried_answer uri edits)) (goto_declaration e s uri q) /\
  references e s' uri q' = rmap (option_map (map (carried_location uri edits))) (references e s uri q) /\
  prepare_rename s' uri q' = option_map (carried_range edits) (prepare_rename s uri q) /\
  (roots s' = roots s -> leads_elsewhere e (roots s) uri (pr_stmts pr) -> goto_definition e s' uri q' = rmap (option_map (carried_answer uri edits)) (goto_definition e s uri q)).
Proof. exact after_answers. Qed.
Print Assumptions C86_answers.
(** a function that is defined twice gets a new name in a document with errors *)
Example C86_ex : renaming env8 (sv doc86) (str "f") doc86 (doc_of env8 doc86) (pr_of doc86) 13 o86 (str "run") (str "@run") edits86 /\ patched doc86 edits86 = doc86_renamed /\
  opened env8 (sv doc86_renamed) (str "f") doc86_renamed (doc_of env8 doc86_renamed) /\ visits_all (e_ord env8) /\
  analyze env8 (str "f") doc86 = Val (doc_of env8 doc86, diags_of doc86) /\ analyze env8 (str "f") (patched doc86 edits86) = Val (doc_of env8 doc86_renamed, diags_of doc86_renamed) /\
  roots (sv doc86_renamed) = roots (sv doc86).
Proof. split; [exact renaming86|]. split; [exact patched86|]. split; [exact (proj2 opened86)|]. split; [exact (proj1 (proj2 opened8))|]. split; [exact (proj1 analyzed86)|]. split; [exact (proj2 analyzed86)|reflexivity]. Qed.
Example C86_shown_ex : option_map (map ds_name) (document_symbol env8 (sv doc86) (str "f")) = Some [str "@v"; str "@f"; str "@f"] /\
  option_map (map ds_name) (document_symbol env8 (sv doc86_renamed) (str "f")) = Some [str "@v"; str "@run"; str "@run"] /\
  carried edits86 (mkPos 1 19) = mkPos 1 23.
Proof. split; [exact (proj1 shown86)|]. split; [exact (proj1 (proj2 shown86))|exact (proj1 carried86)]. Qed.
