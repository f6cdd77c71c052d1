(** Property theorems C87: what the editor shows after numbers have been moved up. *)
From Verif Require Import Text Rope Chumsky Tokenizer Parser Numbers Index SemTok Diag Rename Cfg Backtrace Server SpecText SpecLex SpecParse SpecIndex SpecDiag SpecBacktrace SpecNumbers SpecCfg SpecView SpecSemTok SpecRename SpecPatch SpecSimilar SpecRebind SpecSteps SpecComment SpecAfter SpecAfterShift
  PAfterShift ExamplesIndex ExamplesCfg ExamplesView ExamplesRename ExamplesPatch ExamplesRebind ExamplesLabel ExamplesUndo ExamplesSteps ExamplesSum ExamplesComment ExamplesAfterShift.

(** C87: the diagnostics are the ones from before, moved with the text; those about names in the scope tell the moved numbers *)
Theorem C87_diagnostics : forall e s uri src d pr p o new z n edits, shifting e s uri src d pr p o new z n edits -> visits_all (e_ord e) ->
  forall d' diags diags', analyze e uri src = Val (d, diags) -> analyze e uri (patched src edits) = Val (d', diags') ->
  exists others f, (forall x, In x (recorded (pr_stmts pr) (pr_tokens pr)) -> in_scope o x -> moves_or_stays n z (o_name x) (f x)) /\
    Permutation diags (others ++ reports_within src uri (recorded (pr_stmts pr) (pr_tokens pr)) o (fun x => x)) /\
    Permutation diags' (map (carried_diagnostic uri edits) (others ++ reports_within src uri (recorded (pr_stmts pr) (pr_tokens pr)) o (fun x => under (f x) x))).
Proof. exact shift_diagnostics. Qed.
Print Assumptions C87_diagnostics.
(** C87: the outline and the highlighting move with the text, the folds stay *)
Theorem C87_views : forall e s s' uri src d d' pr p o new z n edits, shifting e s uri src d pr p o new z n edits -> opened e s' uri (patched src edits) d' -> visits_all (e_ord e) ->
  (exists a b, document_symbol e s uri = Some a /\ document_symbol e s' uri = Some b /\ Permutation b (map (kept_symbol edits) a)) /\
  (exists k, folding_range s uri = Some k /\ folding_range s' uri = Some k) /\
  (exists out out', semantic_tokens_full s uri = Val (Some out) /\ semantic_tokens_full s' uri = Val (Some out') /\ decode out' = map (carried_token edits) (decode out)).
Proof. exact shift_views. Qed.
Print Assumptions C87_views.
(** C87: asked at the start of any name, navigation leads to the moved places *)
Theorem C87_answers : forall e s s' uri src d d' pr p o new z n edits, shifting e s uri src d pr p o new z n edits -> opened e s' uri (patched src edits) d' -> visits_all (e_ord e) ->
  forall y, In y (recorded (pr_stmts pr) (pr_tokens pr)) -> let q := lsp_position src (sp_start (o_span y)) in let q' := carried edits q in
  goto_declaration e s' uri q' = rmap (option_map (carried_answer uri edits)) (goto_declaration e s uri q) /\
  references e s' uri q' = rmap (option_map (map (carried_location uri edits))) (references e s uri q) /\
  prepare_rename s' uri q' = option_map (carried_range edits) (prepare_rename s uri q) /\
  (roots s' = roots s -> leads_elsewhere e (roots s) uri (pr_stmts pr) -> goto_definition e s' uri q' = rmap (option_map (carried_answer uri edits)) (goto_definition e s uri q)).
Proof. exact shift_answers. Qed.
Print Assumptions C87_answers.
(** the numbers from %2 on move by 3 in a document where %4 is not defined *)
Example C87_ex : shifting env8 s10 (str "f") doc10 d10 (pr_of doc10) 30 o10 (str "+3") 3 2 edits87 /\ visits_all (e_ord env8) /\
  opened env8 (with_doc doc10_moved) (str "f") (patched doc10 edits87) (doc_of env8 doc10_moved) /\ roots (with_doc doc10_moved) = roots s10 /\
  analyze env8 (str "f") doc10 = Val (d10, diags_of doc10) /\ analyze env8 (str "f") (patched doc10 edits87) = Val (doc_of env8 doc10_moved, diags_of doc10_moved).
Proof. split; [exact shifting87|]. split; [exact (proj1 (proj2 opened10))|]. split; [exact opened87|]. split; [reflexivity|]. exact analyzed87. Qed.
Example C87_shown_ex : map (fun x => (r_start (d_range x), d_message x)) (diags_of doc10) = [(mkPos 3 16, str "Use of undefined symbol `%4`")] /\
  map (fun x => (r_start (d_range x), d_message x)) (diags_of doc10_moved) = [(mkPos 3 16, str "Use of undefined symbol `%7`")].
Proof. exact shown87. Qed.
