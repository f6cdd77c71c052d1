(** Property theorems C88: lenses, graphs and hints after renames and shifts of numbers. *)
From Verif Require Import Text Rope Chumsky Tokenizer Parser Numbers Index SemTok Diag Rename Cfg Backtrace Server SpecText SpecLex SpecParse SpecIndex SpecDiag SpecBacktrace SpecNumbers SpecCfg SpecView SpecSemTok SpecRename SpecPatch SpecSimilar SpecRebind SpecSteps SpecDot SpecComment SpecAfter SpecAfterShift SpecAfterHints
  PAfterHints ExamplesIndex ExamplesCfg ExamplesView ExamplesRename ExamplesPatch ExamplesRebind ExamplesLabel ExamplesUndo ExamplesSteps ExamplesSum ExamplesComment ExamplesAfterShift ExamplesAfterHints.

(** C88: the lenses move with the functions and ask for them by their new names *)
Theorem C88_lenses : forall e s s' uri src d d' pr p o new final edits, renaming e s uri src d pr p o new final edits -> opened e s' uri (patched src edits) d' -> visits_all (e_ord e) ->
  exists a b, code_lens e s uri = Some a /\ code_lens e s' uri = Some b /\
    Permutation b (map (carried_lens src uri (recorded (pr_stmts pr) (pr_tokens pr)) (renamed_to o final) edits) a).
Proof. exact rename_lenses. Qed.
Print Assumptions C88_lenses.
(** C88: asked for under its new name, a function has the same graph with the new labels *)
Theorem C88_graphs : forall e s s' uri src d d' pr p o new final edits, renaming e s uri src d pr p o new final edits -> opened e s' uri (patched src edits) d' ->
  graph_follows s s' uri (pr_stmts pr) (recorded (pr_stmts pr) (pr_tokens pr)) (renamed_to o final).
Proof. exact rename_graphs. Qed.
Print Assumptions C88_graphs.
(** C88: the hints are the same, moved, with the new name *)
Theorem C88_hints : forall e s s' uri src d d' pr p o new final edits, renaming e s uri src d pr p o new final edits -> opened e s' uri (patched src edits) d' ->
  let l := recorded (pr_stmts pr) (pr_tokens pr) in
  roots s' = roots s -> values_kept (pr_stmts pr) l (same_symbol o) ->
  inlay_hint_handler e s' uri = rmap (option_map (map (carried_hint src uri l (renamed_to o final) edits))) (inlay_hint_handler e s uri).
Proof. exact rename_hints. Qed.
Print Assumptions C88_hints.
(** C88: all of it after numbers have been moved up *)
Theorem C88_shift : forall e s s' uri src d d' pr p o new z n edits, shifting e s uri src d pr p o new z n edits -> opened e s' uri (patched src edits) d' -> visits_all (e_ord e) ->
  let l := recorded (pr_stmts pr) (pr_tokens pr) in
  exists f, numbered l o n z f /\
  (exists a b, code_lens e s uri = Some a /\ code_lens e s' uri = Some b /\ Permutation b (map (carried_lens src uri l f edits) a)) /\
  graph_follows s s' uri (pr_stmts pr) l f /\
  (roots s' = roots s -> values_kept (pr_stmts pr) l (fun x => exists y, moved o n z x y) ->
   inlay_hint_handler e s' uri = rmap (option_map (map (carried_hint src uri l f edits))) (inlay_hint_handler e s uri)).
Proof. exact shift_more. Qed.
Print Assumptions C88_shift.
(** a label of one of two functions gets a new name *)
Example C88_ex : renaming env5 (sv88 doc88) (str "f") doc88 (doc_of env5 doc88) (pr_of doc88) 27 o88 (str "loop") (str "loop") edits88 /\
  opened env5 (sv88 doc88_renamed) (str "f") (patched doc88 edits88) (doc_of env5 doc88_renamed) /\ visits_all (e_ord env5) /\
  roots (sv88 doc88_renamed) = roots (sv88 doc88) /\ values_kept (pr_stmts (pr_of doc88)) (recorded (pr_stmts (pr_of doc88)) (pr_tokens (pr_of doc88))) (same_symbol o88) /\ patched doc88 edits88 = doc88_renamed.
Proof. split; [exact renaming88|]. split; [exact opened88r|]. split; [exact (proj1 (proj2 opened5))|]. split; [reflexivity|]. split; [exact kept88|exact patched88]. Qed.
Example C88_shown_ex : shown_graph doc88 (str "@g") = Some [Edge (str "a_1") (str "a_1"); Edge (str "a_1") (str "b"); Edge (str "b") (str "a_1"); Edge (str "b") (str "b")] /\
  shown_graph doc88_renamed (str "@g") = Some [Edge (str "loop") (str "loop"); Edge (str "loop") (str "b"); Edge (str "b") (str "loop"); Edge (str "b") (str "b")] /\
  shown_graph doc88_renamed (str "@h") = Some [Edge (str "a_1") (str "a_1")].
Proof. exact graphs88. Qed.
Example C88_hints_ex : shown_hints doc88_renamed = [
    (mkPos 1 5, [str "incoming: "; str "loop"; str ", "; str "b"]); (mkPos 3 2, [str "incoming: "; str "loop"; str ", "; str "b"]); (mkPos 7 4, [str "incoming: "; str "a_1"]);
    (mkPos 2 24, [str "hyper::Translator::consume(x)"; str ", "; str "Full backtrace"]); (mkPos 5 1, [str "@g"]); (mkPos 9 1, [str "@h"])].
Proof. exact (proj2 hints88). Qed.
Example C88_shift_ex : shifting env8 s10 (str "f") doc10 d10 (pr_of doc10) 30 o10 (str "+3") 3 2 edits87 /\ visits_all (e_ord env8) /\
  opened env8 (with_doc doc10_moved) (str "f") (patched doc10 edits87) (doc_of env8 doc10_moved) /\ roots (with_doc doc10_moved) = roots s10 /\
  values_kept (pr_stmts (pr_of doc10)) (recorded (pr_stmts (pr_of doc10)) (pr_tokens (pr_of doc10))) (fun x => exists y, moved o10 2 3 x y).
Proof. split; [exact shifting87|]. split; [exact (proj1 (proj2 opened10))|]. split; [exact opened87|]. split; [reflexivity|]. exact kept87. Qed.
