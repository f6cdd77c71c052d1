(** Property theorems C90: what is shown of a document laid out anew. *)
From Verif Require Import Text Rope Chumsky Tokenizer Parser Numbers Index SemTok Diag Rename Cfg Backtrace Server SpecText SpecLex SpecParse SpecIndex SpecDiag SpecBacktrace SpecNumbers SpecCfg SpecView SpecSemTok SpecRename SpecPatch SpecSimilar SpecRebind SpecSteps SpecDot SpecComment SpecLayout SpecLines SpecRoom SpecAfter SpecAfterShift SpecAfterHints SpecReformat
  PReformatDoc ExamplesIndex ExamplesCfg ExamplesView ExamplesRename ExamplesPatch ExamplesRebind ExamplesLabel ExamplesUndo ExamplesSteps ExamplesSum ExamplesComment ExamplesLayout ExamplesAfterShift ExamplesAfterHints ExamplesReformat.

(** C90: other blanks, line ends and comments leave the diagnostics with the tokens they were about *)
Theorem C90_diagnostics : forall e s s' uri src src' d d', plain_document src -> plain_document src' -> opened e s uri src d -> opened e s' uri src' d' ->
  respaced (e_u e) None src src' -> ~ Forall blank src -> forall diags diags', visits_all (e_ord e) -> analyze e uri src = Val (d, diags) -> analyze e uri src' = Val (d', diags') ->
  exists pr pr' k, parse_from_str (e_u e) src = Val pr /\ parse_from_str (e_u e) src' = Val pr' /\ Permutation k diags' /\
    Forall2 (diagnostic_alike (counterparts (pr_tokens pr) (pr_tokens pr')) uri src src') diags k.
Proof. exact respaced_diagnostics. Qed.
Print Assumptions C90_diagnostics.
(** C90: and the outline, the folds, the lenses, the hints and the highlighting *)
Theorem C90_shown : forall e s s' uri src src' d d', plain_document src -> plain_document src' -> opened e s uri src d -> opened e s' uri src' d' ->
  respaced (e_u e) None src src' -> ~ Forall blank src -> visits_all (e_ord e) -> roots s' = roots s -> values_alike e src src' (doc_stmts d) (doc_stmts d') ->
  exists pr pr', parse_from_str (e_u e) src = Val pr /\ parse_from_str (e_u e) src' = Val pr' /\
    shown_alike (counterparts (pr_tokens pr) (pr_tokens pr')) uri src src' e s s' /\
    exists out out', semantic_tokens_full s uri = Val (Some out) /\ semantic_tokens_full s' uri = Val (Some out') /\
      Forall2 (token_alike (counterparts (pr_tokens pr) (pr_tokens pr')) src src') (decode out) (decode out').
Proof. exact respaced_shown. Qed.
Print Assumptions C90_shown.
(** C90: the graphs are the same *)
Theorem C90_graphs : forall e s s' uri src src' d d', plain_document src -> opened e s uri src d -> opened e s' uri src' d' ->
  respaced (e_u e) None src src' -> ~ Forall blank src -> forall m, graph_for s' uri m = graph_for s uri m.
Proof. exact respaced_graphs. Qed.
Print Assumptions C90_graphs.
(** C90: idle lines, put in or left out, do as little *)
Theorem C90_lines_diagnostics : forall e s s' uri src src' d d' toks toks' ss, plain_document src -> plain_document src' -> opened e s uri src d -> opened e s' uri src' d' ->
  parse_from_str (e_u e) src = Val (mkPR toks ss []) -> ss <> [] -> tokenize (e_u e) src' = Val (Some toks', []) -> relined LineStart (without_comments toks) (without_comments toks') ->
  forall diags diags', visits_all (e_ord e) -> analyze e uri src = Val (d, diags) -> analyze e uri src' = Val (d', diags') ->
  exists k, Permutation k diags' /\ Forall2 (diagnostic_alike (counterparts (solid toks) (solid toks')) uri src src') diags k.
Proof. exact lines_diagnostics. Qed.
Print Assumptions C90_lines_diagnostics.
Theorem C90_lines_shown : forall e s s' uri src src' d d' toks toks' ss, plain_document src -> plain_document src' -> opened e s uri src d -> opened e s' uri src' d' ->
  parse_from_str (e_u e) src = Val (mkPR toks ss []) -> ss <> [] -> tokenize (e_u e) src' = Val (Some toks', []) -> relined LineStart (without_comments toks) (without_comments toks') ->
  visits_all (e_ord e) -> roots s' = roots s -> values_alike e src src' (doc_stmts d) (doc_stmts d') ->
  shown_alike (counterparts (solid toks) (solid toks')) uri src src' e s s' /\
  exists out out', semantic_tokens_full s uri = Val (Some out) /\ semantic_tokens_full s' uri = Val (Some out') /\
    Forall2 (token_alike (counterparts (solid toks) (solid toks')) src src') (besides_comments (decode out)) (besides_comments (decode out')).
Proof. exact lines_shown. Qed.
Print Assumptions C90_lines_shown.
Theorem C90_lines_graphs : forall e s s' uri src src' d d' toks toks' ss, opened e s uri src d -> opened e s' uri src' d' ->
  parse_from_str (e_u e) src = Val (mkPR toks ss []) -> ss <> [] -> tokenize (e_u e) src' = Val (Some toks', []) -> relined LineStart (without_comments toks) (without_comments toks') ->
  forall m, graph_for s' uri m = graph_for s uri m.
Proof. exact lines_graphs. Qed.
Print Assumptions C90_lines_graphs.
(** loops, a backtrace and two functions, with other blanks and another comment *)
Example C90_ex : plain_document doc90_before /\ plain_document doc90 /\ opened env5 (sv88 doc90_before) (str "f") doc90_before (doc_of env5 doc90_before) /\ opened env5 (sv88 doc90) (str "f") doc90 (doc_of env5 doc90) /\ ~ Forall blank doc90_before.
Proof. exact full90. Qed.
Example C90_respaced_ex : respaced (e_u env5) None doc90_before doc90 /\ visits_all (e_ord env5) /\ roots (sv88 doc90) = roots (sv88 doc90_before) /\
  values_alike env5 doc90_before doc90 (doc_stmts (doc_of env5 doc90_before)) (doc_stmts (doc_of env5 doc90)).
Proof. split; [exact respaced90|]. split; [exact (proj1 (proj2 opened5))|]. split; [reflexivity|exact values90]. Qed.
Example C90_hints_ex : shown_hints doc90 = [
    (mkPos 1 4, [str "incoming: "; str "a_1"; str ", "; str "b"]); (mkPos 3 4, [str "incoming: "; str "a_1"; str ", "; str "b"]); (mkPos 7 4, [str "incoming: "; str "a_1"]);
    (mkPos 2 21, [str "hyper::Translator::consume(x)"; str ", "; str "Full backtrace"]); (mkPos 5 1, [str "@g"]); (mkPos 9 1, [str "@h"])].
Proof. exact (proj2 hints90). Qed.
(** a document with an error *)
Example C90_diagnostics_ex : plain_document doc90_bad /\ plain_document doc90_bad_after /\ opened env5 (sv88 doc90_bad) (str "f") doc90_bad (doc_of env5 doc90_bad) /\
  opened env5 (sv88 doc90_bad_after) (str "f") doc90_bad_after (doc_of env5 doc90_bad_after) /\ ~ Forall blank doc90_bad /\
  analyze env5 (str "f") doc90_bad = Val (doc_of env5 doc90_bad, diags90 doc90_bad) /\ analyze env5 (str "f") doc90_bad_after = Val (doc_of env5 doc90_bad_after, diags90 doc90_bad_after).
Proof. exact bad90. Qed.
Example C90_respaced_bad_ex : respaced (e_u env5) None doc90_bad doc90_bad_after.
Proof. exact respaced90_bad. Qed.
Example C90_messages_ex :
  shown_diags doc90_bad = [(at90 8 15 21, str "Unexpected token in input, expected )"); (at90 8 12 14, str "Use of undefined symbol `@k`"); (at90 0 12 14, str "Use of undefined symbol `@g`"); (at90 5 12 14, str "Use of undefined symbol `@g`")] /\
  shown_diags doc90_bad_after = [(at90 8 21 27, str "Unexpected token in input, expected )"); (at90 8 17 19, str "Use of undefined symbol `@k`"); (at90 0 12 14, str "Use of undefined symbol `@g`"); (at90 5 12 14, str "Use of undefined symbol `@g`")].
Proof. exact diags90_shown. Qed.
(** two idle lines between two blocks *)
Example C90_lines_ex : plain_document doc88 /\ plain_document doc90_lines /\ opened env5 (sv88 doc88) (str "f") doc88 (doc_of env5 doc88) /\ opened env5 (sv88 doc90_lines) (str "f") doc90_lines (doc_of env5 doc90_lines) /\
  analyze env5 (str "f") doc88 = Val (doc_of env5 doc88, diags90 doc88) /\ analyze env5 (str "f") doc90_lines = Val (doc_of env5 doc90_lines, diags90 doc90_lines).
Proof. exact lines90. Qed.
Example C90_relined_ex : parse_from_str (e_u env5) doc88 = Val (mkPR toks88 (pr_stmts (pr_of doc88)) []) /\ pr_stmts (pr_of doc88) <> [] /\
  tokenize (e_u env5) doc90_lines = Val (Some toks90, []) /\ relined LineStart (without_comments toks88) (without_comments toks90) /\
  values_alike env5 doc88 doc90_lines (doc_stmts (doc_of env5 doc88)) (doc_stmts (doc_of env5 doc90_lines)).
Proof. split; [exact (proj1 parsed88)|]. split; [exact (proj2 parsed88)|]. split; [exact (proj1 relined90)|]. split; [exact (proj2 relined90)|exact values90_lines]. Qed.
