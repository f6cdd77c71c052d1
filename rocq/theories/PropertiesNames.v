(** Property theorems C94: which names are chosen has no meaning. *)
From Verif Require Import Text Rope Chumsky Tokenizer Parser Numbers Index SemTok Diag Rename Cfg Backtrace Server SpecText SpecLex SpecParse SpecIndex SpecDiag SpecBacktrace SpecNumbers SpecCfg SpecView SpecSemTok SpecRename SpecPatch SpecSimilar SpecValues SpecRebind SpecSteps SpecDot SpecLayout SpecAfter SpecAfterHints SpecReformat SpecValued SpecWritten SpecNames
  PNames ExamplesIndex ExamplesCfg ExamplesView ExamplesRename ExamplesPatch ExamplesAfterHints ExamplesReformat ExamplesValues ExamplesNames.

(** C94: the diagnostics correspond; those about a name are about the new name *)
Theorem C94_diagnostics : forall e s s' uri src src' d d', plain_document src -> plain_document src' -> opened e s uri src d -> opened e s' uri src' d' -> renamed_text (e_u e) src src' ->
  forall diags diags', visits_all (e_ord e) -> analyze e uri src = Val (d, diags) -> analyze e uri src' = Val (d', diags') ->
  exists pr pr' k, parse_from_str (e_u e) src = Val pr /\ parse_from_str (e_u e) src' = Val pr' /\ Permutation k diags' /\ Forall2 (diagnostic_renamed (counterparts (pr_tokens pr) (pr_tokens pr')) uri src src') diags k.
Proof. exact named_diagnostics. Qed.
Print Assumptions C94_diagnostics.
(** C94: so do the outline, the folds, the lenses and the highlighting *)
Theorem C94_shown : forall e s s' uri src src' d d', plain_document src -> plain_document src' -> opened e s uri src d -> opened e s' uri src' d' -> renamed_text (e_u e) src src' -> visits_all (e_ord e) ->
  exists pr pr', parse_from_str (e_u e) src = Val pr /\ parse_from_str (e_u e) src' = Val pr' /\ shown_renamed (counterparts (pr_tokens pr) (pr_tokens pr')) uri src src' e s s'.
Proof. exact named_shown. Qed.
Print Assumptions C94_shown.
(** C94: so do the hints *)
Theorem C94_hints : forall e s s' uri src src' d d', plain_document src -> plain_document src' -> opened e s uri src d -> opened e s' uri src' d' -> renamed_text (e_u e) src src' -> roots s' = roots s ->
  exists pr pr', parse_from_str (e_u e) src = Val pr /\ parse_from_str (e_u e) src' = Val pr' /\
    (values_renamed (counterparts (pr_tokens pr) (pr_tokens pr')) src src' e (pr_stmts pr) (pr_stmts pr') -> hints_renamed (counterparts (pr_tokens pr) (pr_tokens pr')) uri src src' (inlay_hint_handler e s uri) (inlay_hint_handler e s' uri)).
Proof. exact named_hints. Qed.
Print Assumptions C94_hints.
(** C94: the graph of a function is the same graph with the new names *)
Theorem C94_graphs : forall e s s' uri src src' d d', plain_document src -> plain_document src' -> opened e s uri src d -> opened e s' uri src' d' -> renamed_text (e_u e) src src' ->
  exists pr pr', parse_from_str (e_u e) src = Val pr /\ parse_from_str (e_u e) src' = Val pr' /\
    forall n sp n' sp', counterparts (pr_tokens pr) (pr_tokens pr') (TGlobalName n, sp) (TGlobalName n', sp') -> graph_renamed (counterparts (pr_tokens pr) (pr_tokens pr')) s s' uri (pr_stmts pr) n n'.
Proof. exact named_graphs. Qed.
Print Assumptions C94_graphs.
(** C94: requests at a token are answered with the counterparts *)
Theorem C94_requests : forall e s s' uri src src' d d', plain_document src -> plain_document src' -> opened e s uri src d -> opened e s' uri src' d' -> renamed_text (e_u e) src src' ->
  exists pr pr', parse_from_str (e_u e) src = Val pr /\ parse_from_str (e_u e) src' = Val pr' /\
    forall a b p p', counterparts (pr_tokens pr) (pr_tokens pr') a b -> covers (snd a) p -> covers (snd b) p' ->
    requests_alike (counterparts (pr_tokens pr) (pr_tokens pr')) uri src src' e s s' a b (lsp_position src p) (lsp_position src' p').
Proof. exact named_requests. Qed.
Print Assumptions C94_requests.
(** C94: names that are told apart must still be told apart *)
Theorem C94_merged_refuted : exists src src' toks toks', tokenize u0 src = Val (Some toks, []) /\ tokenize u0 src' = Val (Some toks', []) /\ Forall2 (fun a b : stoken => resembles (fst a) (fst b)) toks toks' /\
  shown_diags src = [] /\ length (shown_diags src') = 1.
Proof. exact merged. Qed.
Print Assumptions C94_merged_refuted.
Example C94_ex : plain_document doc94 /\ plain_document doc94_after /\ opened env5 (sv88 doc94) (str "f") doc94 (doc_of env5 doc94) /\ opened env5 (sv88 doc94_after) (str "f") doc94_after (doc_of env5 doc94_after) /\
  analyze env5 (str "f") doc94 = Val (doc_of env5 doc94, diags90 doc94) /\ analyze env5 (str "f") doc94_after = Val (doc_of env5 doc94_after, diags90 doc94_after).
Proof. exact full94. Qed.
Example C94_renamed_ex : renamed_text (e_u env5) doc94 doc94_after.
Proof. exact renamed94. Qed.
Example C94_values_ex : values_renamed (counterparts (pr_tokens (pr_of doc94)) (pr_tokens (pr_of doc94_after))) doc94 doc94_after env5 (pr_stmts (pr_of doc94)) (pr_stmts (pr_of doc94_after)).
Proof. exact values94. Qed.
Example C94_messages_ex :
  shown_diags doc94 = [(at90 10 15 21, str "Unexpected token in input, expected )"); (at90 14 14 19, str "Use of undefined symbol `@gone`"); (at90 10 12 14, str "Use of undefined symbol `@k`");
    (at90 6 19 26, str "Use of undefined symbol `nowhere`"); (at90 7 0 1, str "Symbol `b` already defined previously"); (at90 3 12 14, str "Use of undefined symbol `%z`")] /\
  shown_diags doc94_after = [(at90 10 17 23, str "Unexpected token in input, expected )"); (at90 14 17 19, str "Use of undefined symbol `@h`"); (at90 10 12 16, str "Use of undefined symbol `@bad`");
    (at90 6 21 28, str "Use of undefined symbol `missing`"); (at90 7 0 6, str "Symbol `finish` already defined previously"); (at90 3 12 20, str "Use of undefined symbol `%unknown`")].
Proof. exact shown94. Qed.
Example C94_requests_ex :
  references env5 (sv88 doc94) (str "f") (mkPos 2 7) = Val (Some [mkLocn (str "f") (at90 3 8 10)]) /\
  references env5 (sv88 doc94_after) (str "f") (mkPos 2 7) = Val (Some [mkLocn (str "f") (at90 3 8 10)]) /\
  goto_definition env5 (sv88 doc94) (str "f") (mkPos 4 14) = Val (Some (at90 4 14 17, [mkLocn (str "f") (at90 1 0 3)])) /\
  goto_definition env5 (sv88 doc94_after) (str "f") (mkPos 4 14) = Val (Some (at90 4 14 19, [mkLocn (str "f") (at90 1 0 5)])).
Proof. exact requests94. Qed.
