(** Property theorems C93: what is shown does not depend on the values of literals. *)
From Verif Require Import Text Rope Chumsky Tokenizer Parser Numbers Index SemTok Diag Rename Cfg Backtrace Server SpecText SpecLex SpecParse SpecIndex SpecDiag SpecBacktrace SpecNumbers SpecCfg SpecView SpecSemTok SpecRename SpecPatch SpecSimilar SpecValues SpecRebind SpecSteps SpecDot SpecLayout SpecAfter SpecAfterHints SpecReformat SpecValued
  PValues ExamplesIndex ExamplesCfg ExamplesView ExamplesRename ExamplesPatch ExamplesAfterHints ExamplesReformat ExamplesValues.

(** C93: the diagnostics stay with the tokens they were about *)
Theorem C93_diagnostics : forall e s s' uri src src' d d', plain_document src -> plain_document src' -> opened e s uri src d -> opened e s' uri src' d' -> revalued_text (e_u e) src src' ->
  forall diags diags', visits_all (e_ord e) -> analyze e uri src = Val (d, diags) -> analyze e uri src' = Val (d', diags') ->
  exists pr pr' k, parse_from_str (e_u e) src = Val pr /\ parse_from_str (e_u e) src' = Val pr' /\ Permutation k diags' /\
    Forall2 (diagnostic_alike (counterparts (pr_tokens pr) (pr_tokens pr')) uri src src') diags k.
Proof. exact valued_diagnostics. Qed.
Print Assumptions C93_diagnostics.
(** C93: so do the outline, the folds, the lenses, the hints and the highlighting *)
Theorem C93_shown : forall e s s' uri src src' d d', plain_document src -> plain_document src' -> opened e s uri src d -> opened e s' uri src' d' -> revalued_text (e_u e) src src' ->
  exists pr pr', parse_from_str (e_u e) src = Val pr /\ parse_from_str (e_u e) src' = Val pr' /\
    (visits_all (e_ord e) -> roots s' = roots s -> values_alike e src src' (doc_stmts d) (doc_stmts d') -> shown_alike (counterparts (pr_tokens pr) (pr_tokens pr')) uri src src' e s s') /\
    exists out out', semantic_tokens_full s uri = Val (Some out) /\ semantic_tokens_full s' uri = Val (Some out') /\
      Forall2 (token_kept (counterparts (pr_tokens pr) (pr_tokens pr')) src src') (decode out) (decode out').
Proof. exact valued_shown. Qed.
Print Assumptions C93_shown.
(** C93: the graphs are the same *)
Theorem C93_graphs : forall e s s' uri src src' d d', plain_document src -> plain_document src' -> opened e s uri src d -> opened e s' uri src' d' -> revalued_text (e_u e) src src' ->
  forall m, graph_for s' uri m = graph_for s uri m.
Proof. exact valued_graphs. Qed.
Print Assumptions C93_graphs.
(** C93: requests at a token are answered with the counterparts *)
Theorem C93_requests : forall e s s' uri src src' d d', plain_document src -> plain_document src' -> opened e s uri src d -> opened e s' uri src' d' -> revalued_text (e_u e) src src' ->
  exists pr pr', parse_from_str (e_u e) src = Val pr /\ parse_from_str (e_u e) src' = Val pr' /\
    forall a b p p', counterparts (pr_tokens pr) (pr_tokens pr') a b -> covers (snd a) p -> covers (snd b) p' ->
    requests_alike (counterparts (pr_tokens pr) (pr_tokens pr')) uri src src' e s s' a b (lsp_position src p) (lsp_position src' p').
Proof. exact valued_requests. Qed.
Print Assumptions C93_requests.
(** C93: one type is not like the others *)
Theorem C93_int1_refuted : exists src src' toks toks', tokenize u0 src = Val (Some toks, []) /\ tokenize u0 src' = Val (Some toks', []) /\
  Forall2 (fun a b : stoken => fst a = fst b \/ exists v w, fst a = TType v /\ fst b = TType w) toks toks' /\
  shown_diags src = [] /\ length (shown_diags src') = 1.
Proof. exact int1_special. Qed.
Print Assumptions C93_int1_refuted.
(** numbers, texts and types, a loop, a backtrace, a name that is not bound and a line that cannot be read *)
Example C93_ex : plain_document doc93 /\ plain_document doc93_after /\ opened env5 (sv88 doc93) (str "f") doc93 (doc_of env5 doc93) /\ opened env5 (sv88 doc93_after) (str "f") doc93_after (doc_of env5 doc93_after) /\
  analyze env5 (str "f") doc93 = Val (doc_of env5 doc93, diags90 doc93) /\ analyze env5 (str "f") doc93_after = Val (doc_of env5 doc93_after, diags90 doc93_after).
Proof. exact full93. Qed.
Example C93_revalued_ex : revalued_text (e_u env5) doc93 doc93_after.
Proof. exact revalued93. Qed.
Example C93_values_ex : values_alike env5 doc93 doc93_after (doc_stmts (doc_of env5 doc93)) (doc_stmts (doc_of env5 doc93_after)).
Proof. exact values93. Qed.
Example C93_messages_ex :
  shown_diags doc93 = [(at90 8 15 21, str "Unexpected token in input, expected )"); (at90 8 12 14, str "Use of undefined symbol `@k`"); (at90 3 22 24, str "Use of undefined symbol `%z`")] /\
  shown_diags doc93_after = [(at90 8 15 21, str "Unexpected token in input, expected )"); (at90 8 12 14, str "Use of undefined symbol `@k`"); (at90 3 35 37, str "Use of undefined symbol `%z`")].
Proof. exact shown93. Qed.
Example C93_requests_ex :
  references env5 (sv88 doc93) (str "f") (mkPos 0 20) = Val (Some [mkLocn (str "f") (at90 2 16 18)]) /\
  references env5 (sv88 doc93_after) (str "f") (mkPos 0 21) = Val (Some [mkLocn (str "f") (at90 2 17 19)]).
Proof. exact requests93. Qed.
