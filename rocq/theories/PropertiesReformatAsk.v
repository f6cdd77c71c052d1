(** Property theorems C90, requests: a document laid out anew is asked. *)
From Verif Require Import Text Rope Chumsky Tokenizer Parser Numbers Index SemTok Diag Rename Cfg Backtrace Server SpecText SpecLex SpecParse SpecIndex SpecDiag SpecCfg SpecView SpecRename SpecPatch SpecSimilar SpecValues SpecLayout SpecReformat SpecValued
  PReformatAsk ExamplesIndex ExamplesCfg ExamplesView ExamplesRename ExamplesPatch ExamplesAfterHints ExamplesReformat.

(** C90: definition, declaration, references and rename at a token answer with the counterparts *)
Theorem C90_requests : forall e s s' uri src src' d d', plain_document src -> plain_document src' -> opened e s uri src d -> opened e s' uri src' d' ->
  respaced (e_u e) None src src' -> ~ Forall blank src ->
  exists pr pr', parse_from_str (e_u e) src = Val pr /\ parse_from_str (e_u e) src' = Val pr' /\
    forall a b p p', counterparts (pr_tokens pr) (pr_tokens pr') a b -> covers (snd a) p -> covers (snd b) p' ->
    requests_alike (counterparts (pr_tokens pr) (pr_tokens pr')) uri src src' e s s' a b (lsp_position src p) (lsp_position src' p').
Proof. exact respaced_requests. Qed.
Print Assumptions C90_requests.
Example C90_requests_ex : plain_document doc90_before /\ plain_document doc90 /\ opened env5 (sv88 doc90_before) (str "f") doc90_before (doc_of env5 doc90_before) /\ opened env5 (sv88 doc90) (str "f") doc90 (doc_of env5 doc90) /\ ~ Forall blank doc90_before.
Proof. exact full90. Qed.
Example C90_requests_layout_ex : respaced (e_u env5) None doc90_before doc90.
Proof. exact respaced90. Qed.
