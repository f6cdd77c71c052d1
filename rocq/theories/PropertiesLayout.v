(** Property theorems C61: blanks, comments and line ends have no meaning. *)
From Verif Require Import Text Rope Chumsky Tokenizer Parser Numbers Index SemTok Diag Rename Cfg Backtrace Server SpecText SpecLex SpecParse SpecIndex SpecDiag SpecBacktrace SpecCfg SpecView SpecSimilar SpecRebind SpecLayout
  PLayout PAlike ExamplesIndex ExamplesCfg ExamplesView ExamplesLabel ExamplesLayout.

(** C61: a document laid out in another way has the same tokens *)
Theorem C61_tokens : forall u src src', respaced u None src src' -> ~ Forall blank src ->
  exists toks toks', tokenize u src = Val (Some toks, []) /\ tokenize u src' = Val (Some toks', []) /\ map fst toks' = map fst toks.
Proof. exact respaced_tokens. Qed.
Print Assumptions C61_tokens.
(** the same syntax tree, the same errors at the tokens in question, the same bindings, undefined names and redefinitions *)
Theorem C61_document : forall u src src' pr, respaced u None src src' -> parse_from_str u src = Val pr -> pr_tokens pr <> [] ->
  exists pr', parse_from_str u src' = Val pr' /\ map fst (pr_tokens pr') = map fst (pr_tokens pr) /\
    Forall2 (same_stmt (counterparts (pr_tokens pr) (pr_tokens pr'))) (pr_stmts pr) (pr_stmts pr') /\
    Forall2 same_complaint (pr_errors pr) (pr_errors pr') /\ bound_alike pr pr'.
Proof. exact respaced_parse. Qed.
Print Assumptions C61_document.
(** the same answers: places of corresponding names *)
Theorem C61_answers : forall e s s' uri uri' src src' d d', plain_document src -> plain_document src' -> opened e s uri src d -> opened e s' uri' src' d' ->
  respaced (e_u e) None src src' -> ~ Forall blank src -> roots s' = roots s -> can_resolve (roots s) -> lines_from_1 (doc_stmts d) ->
  exists pr pr', parse_from_str (e_u e) src = Val pr /\ parse_from_str (e_u e) src' = Val pr' /\
    Forall2 (same_occ (counterparts (pr_tokens pr) (pr_tokens pr'))) (recorded (pr_stmts pr) (pr_tokens pr)) (recorded (pr_stmts pr') (pr_tokens pr')) /\
    forall o o' p p', In (o, o') (combine (recorded (pr_stmts pr) (pr_tokens pr)) (recorded (pr_stmts pr') (pr_tokens pr'))) ->
      covers (o_span o) p -> covers (o_span o') p' -> (global (o_kind o) -> ~ dual (pr_stmts pr) (o_name o)) ->
      (exists r r', goto_definition e s uri (lsp_position src p) = Val r /\ goto_definition e s' uri' (lsp_position src' p') = Val r' /\
         told_alike (counterparts (pr_tokens pr) (pr_tokens pr')) src uri src' uri' o o' r r') /\
      (exists r r', goto_declaration e s uri (lsp_position src p) = Val r /\ goto_declaration e s' uri' (lsp_position src' p') = Val r' /\
         told_alike (counterparts (pr_tokens pr) (pr_tokens pr')) src uri src' uri' o o' r r') /\
      (exists r r', references e s uri (lsp_position src p) = Val (option_map snd r) /\ references e s' uri' (lsp_position src' p') = Val (option_map snd r') /\
         told_alike (counterparts (pr_tokens pr) (pr_tokens pr')) src uri src' uri' o o' r r').
Proof. exact respaced_answers. Qed.
Print Assumptions C61_answers.
Example C61_ex : respaced (e_u env8) None doc12 doc13 /\ parse_from_str (e_u env8) doc12 = Val (pr_of doc12) /\ pr_tokens (pr_of doc12) <> [] /\ ~ Forall blank doc12.
Proof. split; [exact respaced13|exact parsed12]. Qed.
Example C61_answers_ex : plain_document doc12 /\ plain_document doc13 /\ opened env8 s12 (str "f") doc12 d12 /\ opened env8 s13 (str "f") doc13 d13 /\
  roots s13 = roots s12 /\ can_resolve (roots s12) /\ lines_from_1 (doc_stmts d12) /\
  In (o12, o13) (combine occs12 (recorded (pr_stmts (pr_of doc13)) (pr_tokens (pr_of doc13)))) /\ covers (o_span o12) 48 /\ covers (o_span o13) 57 /\ ~ global (o_kind o12).
Proof. exact alike13. Qed.
(** a blank between two names cannot be removed *)
Example C61_glued : exists u w w' toks toks' errs, lexeme u (TIdent w) w /\ lexeme u (TIdent w') w' /\
  tokenize u (w ++ [SPACE] ++ w') = Val (Some toks, []) /\ tokenize u (w ++ w') = Val (Some toks', errs) /\ map fst toks' <> map fst toks.
Proof. exact glued_not_same. Qed.
