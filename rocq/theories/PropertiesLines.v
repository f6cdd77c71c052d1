(** Property theorems C62: blank lines and comment lines have no meaning. *)
From Verif Require Import Text Rope Chumsky Tokenizer Parser Numbers Index SemTok Diag Rename Cfg Backtrace Server SpecText SpecLex SpecParse SpecIndex SpecDiag SpecBacktrace SpecCfg SpecView SpecSimilar SpecRebind SpecLayout SpecLines
  PLocal PIdle ExamplesIndex ExamplesCfg ExamplesView ExamplesLabel ExamplesLines.

(** C62: lines with nothing but blanks and a comment can be put between the lines of a document without errors *)
Theorem C62_insert : forall u a b ins ta, full_lines a -> tokenize u a = Val (Some ta, []) -> place_after (without_comments ta) = LineStart -> Forall idle_line ins ->
  forall toks ss, parse_from_str u (a ++ b) = Val (mkPR toks ss []) -> ss <> [] ->
  exists toks' ss', parse_from_str u (a ++ concat ins ++ b) = Val (mkPR toks' ss' []) /\ say_alike (mkPR toks ss []) (mkPR toks' ss' []).
Proof. exact insert_lines. Qed.
Print Assumptions C62_insert.
(** and removed *)
Theorem C62_delete : forall u a b ins ta, full_lines a -> tokenize u a = Val (Some ta, []) -> place_after (without_comments ta) = LineStart -> Forall idle_line ins ->
  forall toks ss, parse_from_str u (a ++ concat ins ++ b) = Val (mkPR toks ss []) -> ss <> [] ->
  exists toks' ss', parse_from_str u (a ++ b) = Val (mkPR toks' ss' []) /\ say_alike (mkPR toks ss []) (mkPR toks' ss' []).
Proof. exact delete_lines. Qed.
Print Assumptions C62_delete.
Example C62_ex : full_lines head14 /\ tokenize (e_u env8) head14 = Val (Some thead14, []) /\ place_after (without_comments thead14) = LineStart /\
  Forall idle_line idle14 /\ parse_from_str (e_u env8) (head14 ++ tail14) = Val (mkPR ex_toks [ex_stmt] []).
Proof. exact lines14. Qed.
(** any number of such lines at any number of places *)
Theorem C62_document : forall u src src' toks toks' ss, parse_from_str u src = Val (mkPR toks ss []) -> ss <> [] -> tokenize u src' = Val (Some toks', []) ->
  relined LineStart (without_comments toks) (without_comments toks') ->
  exists ss', parse_from_str u src' = Val (mkPR toks' ss' []) /\ say_alike (mkPR toks ss []) (mkPR toks' ss' []).
Proof. exact lines_parse. Qed.
Print Assumptions C62_document.
Example C62_document_ex : tokenize (e_u env8) doc14 = Val (Some toks14, []) /\ relined LineStart (without_comments ex_toks) (without_comments toks14) /\
  relined LineStart (without_comments toks14) (without_comments ex_toks).
Proof. exact relined14. Qed.
(** the server gives the same answers: places of corresponding names *)
Theorem C62_answers : forall e s s' uri uri' src src' d d' toks toks' ss, plain_document src -> plain_document src' -> opened e s uri src d -> opened e s' uri' src' d' ->
  parse_from_str (e_u e) src = Val (mkPR toks ss []) -> ss <> [] -> tokenize (e_u e) src' = Val (Some toks', []) -> relined LineStart (without_comments toks) (without_comments toks') ->
  roots s' = roots s -> can_resolve (roots s) -> lines_from_1 ss ->
  exists ss', parse_from_str (e_u e) src' = Val (mkPR toks' ss' []) /\ say_alike (mkPR toks ss []) (mkPR toks' ss' []) /\
    forall o o' p p', In (o, o') (combine (recorded ss toks) (recorded ss' toks')) ->
      covers (o_span o) p -> covers (o_span o') p' -> (global (o_kind o) -> ~ dual ss (o_name o)) ->
      (exists r r', goto_definition e s uri (lsp_position src p) = Val r /\ goto_definition e s' uri' (lsp_position src' p') = Val r' /\
         told_alike (counterparts (solid toks) (solid toks')) src uri src' uri' o o' r r') /\
      (exists r r', goto_declaration e s uri (lsp_position src p) = Val r /\ goto_declaration e s' uri' (lsp_position src' p') = Val r' /\
         told_alike (counterparts (solid toks) (solid toks')) src uri src' uri' o o' r r') /\
      (exists r r', references e s uri (lsp_position src p) = Val (option_map snd r) /\ references e s' uri' (lsp_position src' p') = Val (option_map snd r') /\
         told_alike (counterparts (solid toks) (solid toks')) src uri src' uri' o o' r r').
Proof. exact lines_answers. Qed.
Print Assumptions C62_answers.
Example C62_answers_ex : plain_document ex_src /\ plain_document doc14 /\ opened env8 s14 (str "f") ex_src d14 /\ opened env8 s14' (str "f") doc14 d14' /\
  roots s14' = roots s14 /\ can_resolve (roots s14) /\ lines_from_1 [ex_stmt] /\
  In (o14, o14') (combine (recorded [ex_stmt] ex_toks) (recorded ss14 toks14)) /\ covers (o_span o14) 24 /\ covers (o_span o14') moved14 /\ ~ global (o_kind o14).
Proof. exact alike14. Qed.
(** a document without statements gets an error if a line is added *)
Theorem C62_empty_refuted : exists u a l toks ss, full_lines a /\ idle_line l /\ parse_from_str u a = Val (mkPR toks ss []) /\
  exists pr, parse_from_str u (a ++ l) = Val pr /\ pr_errors pr <> [].
Proof. exact empty_not_alike. Qed.
Print Assumptions C62_empty_refuted.
(** behind a comma at the end of a line the condition on the place is needed *)
Theorem C62_comma_refuted : exists u a b l pr pr', full_lines a /\ idle_line l /\ parse_from_str u (a ++ b) = Val pr /\ parse_from_str u (a ++ l ++ b) = Val pr' /\
  pr_errors pr = [] /\ pr_errors pr' <> [].
Proof. exact comma_matters. Qed.
Print Assumptions C62_comma_refuted.
