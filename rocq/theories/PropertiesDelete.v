(** Property theorems C95: deleting parts of a document. *)
From Verif Require Import Text Rope Chumsky Tokenizer Parser Numbers Index SemTok Diag Rename Cfg Backtrace Server SpecText SpecLex SpecParse SpecIndex SpecDiag SpecBacktrace SpecCfg SpecView SpecSemTok SpecSum SpecSumView SpecMove SpecDelete
  PDelete ExamplesIndex ExamplesCfg ExamplesView ExamplesSum ExamplesSumView ExamplesMove ExamplesDelete.

(** C95: diagnostics; the uses of names that only the deleted parts introduced are reported in addition, and nothing else changes *)
Theorem C95_diagnostics : forall e uri keep ps, Forall (good_piece (e_u e)) ps -> all_apart ps -> plain_document (whole ps) -> visits_all (e_ord e) ->
  exists f, (forall p, In p ps -> exists d l settled, analyze e uri (pc_text p) = Val (d, l) /\ Permutation l (f p ++ settled) /\ Forall (settled_by ps p) settled) /\
    (exists d l, analyze e uri (whole ps) = Val (d, l) /\ Permutation l (stacked lower_diagnostic f 0 ps)) /\
    exists d l, analyze e uri (whole (staying keep ps)) = Val (d, l) /\ Permutation l (stacked lower_diagnostic (fun p => f p ++ orphans keep ps p) 0 (staying keep ps)).
Proof. exact deleted_diagnostics. Qed.
Print Assumptions C95_diagnostics.
(** C95: deleting what nobody uses *)
Theorem C95_unused : forall e uri keep ps, Forall (good_piece (e_u e)) ps -> all_apart ps -> plain_document (whole ps) -> visits_all (e_ord e) -> unused keep ps ->
  exists f, (forall p, In p ps -> exists d l settled, analyze e uri (pc_text p) = Val (d, l) /\ Permutation l (f p ++ settled) /\ Forall (settled_by ps p) settled) /\
    (exists d l, analyze e uri (whole ps) = Val (d, l) /\ Permutation l (stacked lower_diagnostic f 0 ps)) /\
    exists d l, analyze e uri (whole (staying keep ps)) = Val (d, l) /\ Permutation l (stacked lower_diagnostic f 0 (staying keep ps)).
Proof. exact deleted_unused. Qed.
Print Assumptions C95_unused.
(** C95: folding ranges *)
Theorem C95_folds : forall e s s' uri keep ps d d', Forall (good_piece (e_u e)) ps -> plain_document (whole ps) -> opened e s uri (whole ps) d -> opened e s' uri (whole (staying keep ps)) d' ->
  exists f, (forall p s0 d0, In p ps -> opened e s0 uri (pc_text p) d0 -> folding_range s0 uri = Some (f p)) /\
    (exists l, folding_range s uri = Some l /\ Permutation l (stacked lower_fold f 0 ps)) /\ exists l, folding_range s' uri = Some l /\ Permutation l (stacked lower_fold f 0 (staying keep ps)).
Proof. exact deleted_folds. Qed.
Print Assumptions C95_folds.
(** C95: the outline *)
Theorem C95_outline : forall e s s' uri keep ps d d', Forall (good_piece (e_u e)) ps -> plain_document (whole ps) -> visits_all (e_ord e) -> opened e s uri (whole ps) d -> opened e s' uri (whole (staying keep ps)) d' ->
  exists f, (forall p s0 d0, In p ps -> opened e s0 uri (pc_text p) d0 -> document_symbol e s0 uri = Some (f p)) /\
    (exists l, document_symbol e s uri = Some l /\ Permutation l (stacked lower_symbol f 0 ps)) /\ exists l, document_symbol e s' uri = Some l /\ Permutation l (stacked lower_symbol f 0 (staying keep ps)).
Proof. exact deleted_outline. Qed.
Print Assumptions C95_outline.
(** C95: lenses *)
Theorem C95_lenses : forall e s s' uri keep ps d d', Forall (good_piece (e_u e)) ps -> all_apart ps -> plain_document (whole ps) -> visits_all (e_ord e) -> opened e s uri (whole ps) d -> opened e s' uri (whole (staying keep ps)) d' ->
  exists f, (forall p s0 d0, In p ps -> opened e s0 uri (pc_text p) d0 -> code_lens e s0 uri = Some (f p)) /\
    (exists l, code_lens e s uri = Some l /\ Permutation l (stacked lower_lens f 0 ps)) /\ exists l, code_lens e s' uri = Some l /\ Permutation l (stacked lower_lens f 0 (staying keep ps)).
Proof. exact deleted_lenses. Qed.
Print Assumptions C95_lenses.
(** C95: highlighting *)
Theorem C95_tokens : forall e s s' uri keep ps d d', Forall (good_piece (e_u e)) ps -> plain_document (whole ps) -> opened e s uri (whole ps) d -> opened e s' uri (whole (staying keep ps)) d' ->
  exists f, (forall p s0 d0, In p ps -> opened e s0 uri (pc_text p) d0 -> exists l, semantic_tokens_full s0 uri = Val (Some l) /\ decode l = f p) /\
    (exists l, semantic_tokens_full s uri = Val (Some l) /\ decode l = stacked lower_token f 0 ps) /\ exists l, semantic_tokens_full s' uri = Val (Some l) /\ decode l = stacked lower_token f 0 (staying keep ps).
Proof. exact deleted_tokens. Qed.
Print Assumptions C95_tokens.
(** C95: the graphs of the functions that stay *)
Theorem C95_graphs : forall e uri keep ps s s' d d' f, Forall (good_piece (e_u e)) ps -> plain_document (whole ps) ->
  opened e s uri (whole ps) d -> opened e s' uri (whole (staying keep ps)) d' -> (forall q, In q (going keep ps) -> ~ has_function q f) ->
  execute_command s' (str "visualize-cfg") [JStr uri; JStr f] = execute_command s (str "visualize-cfg") [JStr uri; JStr f].
Proof. exact deleted_graphs. Qed.
Print Assumptions C95_graphs.
(** C95: and of those that go *)
Theorem C95_functions : forall e uri keep ps s' d' f q, Forall (good_piece (e_u e)) ps -> all_apart ps -> plain_document (whole ps) ->
  opened e s' uri (whole (staying keep ps)) d' -> In q (going keep ps) -> has_function q f ->
  execute_command s' (str "visualize-cfg") [JStr uri; JStr f] = RpcError (str "function `" ++ f ++ str "` not found").
Proof. exact deleted_functions. Qed.
Print Assumptions C95_functions.
(** C95: hints; those whose annotations were in deleted parts are lost *)
Theorem C95_hints : forall e uri keep ps s s' d d' l, Forall (good_piece (e_u e)) ps -> all_apart ps -> plain_document (whole ps) ->
  opened e s uri (whole ps) d -> opened e s' uri (whole (staying keep ps)) d' -> roots s' = roots s -> inlay_hint_handler e s uri = Val (Some l) ->
  exists l' f g, inlay_hint_handler e s' uri = Val (Some l') /\ Permutation l (stacked lower_hint f 0 ps) /\ Permutation l' (stacked lower_hint g 0 (staying keep ps)) /\
    (forall p s0 d0, In p ps -> opened e s0 uri (pc_text p) d0 -> roots s0 = roots s -> exists k more, inlay_hint_handler e s0 uri = Val (Some k) /\ Permutation (f p) (k ++ more) /\ Forall (supplied_by ps p) more) /\
    forall p, In p (staying keep ps) -> exists lost, Permutation (f p) (g p ++ lost) /\ Forall (supplied_by (going keep ps) p) lost.
Proof. exact deleted_hints. Qed.
Print Assumptions C95_hints.

Example C95_ex : Forall (good_piece (e_u env13)) parts91 /\ all_apart parts91 /\ plain_document (whole parts91) /\ visits_all (e_ord env13) /\ whole (staying keep95 parts91) = left95.
Proof. exact (conj good91 (conj apart91 (conj plain91 (conj visits13 left95_ok)))). Qed.
Example C95_opened_ex : opened env13 (sv13 (whole parts91)) (str "f") (whole parts91) (doc_of env13 (whole parts91)) /\
  opened env13 (sv13 (whole (staying keep95 parts91))) (str "f") (whole (staying keep95 parts91)) (doc_of env13 (whole (staying keep95 parts91))).
Proof. exact (conj (proj1 opened91) opened95). Qed.
Example C95_diagnostics_ex : said (diags13 (whole parts91)) = [(2, undef91 (str "@none")); (7, again91 (str "%x"))] /\ said (diags13 left95) = [(2, undef91 (str "@none")); (2, undef91 (str "@g")); (3, undef91 (str "!2"))] /\
  said (orphans keep95 parts91 (piece_of one91)) = [(2, undef91 (str "@g")); (3, undef91 (str "!2"))].
Proof. exact said95. Qed.
Example C95_unused_ex : unused keep95' parts91 /\ said (diags13 (whole (staying keep95' parts91))) = [(2, again91 (str "%x"))].
Proof. exact (conj unused95 said95'). Qed.
Example C95_folds_ex : places (folds13 (whole parts91)) = [(0, 4); (5, 9); (1, 3); (6, 8)] /\ places (folds13 left95) = [(0, 4); (1, 3)].
Proof. exact folds95. Qed.
Example C95_functions_ex : In (piece_of two91) (going keep95 parts91) /\ has_function (piece_of two91) (str "@g").
Proof. exact has95. Qed.
Example C95_graphs_ex : (forall q, In q (going keep95 parts91) -> ~ has_function q (str "@f")) /\ execute_command (sv13 left95) (str "visualize-cfg") [JStr (str "f"); JStr (str "@g")] = RpcError (str "function `@g` not found") /\
  exists g, execute_command (sv13 left95) (str "visualize-cfg") [JStr (str "f"); JStr (str "@f")] = Reply g.
Proof. exact (conj hasnt95 graph95). Qed.
Example C95_hints_ex : map ih_pos (hints13 (whole parts91)) = [mkPos 1 2; mkPos 6 2; mkPos 3 9; mkPos 8 9; mkPos 4 1; mkPos 9 1] /\ map ih_pos (hints13 left95) = [mkPos 1 2; mkPos 4 1].
Proof. exact hints95. Qed.
