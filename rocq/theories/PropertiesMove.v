(** Property theorems C91: moving a part of a document takes along what is shown about it. *)
From Verif Require Import Text Rope Chumsky Tokenizer Parser Numbers Index SemTok Diag Rename Cfg Backtrace Server SpecText SpecLex SpecParse SpecIndex SpecDiag SpecBacktrace SpecCfg SpecView SpecSemTok SpecSum SpecSumView SpecMove
  PMove PMoveHints ExamplesIndex ExamplesCfg ExamplesView ExamplesSum ExamplesSumView ExamplesMove.

(** C91: diagnostics; what is said about a part alone is said in every order, but for uses of names the other parts introduce *)
Theorem C91_diagnostics : forall e uri ps, Forall (good_piece (e_u e)) ps -> all_apart ps -> plain_document (whole ps) -> visits_all (e_ord e) ->
  exists f, (forall p, In p ps -> exists d l settled, analyze e uri (pc_text p) = Val (d, l) /\ Permutation l (f p ++ settled) /\ Forall (settled_by ps p) settled) /\
    forall qs, Permutation ps qs -> exists d l, analyze e uri (whole qs) = Val (d, l) /\ Permutation l (stacked lower_diagnostic f 0 qs).
Proof. exact moved_diagnostics. Qed.
Print Assumptions C91_diagnostics.
(** C91: folding ranges, of parts in any order *)
Theorem C91_folds : forall e s uri ps d, Forall (good_piece (e_u e)) ps -> plain_document (whole ps) -> opened e s uri (whole ps) d ->
  exists f, (forall p s' d', In p ps -> opened e s' uri (pc_text p) d' -> folding_range s' uri = Some (f p)) /\
    exists l, folding_range s uri = Some l /\ Permutation l (stacked lower_fold f 0 ps).
Proof. exact moved_folds. Qed.
Print Assumptions C91_folds.
(** C91: the outline *)
Theorem C91_outline : forall e s uri ps d, Forall (good_piece (e_u e)) ps -> plain_document (whole ps) -> visits_all (e_ord e) -> opened e s uri (whole ps) d ->
  exists f, (forall p s' d', In p ps -> opened e s' uri (pc_text p) d' -> document_symbol e s' uri = Some (f p)) /\
    exists l, document_symbol e s uri = Some l /\ Permutation l (stacked lower_symbol f 0 ps).
Proof. exact moved_outline. Qed.
Print Assumptions C91_outline.
(** C91: lenses *)
Theorem C91_lenses : forall e s uri ps d, Forall (good_piece (e_u e)) ps -> all_apart ps -> plain_document (whole ps) -> visits_all (e_ord e) -> opened e s uri (whole ps) d ->
  exists f, (forall p s' d', In p ps -> opened e s' uri (pc_text p) d' -> code_lens e s' uri = Some (f p)) /\
    exists l, code_lens e s uri = Some l /\ Permutation l (stacked lower_lens f 0 ps).
Proof. exact moved_lenses. Qed.
Print Assumptions C91_lenses.
(** C91: highlighting, in the order of the parts *)
Theorem C91_tokens : forall e s uri ps d, Forall (good_piece (e_u e)) ps -> plain_document (whole ps) -> opened e s uri (whole ps) d ->
  exists f, (forall p s' d', In p ps -> opened e s' uri (pc_text p) d' -> exists l, semantic_tokens_full s' uri = Val (Some l) /\ decode l = f p) /\
    exists l, semantic_tokens_full s uri = Val (Some l) /\ decode l = stacked lower_token f 0 ps.
Proof. exact moved_tokens. Qed.
Print Assumptions C91_tokens.
(** C91: graphs do not depend on the order *)
Theorem C91_graphs : forall e uri ps qs s s' d d' f, Forall (good_piece (e_u e)) ps -> all_apart ps -> plain_document (whole ps) -> Permutation ps qs ->
  opened e s uri (whole ps) d -> opened e s' uri (whole qs) d' ->
  execute_command s' (str "visualize-cfg") [JStr uri; JStr f] = execute_command s (str "visualize-cfg") [JStr uri; JStr f].
Proof. exact moved_graphs. Qed.
Print Assumptions C91_graphs.
(** C91: inlay hints, also those whose annotations are in other parts *)
Theorem C91_hints : forall e uri rs ps, Forall (good_piece (e_u e)) ps -> all_apart ps -> plain_document (whole ps) ->
  exists o : option (piece -> list inlay_hint),
    (forall f, o = Some f -> forall p s d, In p ps -> opened e s uri (pc_text p) d -> roots s = rs ->
       exists l more, inlay_hint_handler e s uri = Val (Some l) /\ Permutation (f p) (l ++ more) /\ Forall (supplied_by ps p) more) /\
    forall qs s d, Permutation ps qs -> opened e s uri (whole qs) d -> roots s = rs ->
      match o with
      | None => inlay_hint_handler e s uri = Panic
      | Some f => exists l, inlay_hint_handler e s uri = Val (Some l) /\ Permutation l (stacked lower_hint f 0 qs)
      end.
Proof. exact moved_hints. Qed.
Print Assumptions C91_hints.

Example C91_ex : Forall (good_piece (e_u env13)) parts91 /\ all_apart parts91 /\ plain_document (whole parts91) /\ visits_all (e_ord env13) /\ Permutation parts91 moved91.
Proof. exact (conj good91 (conj apart91 (conj plain91 (conj visits13 perm91)))). Qed.
Example C91_opened_ex : opened env13 (sv13 (whole parts91)) (str "f") (whole parts91) (doc_of env13 (whole parts91)) /\ opened env13 (sv13 (whole moved91)) (str "f") (whole moved91) (doc_of env13 (whole moved91)).
Proof. exact opened91. Qed.
Example C91_diagnostics_ex : said (diags13 one91) = [(2, undef91 (str "@none")); (2, undef91 (str "@v")); (2, undef91 (str "@g")); (3, undef91 (str "!2"))] /\
  said (diags13 (whole parts91)) = [(2, undef91 (str "@none")); (7, again91 (str "%x"))] /\ said (diags13 (whole moved91)) = [(11, undef91 (str "@none")); (5, again91 (str "%x"))].
Proof. exact said91. Qed.
Example C91_folds_ex : places (folds13 (whole parts91)) = [(0, 4); (5, 9); (1, 3); (6, 8)] /\ places (folds13 (whole moved91)) = [(3, 7); (9, 13); (4, 6); (10, 12)].
Proof. exact folds91. Qed.
Example C91_hints_ex : map ih_pos (hints13 one91) = [mkPos 1 2; mkPos 4 1] /\ map ih_pos (hints13 (whole parts91)) = [mkPos 1 2; mkPos 6 2; mkPos 3 9; mkPos 8 9; mkPos 4 1; mkPos 9 1] /\
  map ih_pos (hints13 (whole moved91)) = [mkPos 4 2; mkPos 10 2; mkPos 6 9; mkPos 12 9; mkPos 7 1; mkPos 13 1].
Proof. exact hints91. Qed.
(** [all_apart] is needed: which definition is reported depends on the order *)
Example C91_clash_ex : Forall (good_piece (e_u env13)) clash91 /\ plain_document (whole clash91) /\
  ~ exists f, forall qs, Permutation clash91 qs -> exists d l, analyze env13 (str "f") (whole qs) = Val (d, l) /\ Permutation l (stacked lower_diagnostic f 0 qs).
Proof. exact (conj good_clash91 (conj plain_clash91 clash_not_moved)). Qed.
