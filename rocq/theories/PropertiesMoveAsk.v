(** Property theorems C97: names in a document made of parts. *)
From Verif Require Import Text Rope Chumsky Tokenizer Parser Numbers Index SemTok Diag Rename Cfg Backtrace Server SpecText SpecLex SpecParse SpecIndex SpecDiag SpecBacktrace SpecCfg SpecView SpecRename SpecSemTok SpecSum SpecSumView SpecMove SpecWritten SpecMoveAsk
  PMoveAsk ExamplesIndex ExamplesCfg ExamplesView ExamplesSum ExamplesSumView ExamplesMove ExamplesMoveAsk.

(** C97: global names and annotations are found in all parts, local names in their own part, each at its place in the document *)
Theorem C97_names : forall e s uri l q r d t p, Forall (good_piece (e_u e)) (l ++ q :: r) -> plain_document (whole (l ++ q :: r)) -> opened e s uri (whole (l ++ q :: r)) d ->
  In t (pr_tokens (pc_result q)) -> names_symbol (pr_stmts (pc_result q)) t -> covers (snd t) p ->
  let n := lsp_line_ends (whole l) in let pos := lower n (lsp_position (pc_text q) p) in let here := lower_range n (lsp_range (pc_text q) (snd t)) in
  exists own decls refs,
    (goto_definition e s uri pos = Panic \/ exists ext, goto_definition e s uri pos = Val (Some (here, own ++ ext))) /\
    goto_declaration e s uri pos = Val (Some (here, decls)) /\ references e s uri pos = Val (Some refs) /\
    Permutation (own ++ decls ++ refs) (map (mkLocn uri) (places_all t l q r)) /\ prepare_rename s uri pos = Some here /\
    forall new edits, ~ signed new -> rename e s uri pos new = Val (Reply edits) -> Permutation (map te_range edits) (places_all t l q r).
Proof. exact parts_asked. Qed.
Print Assumptions C97_names.
(** C97: labels are found in their function *)
Theorem C97_labels : forall e s uri l q r d f x p, Forall (good_piece (e_u e)) (l ++ q :: r) -> plain_document (whole (l ++ q :: r)) -> opened e s uri (whole (l ++ q :: r)) d ->
  In f (function_defs (pr_stmts (pc_result q))) -> In x (label_names (fb_blocks (snd f))) -> covers (snd x) p ->
  let n := lsp_line_ends (whole l) in let pos := lower n (lsp_position (pc_text q) p) in let here := lower_range n (lsp_range (pc_text q) (snd x)) in
  exists own decls refs,
    (goto_definition e s uri pos = Panic \/ exists ext, goto_definition e s uri pos = Val (Some (here, own ++ ext))) /\
    goto_declaration e s uri pos = Val (Some (here, decls)) /\ references e s uri pos = Val (Some refs) /\
    Permutation (own ++ decls ++ refs) (map (mkLocn uri) (label_places f (fst x) l q)) /\ prepare_rename s uri pos = Some here /\
    forall new edits, ~ signed new -> rename e s uri pos new = Val (Reply edits) -> Permutation (map te_range edits) (label_places f (fst x) l q).
Proof. exact parts_labels. Qed.
Print Assumptions C97_labels.
(** the parts of the example are parts of an open document *)
Example C97_parts : Forall (good_piece (e_u env13)) parts91.
Proof. exact good91. Qed.
Example C97_plain : plain_document (whole parts91).
Proof. exact plain91. Qed.
Example C97_split : above97 ++ mid97 :: below97 = parts91.
Proof. exact parts97. Qed.
(** [@g] of the second part is found in the first one too *)
Example C97_global : In (token97 2) (pr_tokens (pc_result mid97)) /\ names_symbol (pr_stmts (pc_result mid97)) (token97 2) /\ covers (snd (token97 2)) (sp_start (snd (token97 2))) /\ fst (token97 2) = TGlobalName (str "@g").
Proof. exact name97. Qed.
Example C97_global_places : map r_start (places_all (token97 2) above97 mid97 below97) = [mkPos 2 7; mkPos 5 12].
Proof. exact places97. Qed.
Example C97_asked : references env13 (sv13 (whole parts91)) (str "f") (mkPos 5 12) = Val (Some [mkLocn (str "f") (mkRange (mkPos 2 7) (mkPos 2 9))]).
Proof. exact asked97. Qed.
Example C97_local : In (token97 5) (pr_tokens (pc_result mid97)) /\ names_symbol (pr_stmts (pc_result mid97)) (token97 5) /\ covers (snd (token97 5)) (sp_start (snd (token97 5))) /\ fst (token97 5) = TLocalName (str "%x").
Proof. exact local97. Qed.
Example C97_local_places : map r_start (places_all (token97 5) above97 mid97 below97) = [mkPos 5 20; mkPos 7 7; mkPos 7 16].
Proof. exact locals97. Qed.
Example C97_label : In def97 (function_defs (pr_stmts (pc_result mid97))) /\ In label97 (label_names (fb_blocks (snd def97))) /\ covers (snd label97) (sp_start (snd label97)).
Proof. exact labels97. Qed.
Example C97_label_places : map r_start (label_places def97 (fst label97) above97 mid97) = [mkPos 6 0; mkPos 8 5].
Proof. exact label_places97. Qed.
(** C97: the part below may contain errors, as long as the server reads it: asking above *)
Theorem C97_above : forall e s uri a b d pa pb, plain_document (a ++ b) -> full_lines a -> parse_from_str (e_u e) a = Val pa -> parse_from_str (e_u e) b = Val pb -> pr_errors pa = [] -> read pb ->
  opened e s uri (a ++ b) d -> forall t p, In t (pr_tokens pa) -> names_symbol (pr_stmts pa) t -> covers (snd t) p ->
  answers e s uri (lsp_position a p) (lsp_range a (snd t)) (places_in t (mkPiece a pa) ++ if everywhere t then map (lower_range (lsp_line_ends a)) (places_in t (mkPiece b pb)) else []).
Proof. exact asked_above. Qed.
Print Assumptions C97_above.
(** C97: and asking below *)
Theorem C97_below : forall e s uri a b d pa pb, plain_document (a ++ b) -> full_lines a -> parse_from_str (e_u e) a = Val pa -> parse_from_str (e_u e) b = Val pb -> pr_errors pa = [] -> read pb ->
  opened e s uri (a ++ b) d -> forall t p, In t (pr_tokens pb) -> names_symbol (pr_stmts pb) t -> covers (snd t) p ->
  answers e s uri (lower (lsp_line_ends a) (lsp_position b p)) (lower_range (lsp_line_ends a) (lsp_range b (snd t))) ((if everywhere t then places_in t (mkPiece a pa) else []) ++ map (lower_range (lsp_line_ends a)) (places_in t (mkPiece b pb))).
Proof. exact asked_below. Qed.
Print Assumptions C97_below.
Example C97_open_plain : plain_document doc97.
Proof. exact plain_open97. Qed.
Example C97_open_lines : full_lines two91.
Proof. exact lines97. Qed.
Example C97_open_parsed : parse_from_str (e_u env13) two91 = Val (pr_of two91) /\ parse_from_str (e_u env13) open97 = Val (pr_of open97).
Proof. exact parsed97. Qed.
Example C97_open_errors : pr_errors (pr_of two91) = [] /\ length (pr_errors (pr_of open97)) = 2 /\ read (pr_of open97).
Proof. exact errors97. Qed.
Example C97_open : opened env13 (sv13 doc97) (str "f") doc97 (doc_of env13 doc97).
Proof. exact opened97. Qed.
Example C97_below_name : In (below_token97 1) (pr_tokens (pr_of open97)) /\ names_symbol (pr_stmts (pr_of open97)) (below_token97 1) /\ covers (snd (below_token97 1)) (sp_start (snd (below_token97 1))) /\ fst (below_token97 1) = TGlobalName (str "@g").
Proof. exact below97_name. Qed.
Example C97_open_places : map r_start (places_in (token97 2) (piece_of two91)) = [mkPos 0 12] /\ map r_start (places_in (token97 2) (piece_of open97)) = [mkPos 0 8; mkPos 3 7] /\ lsp_line_ends two91 = 6.
Proof. exact open_places97. Qed.
Example C97_open_asked : references env13 (sv13 doc97) (str "f") (mkPos 0 12) = Val (Some (map (fun p => mkLocn (str "f") (mkRange p (mkPos (p_line p) (p_char p + 2)))) [mkPos 6 8; mkPos 9 7])).
Proof. exact open_asked97. Qed.
