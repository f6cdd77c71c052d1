(** Property theorems C92: the requests about a name find exactly the places where it is written. *)
From Verif Require Import Text Rope Chumsky Tokenizer Parser Numbers Index SemTok Diag Rename Cfg Backtrace Server SpecText SpecLex SpecParse SpecIndex SpecDiag SpecBacktrace SpecCfg SpecView SpecRename SpecSum SpecWritten
  PWritten ExamplesIndex ExamplesCfg ExamplesView ExamplesSum ExamplesWritten.

(** C92: global names and annotations everywhere, local names in their function *)
Theorem C92_written : forall e s uri src d pr t p, plain_document src -> opened e s uri src d -> parse_from_str (e_u e) src = Val pr ->
  In t (pr_tokens pr) -> names_symbol (pr_stmts pr) t -> covers (snd t) p ->
  let here := written (pr_stmts pr) (pr_tokens pr) t in let pos := lsp_position src p in
  exists own decls refs,
    (goto_definition e s uri pos = Panic \/ exists ext, goto_definition e s uri pos = Val (Some (lsp_range src (snd t), own ++ ext))) /\
    goto_declaration e s uri pos = Val (Some (lsp_range src (snd t), decls)) /\
    references e s uri pos = Val (Some refs) /\
    Permutation (own ++ decls ++ refs) (map (location_of src uri) here) /\
    prepare_rename s uri pos = Some (lsp_range src (snd t)) /\
    forall new edits, ~ signed new -> rename e s uri pos new = Val (Reply edits) -> Permutation (map te_range edits) (map (lsp_range src) here).
Proof. exact written_found. Qed.
Print Assumptions C92_written.
(** C92: labels in their function *)
Theorem C92_labels : forall e s uri src d pr f x p, plain_document src -> opened e s uri src d -> parse_from_str (e_u e) src = Val pr ->
  In f (function_defs (pr_stmts pr)) -> In x (label_names (fb_blocks (snd f))) -> covers (snd x) p ->
  let here := label_written (fb_blocks (snd f)) (fst x) in let pos := lsp_position src p in
  exists own decls refs,
    (goto_definition e s uri pos = Panic \/ exists ext, goto_definition e s uri pos = Val (Some (lsp_range src (snd x), own ++ ext))) /\
    goto_declaration e s uri pos = Val (Some (lsp_range src (snd x), decls)) /\
    references e s uri pos = Val (Some refs) /\
    Permutation (own ++ decls ++ refs) (map (location_of src uri) here) /\
    prepare_rename s uri pos = Some (lsp_range src (snd x)) /\
    forall new edits, ~ signed new -> rename e s uri pos new = Val (Reply edits) -> Permutation (map te_range edits) (map (lsp_range src) here).
Proof. exact label_found. Qed.
Print Assumptions C92_labels.
(** C92: nothing is found anywhere else *)
Theorem C92_nothing : forall e s uri src d pr p, plain_document src -> opened e s uri src d -> parse_from_str (e_u e) src = Val pr -> p <= length src ->
  (forall t, In t (pr_tokens pr) -> covers (snd t) p -> ~ names_symbol (pr_stmts pr) t) ->
  (forall f x, In f (function_defs (pr_stmts pr)) -> In x (label_names (fb_blocks (snd f))) -> ~ covers (snd x) p) ->
  goto_definition e s uri (lsp_position src p) = Val None /\ goto_declaration e s uri (lsp_position src p) = Val None /\ references e s uri (lsp_position src p) = Val None /\
  prepare_rename s uri (lsp_position src p) = None /\ forall new, exists m, rename e s uri (lsp_position src p) new = Val (RpcError m).
Proof. exact nothing_found. Qed.
Print Assumptions C92_nothing.

(** a document with a broken line *)
Example C92_ex : plain_document doc92 /\ opened env8 (sv doc92) (str "f") doc92 (doc_of env8 doc92) /\ parse_from_str (e_u env8) doc92 = Val pr92 /\ length (pr_errors pr92) = 1.
Proof. exact (conj plain92 (conj open92 (conj parse92 broken92))). Qed.
(** [@f] is written four times: as a variable, where it is defined, in an instruction and in the broken line *)
Example C92_written_ex : In (token92 0) (pr_tokens pr92) /\ names_symbol (pr_stmts pr92) (token92 0) /\ covers (snd (token92 0)) 1.
Proof. exact name92. Qed.
Example C92_here_ex : lines92 (written (pr_stmts pr92) (pr_tokens pr92) (token92 0)) = [mkPos 0 0; mkPos 1 12; mkPos 3 20; mkPos 10 8].
Proof. exact here92. Qed.
Example C92_asked_ex : references env8 (sv doc92) (str "f") (lsp_position doc92 1) = Val (Some (map (fun p => mkLocn (str "f") (mkRange p (mkPos (p_line p) (p_char p + 2)))) [mkPos 0 0; mkPos 3 20; mkPos 10 8])).
Proof. exact asked92. Qed.
(** [%x] is written twice in the first function, and in other places *)
Example C92_local_ex : In (token92 9) (pr_tokens pr92) /\ names_symbol (pr_stmts pr92) (token92 9) /\ covers (snd (token92 9)) (sp_start (snd (token92 9))).
Proof. exact local92. Qed.
Example C92_locals_ex : lines92 (written (pr_stmts pr92) (pr_tokens pr92) (token92 9)) = [mkPos 1 20; mkPos 3 16].
Proof. exact locals92. Qed.
(** the label of the first function *)
Example C92_labels_ex : In def92 (function_defs (pr_stmts pr92)) /\ In label92 (label_names (fb_blocks (snd def92))) /\ covers (snd label92) (sp_start (snd label92)).
Proof. exact labels92. Qed.
Example C92_label_here_ex : lines92 (label_written (fb_blocks (snd def92)) (fst label92)) = [mkPos 2 0; mkPos 4 5].
Proof. exact label_here92. Qed.
(** [%x] in the broken line is outside of all functions *)
Example C92_nothing_ex : (fst (token92 48) = TLocalName (str "%x") /\ broken_at92 <= length doc92) /\ (forall t, In t (pr_tokens pr92) -> covers (snd t) broken_at92 -> ~ names_symbol (pr_stmts pr92) t) /\
  (forall f x, In f (function_defs (pr_stmts pr92)) -> In x (label_names (fb_blocks (snd f))) -> ~ covers (snd x) broken_at92).
Proof. exact nothing92. Qed.
