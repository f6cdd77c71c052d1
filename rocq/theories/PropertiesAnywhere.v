(** Property theorems C99: where a relative rename is asked for only decides from which number on. *)
From Verif Require Import Text Rope Chumsky Tokenizer Parser Numbers Index SemTok Diag Rename Cfg Backtrace Server SpecText SpecLex SpecParse SpecIndex SpecDiag SpecBacktrace SpecCfg SpecView SpecNumbers SpecRename SpecSum SpecWritten SpecRenumber SpecAnywhere
  PAnywhere ExamplesIndex ExamplesCfg ExamplesView ExamplesSum ExamplesRename ExamplesRenumber ExamplesAnywhere.

(** C99: asked at a word with a larger number, only the words in between are left out *)
Theorem C99_words : forall e s uri src d pr t t' p p' new z n n', plain_document src -> visits_all (e_ord e) -> opened e s uri src d -> parse_from_str (e_u e) src = Val pr ->
  In t (pr_tokens pr) -> In t' (pr_tokens pr) -> names_symbol (pr_stmts pr) t -> names_symbol (pr_stmts pr) t' -> together (pr_stmts pr) t t' -> covers (snd t) p -> covers (snd t') p' ->
  asks_shift new z -> has_number (word t) n -> has_number (word t') n' -> (n <= n')%N -> room (map fst (space_of (pr_stmts pr) (pr_tokens pr) t)) n z ->
  includes src (space_of (pr_stmts pr) (pr_tokens pr) t) n n' z (rename e s uri (lsp_position src p) new) (rename e s uri (lsp_position src p') new).
Proof. exact anywhere_words. Qed.
Print Assumptions C99_words.
(** C99: asked at words with the same number, the edits are the same *)
Theorem C99_same_words : forall e s uri src d pr t t' p p' new z n, plain_document src -> visits_all (e_ord e) -> opened e s uri src d -> parse_from_str (e_u e) src = Val pr ->
  In t (pr_tokens pr) -> In t' (pr_tokens pr) -> names_symbol (pr_stmts pr) t -> names_symbol (pr_stmts pr) t' -> together (pr_stmts pr) t t' -> covers (snd t) p -> covers (snd t') p' ->
  asks_shift new z -> has_number (word t) n -> has_number (word t') n -> room (map fst (space_of (pr_stmts pr) (pr_tokens pr) t)) n z ->
  same_edits (rename e s uri (lsp_position src p) new) (rename e s uri (lsp_position src p') new).
Proof. exact anywhere_same_words. Qed.
Print Assumptions C99_same_words.
(** C99: labels *)
Theorem C99_labels : forall e s uri src d pr f x x' p p' new z n n', plain_document src -> visits_all (e_ord e) -> opened e s uri src d -> parse_from_str (e_u e) src = Val pr ->
  In f (function_defs (pr_stmts pr)) -> In x (label_names (fb_blocks (snd f))) -> In x' (label_names (fb_blocks (snd f))) -> covers (snd x) p -> covers (snd x') p' ->
  asks_shift new z -> has_number (fst x) n -> has_number (fst x') n' -> (n <= n')%N -> room (map fst (label_names (fb_blocks (snd f)))) n z ->
  includes src (label_names (fb_blocks (snd f))) n n' z (rename e s uri (lsp_position src p) new) (rename e s uri (lsp_position src p') new).
Proof. exact anywhere_labels. Qed.
Print Assumptions C99_labels.
(** C99: labels with the same number *)
Theorem C99_same_labels : forall e s uri src d pr f x x' p p' new z n, plain_document src -> visits_all (e_ord e) -> opened e s uri src d -> parse_from_str (e_u e) src = Val pr ->
  In f (function_defs (pr_stmts pr)) -> In x (label_names (fb_blocks (snd f))) -> In x' (label_names (fb_blocks (snd f))) -> covers (snd x) p -> covers (snd x') p' ->
  asks_shift new z -> has_number (fst x) n -> has_number (fst x') n -> room (map fst (label_names (fb_blocks (snd f)))) n z ->
  same_edits (rename e s uri (lsp_position src p) new) (rename e s uri (lsp_position src p') new).
Proof. exact anywhere_same_labels. Qed.
Print Assumptions C99_same_labels.
(** The document, the server and the words [@v1], [%1], [bb1] are those of C98. *)
Example C99_far : (In (token98 30) (pr_tokens pr98) /\ names_symbol (pr_stmts pr98) (token98 30) /\ covers (snd (token98 30)) (sp_start (snd (token98 30)))) /\ has_number (word (token98 30)) 3 /\ together (pr_stmts pr98) (token98 4) (token98 30).
Proof. exact far99. Qed.
Example C99_global : (In (token98 4) (pr_tokens pr98) /\ names_symbol (pr_stmts pr98) (token98 4) /\ covers (snd (token98 4)) (sp_start (snd (token98 4)))) /\ has_number (word (token98 4)) 1 /\ room (map fst (space_of (pr_stmts pr98) (pr_tokens pr98) (token98 4))) 1 1.
Proof. exact global98. Qed.
Example C99_open : opened env8 (sv doc98) (str "f") doc98 (doc_of env8 doc98).
Proof. exact open98. Qed.
Example C99_use : (In (token98 28) (pr_tokens pr98) /\ names_symbol (pr_stmts pr98) (token98 28) /\ covers (snd (token98 28)) (sp_start (snd (token98 28)))) /\ has_number (word (token98 28)) 1 /\ together (pr_stmts pr98) (token98 17) (token98 28).
Proof. exact use99. Qed.
Example C99_second : (In (branch99 1) (label_names (fb_blocks (snd def98))) /\ covers (snd (branch99 1)) (sp_start (snd (branch99 1)))) /\ has_number (fst (branch99 1)) 2.
Proof. exact second99. Qed.
Example C99_back : (In (branch99 3) (label_names (fb_blocks (snd def98))) /\ covers (snd (branch99 3)) (sp_start (snd (branch99 3)))) /\ has_number (fst (branch99 3)) 1.
Proof. exact back99. Qed.
Example C99_shown : shifted98 (mkPos 5 20) = [(mkPos 15 0, str "@v6"); (mkPos 2 0, str "@v4"); (mkPos 5 20, str "@v4"); (mkPos 14 8, str "@v4")].
Proof. exact shown99. Qed.
Example C99_locals : shifted98 (mkPos 3 21) = shifted98 (mkPos 5 16) /\ length (shifted98 (mkPos 3 21)) = 3.
Proof. exact shown_locals99. Qed.
(** why both directions of [together] are needed *)
Example C99_apart : same_space (pr_stmts pr98) (token98 4) (token98 0) = true /\ same_space (pr_stmts pr98) (token98 0) (token98 4) = false /\ ~ In (mkPos 1 0) (map fst (shifted98 (mkPos 0 0))).
Proof. exact apart99. Qed.
