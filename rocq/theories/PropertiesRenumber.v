(** Property theorems C98: a relative rename moves the numbers of exactly the words of its scope. *)
From Verif Require Import Text Rope Chumsky Tokenizer Parser Numbers Index SemTok Diag Rename Cfg Backtrace Server SpecText SpecLex SpecParse SpecIndex SpecDiag SpecBacktrace SpecCfg SpecView SpecNumbers SpecRename SpecSum SpecWritten SpecRenumber
  PRenumber ExamplesIndex ExamplesCfg ExamplesView ExamplesSum ExamplesRename ExamplesRenumber.

(** C98: global names, annotations and local names *)
Theorem C98_words : forall e s uri src d pr t p new z n, plain_document src -> visits_all (e_ord e) -> opened e s uri src d -> parse_from_str (e_u e) src = Val pr ->
  In t (pr_tokens pr) -> names_symbol (pr_stmts pr) t -> covers (snd t) p ->
  asks_shift new z -> has_number (word t) n -> room (map fst (space_of (pr_stmts pr) (pr_tokens pr) t)) n z ->
  exists edits, rename e s uri (lsp_position src p) new = Val (Reply edits) /\ renumbers src (space_of (pr_stmts pr) (pr_tokens pr) t) n z edits.
Proof. exact words_shifted. Qed.
Print Assumptions C98_words.
(** C98: labels *)
Theorem C98_labels : forall e s uri src d pr f x p new z n, plain_document src -> visits_all (e_ord e) -> opened e s uri src d -> parse_from_str (e_u e) src = Val pr ->
  In f (function_defs (pr_stmts pr)) -> In x (label_names (fb_blocks (snd f))) -> covers (snd x) p ->
  asks_shift new z -> has_number (fst x) n -> room (map fst (label_names (fb_blocks (snd f)))) n z ->
  exists edits, rename e s uri (lsp_position src p) new = Val (Reply edits) /\ renumbers src (label_names (fb_blocks (snd f))) n z edits.
Proof. exact labels_shifted. Qed.
Print Assumptions C98_labels.
(** an open document with two syntax errors *)
Example C98_plain : plain_document doc98.
Proof. exact plain98. Qed.
Example C98_visits : visits_all (e_ord env8).
Proof. exact visits98. Qed.
Example C98_open : opened env8 (sv doc98) (str "f") doc98 (doc_of env8 doc98).
Proof. exact open98. Qed.
Example C98_parse : parse_from_str (e_u env8) doc98 = Val pr98.
Proof. exact parse98. Qed.
Example C98_errors : length (pr_errors pr98) = 2.
Proof. exact broken98. Qed.
Example C98_plus : asks_shift (str "+1") 1.
Proof. exact plus98. Qed.
(** asked at [@v1] *)
Example C98_global : (In (token98 4) (pr_tokens pr98) /\ names_symbol (pr_stmts pr98) (token98 4) /\ covers (snd (token98 4)) (sp_start (snd (token98 4)))) /\ has_number (word (token98 4)) 1 /\ room (map fst (space_of (pr_stmts pr98) (pr_tokens pr98) (token98 4))) 1 1.
Proof. exact global98. Qed.
Example C98_space : at98 (space_of (pr_stmts pr98) (pr_tokens pr98) (token98 4)) =
  [(str "@f1", mkPos 0 0); (str "@v1", mkPos 1 0); (str "@v3", mkPos 2 0); (str "@v3", mkPos 5 20); (str "@v3", mkPos 14 8); (str "@v5", mkPos 15 0); (str "@w", mkPos 16 0)].
Proof. exact space98. Qed.
Example C98_shown : shifted98 (mkPos 1 0) = [(mkPos 15 0, str "@v6"); (mkPos 2 0, str "@v4"); (mkPos 5 20, str "@v4"); (mkPos 14 8, str "@v4"); (mkPos 1 0, str "@v2"); (mkPos 0 0, str "@f2")].
Proof. exact shown98. Qed.
(** asked at [%1]; the other function and the line with an error have names [%2] too *)
Example C98_local : (In (token98 17) (pr_tokens pr98) /\ names_symbol (pr_stmts pr98) (token98 17) /\ covers (snd (token98 17)) (sp_start (snd (token98 17)))) /\ has_number (word (token98 17)) 1 /\ room (map fst (space_of (pr_stmts pr98) (pr_tokens pr98) (token98 17))) 1 1.
Proof. exact local98. Qed.
Example C98_local_space : at98 (space_of (pr_stmts pr98) (pr_tokens pr98) (token98 17)) = [(str "%1", mkPos 3 21); (str "%2", mkPos 5 7); (str "%1", mkPos 5 16)].
Proof. exact local_space98. Qed.
(** asked at [bb1] *)
Example C98_label : (In def98 (function_defs (pr_stmts pr98)) /\ In label98 (label_names (fb_blocks (snd def98))) /\ covers (snd label98) (sp_start (snd label98))) /\ has_number (fst label98) 1 /\ room (map fst (label_names (fb_blocks (snd def98)))) 1 1.
Proof. exact labels98. Qed.
Example C98_label_space : at98 (label_names (fb_blocks (snd def98))) = [(str "bb1", mkPos 4 0); (str "bb2", mkPos 6 5); (str "bb2", mkPos 7 0); (str "bb1", mkPos 8 5)].
Proof. exact label_space98. Qed.
