(** Property theorems C98, continued: the code action that shifts a numbering. *)
From Verif Require Import Text Rope Chumsky Tokenizer Parser Numbers Index SemTok Diag Rename Cfg Backtrace Server SpecText SpecLex SpecParse SpecIndex SpecDiag SpecBacktrace SpecCfg SpecView SpecNumbers SpecRename SpecServer SpecSum SpecWritten SpecRenumber SpecActionWords
  PActionWords ExamplesIndex ExamplesCfg ExamplesView ExamplesSum ExamplesRename ExamplesServer ExamplesSum ExamplesRenumber ExamplesActionWords.

(** C98: the code action at a global name, an annotation or a local name *)
Theorem C98_action_words : forall e s uri src d pr t p n, plain_document src -> visits_all (e_ord e) -> opened e s uri src d -> e_url_parse e uri = Some uri -> parse_from_str (e_u e) src = Val pr ->
  In t (pr_tokens pr) -> names_symbol (pr_stmts pr) t -> covers (snd t) p ->
  has_number (word t) n -> room (map fst (space_of (pr_stmts pr) (pr_tokens pr) t)) n 1 ->
  action_renumbers e s uri src p (space_of (pr_stmts pr) (pr_tokens pr) t) n.
Proof. exact words_acted. Qed.
Print Assumptions C98_action_words.
(** C98: the code action at a label *)
Theorem C98_action_labels : forall e s uri src d pr f x p n, plain_document src -> visits_all (e_ord e) -> opened e s uri src d -> e_url_parse e uri = Some uri -> parse_from_str (e_u e) src = Val pr ->
  In f (function_defs (pr_stmts pr)) -> In x (label_names (fb_blocks (snd f))) -> covers (snd x) p ->
  has_number (fst x) n -> room (map fst (label_names (fb_blocks (snd f)))) n 1 ->
  action_renumbers e s uri src p (label_names (fb_blocks (snd f))) n.
Proof. exact labels_acted. Qed.
Print Assumptions C98_action_labels.
(** The document and the words are those of C98_plain, C98_local and C98_label. *)
Example C98_action_open : opened env11 (sv doc98) (str "f") doc98 (doc_of env8 doc98) /\ visits_all (e_ord env11) /\ e_url_parse env11 (str "f") = Some (str "f") /\ parse_from_str (e_u env11) doc98 = Val pr98.
Proof. exact open_action98. Qed.
Example C98_action_word : (In (token98 17) (pr_tokens pr98) /\ names_symbol (pr_stmts pr98) (token98 17) /\ covers (snd (token98 17)) (sp_start (snd (token98 17)))) /\ has_number (word (token98 17)) 1 /\ room (map fst (space_of (pr_stmts pr98) (pr_tokens pr98) (token98 17))) 1 1.
Proof. exact local98. Qed.
Example C98_action_label : (In def98 (function_defs (pr_stmts pr98)) /\ In label98 (label_names (fb_blocks (snd def98))) /\ covers (snd label98) (sp_start (snd label98))) /\ has_number (fst label98) 1 /\ room (map fst (label_names (fb_blocks (snd def98)))) 1 1.
Proof. exact labels98. Qed.
Example C98_action_shown : offered98 (mkPos 5 16) = [(str "Shift variable numbering", [(mkPos 5 7, str "%3"); (mkPos 3 21, str "%2"); (mkPos 5 16, str "%2")])].
Proof. exact offer98. Qed.
