(** Property theorems C96: pasting a part of a document a second time. *)
From Verif Require Import Text Rope Chumsky Tokenizer Parser Numbers Index SemTok Diag Rename Cfg Backtrace Server SpecText SpecLex SpecParse SpecIndex SpecDiag SpecBacktrace SpecCfg SpecView SpecSemTok SpecSum SpecSumView SpecMove SpecPaste
  PPaste ExamplesIndex ExamplesCfg ExamplesView ExamplesSum ExamplesSumView ExamplesMove ExamplesPaste.

(** C96: each variable, function and annotation of the copy is reported, with the place of its first definition; what was said
    about the part is said about the copy; what was said before is still said *)
Theorem C96_diagnostics : forall e uri ps b, Forall (good_piece (e_u e)) ps -> In b ps -> plain_document (whole ps ++ pc_text b) -> visits_all (e_ord e) ->
  exists d l d' l' again ts st, analyze e uri (whole ps) = Val (d, l) /\ analyze e uri (whole ps ++ pc_text b) = Val (d', l') /\
    parse_from_str (e_u e) (whole ps) = Val (mkPR ts st []) /\ map fst again = global_definitions (pr_stmts (pc_result b)) /\ Forall (fun x => first_defined st (fst x) (snd x)) again /\
    Permutation l' (l ++ map (pasted_diagnostic (whole ps) (pc_text b) uri) again ++ map (lower_diagnostic (lsp_line_ends (whole ps))) (said_about uri ps b)).
Proof. exact pasted_diagnostics. Qed.
Print Assumptions C96_diagnostics.
(** C96: the graphs stay those of the first functions *)
Theorem C96_graphs : forall e uri ps b s s' d d' f, Forall (good_piece (e_u e)) ps -> In b ps -> plain_document (whole ps ++ pc_text b) ->
  opened e s uri (whole ps) d -> opened e s' uri (whole ps ++ pc_text b) d' ->
  execute_command s' (str "visualize-cfg") [JStr uri; JStr f] = execute_command s (str "visualize-cfg") [JStr uri; JStr f].
Proof. exact pasted_graphs. Qed.
Print Assumptions C96_graphs.

Example C96_ex : Forall (good_piece (e_u env13)) parts91 /\ In (piece_of two91) parts91 /\ plain_document (whole parts91 ++ pc_text (piece_of two91)) /\ visits_all (e_ord env13).
Proof. exact (conj good91 (conj in96 (conj plain96 visits13))). Qed.
(** [@g] and [!2] of the copy are reported; [%x] is defined twice in the part and in the copy *)
Example C96_diagnostics_ex : points (diags13 (whole parts91)) = [(2, undef91 (str "@none"), []); (7, again91 (str "%x"), [5])] /\
  points (said_about (str "f") parts91 (piece_of two91)) = [(2, again91 (str "%x"), [0])] /\
  points (diags13 twice96) = [(2, undef91 (str "@none"), []); (14, again91 (str "@g"), [5]); (19, again91 (str "!2"), [10]); (7, again91 (str "%x"), [5]); (16, again91 (str "%x"), [14])].
Proof. exact points96. Qed.
Example C96_globals_ex : map o_name (global_definitions (pr_stmts (pc_result (piece_of two91)))) = [str "@g"; str "!2"].
Proof. exact globals96. Qed.
Example C96_opened_ex : opened env13 (sv13 (whole parts91)) (str "f") (whole parts91) (doc_of env13 (whole parts91)) /\ opened env13 (sv13 twice96) (str "f") twice96 (doc_of env13 twice96).
Proof. exact (conj (proj1 opened91) opened96). Qed.
