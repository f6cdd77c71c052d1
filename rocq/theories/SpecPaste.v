(** A part of a document is pasted a second time. *)
From Verif Require Import Text Rope Chumsky Tokenizer Parser Numbers Index SemTok Diag Rename Cfg Backtrace Server SpecText SpecLex SpecParse SpecIndex SpecDiag SpecBacktrace SpecNumbers SpecCfg SpecView SpecSemTok SpecSum SpecSumView SpecMove.

Definition is_local (o : occurrence) : bool := match o_body o with Some _ => true | None => false end.
(** What is said about [b] as a part of [ps], but for second definitions of variables, functions and annotations. *)
Definition said_about (uri : text) (ps : list piece) (b : piece) : list diagnostic :=
  let ss := pr_stmts (pc_result b) in let l := recorded ss (pr_tokens (pc_result b)) in
  map (missing_diagnostic (pc_text b)) (filter missing_refs (instructions ss)) ++
  map (undefined_diagnostic (pc_text b)) (filter (fun o => negb (existsb (fun q => supplies (pr_stmts (pc_result q)) o) ps)) (undefined_uses l)) ++
  map (redefinition_diagnostic (pc_text b) uri) (filter (fun x => is_local (fst x)) (redefinitions l)).
(** The definitions of variables, functions and annotations. *)
Definition global_definitions (ss : list statement) : list occurrence := filter (fun o => is_definition o && negb (is_local o)) (tree_occs 0 ss).
(** The report that the definition [fst x] of the text [b], pasted below [a], was defined before in [a], at [snd x]. *)
Definition pasted_diagnostic (a b uri : text) (x : occurrence * occurrence) : diagnostic :=
  mkDiag (lower_range (lsp_line_ends a) (lsp_range b (o_span (fst x)))) (str "Symbol `" ++ o_name (fst x) ++ str "` already defined previously")
    [(mkLocn uri (lsp_range a (o_span (snd x))), str "Previously defined here")].
