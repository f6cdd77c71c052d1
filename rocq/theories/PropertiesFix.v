(** C79: lines that declare or define what is missing settle the reports about it and no others. *)
From Verif Require Import Text Rope Chumsky Tokenizer Parser Numbers Index SemTok Diag Rename Cfg Backtrace Server SpecText SpecLex SpecParse SpecIndex SpecDiag SpecBacktrace SpecCfg SpecView SpecSum SpecEdit SpecFix
  PFix ExamplesIndex ExamplesCfg ExamplesView ExamplesSum ExamplesEdit ExamplesFix.

(** C79: the reports of a document in two parts are those of the parts, without the reports about what the other part introduces *)
Theorem C79_parts : forall e uri a b pa pb da db la lb, plain_document (a ++ b) -> full_lines a -> visits_all (e_ord e) ->
  parse_from_str (e_u e) a = Val pa -> parse_from_str (e_u e) b = Val pb -> pr_errors pa = [] -> pr_errors pb = [] -> no_clash (pr_stmts pa) (pr_stmts pb) ->
  analyze e uri a = Val (da, la) -> analyze e uri b = Val (db, lb) ->
  exists d l, analyze e uri (a ++ b) = Val (d, l) /\
    Permutation l (filter (unmet (pr_stmts pb)) la ++ map (lower_diagnostic (lsp_line_ends a)) (filter (unmet (pr_stmts pa)) lb)).
Proof. exact diagnostics_two. Qed.
Print Assumptions C79_parts.
Example C79_parts_ex : plain_document (above_ ++ define_g) /\ full_lines above_ /\ visits_all (e_ord env8) /\ parse_from_str u0 above_ = Val (pr_of above_) /\ parse_from_str u0 define_g = Val (pr_of define_g) /\
  pr_errors (pr_of above_) = [] /\ pr_errors (pr_of define_g) = [] /\ no_clash (pr_stmts (pr_of above_)) (pr_stmts (pr_of define_g)) /\
  show above_ = [(2, str "Use of undefined symbol `@g`")] /\ length (show define_g) = 2 /\ show (above_ ++ define_g) = [(8, str "Use of undefined symbol `@void`")].
Proof.
  split; [split; [|split]; vm_compute; reflexivity|]. split; [exact lines_above|]. split; [apply opened8|]. split; [apply part_above|]. split; [apply part_define|]. split; [apply part_above|]. split; [apply part_define|].
  split; [apply clash_free|]. split; [|split]; vm_compute; reflexivity.
Qed.
(** C79: new lines between two others; of the reports about the old lines exactly those about symbols that the new lines introduce are gone *)
Theorem C79_inserted : forall e uri a x b pa px pb d l dx lx, plain_document (a ++ x ++ b) -> visits_all (e_ord e) -> part (e_u e) a pa -> part (e_u e) x px -> parse_from_str (e_u e) b = Val pb -> pr_errors pb = [] ->
  no_clash (pr_stmts pa) (pr_stmts px) -> no_clash (pr_stmts px) (pr_stmts pb) ->
  analyze e uri (a ++ b) = Val (d, l) -> analyze e uri x = Val (dx, lx) ->
  exists d' l' A B, analyze e uri (a ++ x ++ b) = Val (d', l') /\
    Permutation (map bare (filter (unmet (pr_stmts px)) l)) (A ++ map (lower_bare (lsp_line_ends a)) B) /\
    Permutation (map bare l') (A ++ map (lower_bare (lsp_line_ends a)) (map bare (filter (unmet (pr_stmts pa ++ pr_stmts pb)) lx)) ++ map (lower_bare (lsp_line_ends (a ++ x))) B) /\
    Forall (in_lines 0 (lsp_line_ends a)) A.
Proof. exact diagnostics_inserted. Qed.
Print Assumptions C79_inserted.
(** C79: in particular if the new lines only declare functions *)
Theorem C79_declared : forall e uri a x b pa px pb d l dx, plain_document (a ++ x ++ b) -> visits_all (e_ord e) -> part (e_u e) a pa -> part (e_u e) x px -> parse_from_str (e_u e) b = Val pb -> pr_errors pb = [] ->
  Forall is_declaration (pr_stmts px) -> analyze e uri (a ++ b) = Val (d, l) -> analyze e uri x = Val (dx, []) ->
  exists d' l' A B, analyze e uri (a ++ x ++ b) = Val (d', l') /\
    Permutation (map bare (filter (unmet (pr_stmts px)) l)) (A ++ map (lower_bare (lsp_line_ends a)) B) /\
    Permutation (map bare l') (A ++ map (lower_bare (lsp_line_ends (a ++ x))) B) /\ Forall (in_lines 0 (lsp_line_ends a)) A.
Proof. exact diagnostics_declared. Qed.
Print Assumptions C79_declared.
Example C79_ex : (plain_document (above_ ++ define_g ++ more_) /\ plain_document (above_ ++ declare_g ++ more_) /\ visits_all (e_ord env8)) /\
  (part u0 above_ (pr_of above_) /\ part u0 define_g (pr_of define_g) /\ part u0 declare_g (pr_of declare_g) /\ parse_from_str u0 more_ = Val (pr_of more_) /\ pr_errors (pr_of more_) = []) /\
  (no_clash (pr_stmts (pr_of above_)) (pr_stmts (pr_of define_g)) /\ no_clash (pr_stmts (pr_of define_g)) (pr_stmts (pr_of more_)) /\ Forall is_declaration (pr_stmts (pr_of declare_g)) /\ diags_of declare_g = []) /\
  (show (above_ ++ more_) = [(7, str "Use of undefined symbol `@none`"); (2, str "Use of undefined symbol `@g`"); (7, str "Use of undefined symbol `@g`"); (9, str "Symbol `@v` already defined previously")] /\
  show (above_ ++ declare_g ++ more_) = [(8, str "Use of undefined symbol `@none`"); (10, str "Symbol `@v` already defined previously")] /\
  show (above_ ++ define_g ++ more_) = [(8, str "Use of undefined symbol `@void`"); (13, str "Symbol `@v` already defined previously")]).
Proof.
  split; [split; [|split; [|apply opened8]]; (split; [|split]; vm_compute; reflexivity)|]. split; [split; [exact part_above|split; [exact part_define|split; [exact part_declare|exact parsed_more]]]|].
  split; [split; [apply clash_free|split; [apply clash_free|split; [repeat constructor|vm_compute; reflexivity]]]|]. exact shown_fix.
Qed.
