(** C71: text that is not ASCII displaces what is behind it and nothing else. *)
From Verif Require Import Text Rope Chumsky Tokenizer Parser Numbers Index SemTok Diag Rename Cfg Backtrace Server SpecText SpecBytes SpecLex SpecParse SpecIndex SpecDiag SpecBacktrace SpecCfg SpecView SpecRename SpecPatch SpecSum SpecForeign
  PForeign ExamplesIndex ExamplesCfg ExamplesView ExamplesSum ExamplesForeign.

(** C71: a range is shown for every span, never behind its place, and at its place exactly if there is only ASCII in front *)
Theorem C71_displacement : forall src sp, bmp_document src -> sp_start sp <= sp_end sp -> sp_end sp <= length src ->
  exists r, range_to_lsp src sp = Some r /\ pos_le (r_start r) (lsp_position src (sp_start sp)) /\ pos_le (r_end r) (lsp_position src (sp_end sp)) /\
    (r = lsp_range src sp <-> in_ascii src sp).
Proof. exact displacement. Qed.
Print Assumptions C71_displacement.
(** how far *)
Theorem C71_shown : forall src sp, bmp_document src -> sp_start sp <= sp_end sp -> sp_end sp <= length src ->
  range_to_lsp src sp = Some (lsp_range src (displaced src sp)).
Proof. exact range_shown. Qed.
Print Assumptions C71_shown.
Example C71_displacement_ex : bmp_document accent_ /\ 120 <= length accent_ /\
  displaced accent_ (mkSpan 60 62) = mkSpan 60 62 /\ displaced accent_ (mkSpan 118 120) = mkSpan 117 119 /\
  lsp_range accent_ (mkSpan 118 120) = mkRange (mkPos 8 7) (mkPos 8 9) /\
  range_to_lsp accent_ (mkSpan 118 120) = Some (mkRange (mkPos 8 6) (mkPos 8 8)).
Proof.
  split; [exact bmp_accent|]. split; [vm_compute; lia|]. split; [vm_compute; reflexivity|]. split; [vm_compute; reflexivity|]. split; vm_compute; reflexivity.
Qed.

(** C71: the symbol under the cursor and its occurrences are the right ones everywhere; the ranges are displaced *)
Theorem C71_definition : forall e s uri src d p, bmp_document src -> opened e s uri src d -> can_resolve (roots s) -> lines_from_1 (doc_stmts d) -> p <= length src ->
  exists pr r, parse_from_str (e_u e) src = Val pr /\ pr_stmts pr = doc_stmts d /\
    goto_definition e s uri (lsp_position src p) = Val r /\ shown_answers e (roots s) uri src pr p Def r /\
    (symbol_in_ascii src (recorded (pr_stmts pr) (pr_tokens pr)) p -> answers e (roots s) uri src pr p Def r).
Proof. exact shown_definition. Qed.
Print Assumptions C71_definition.
Theorem C71_declaration : forall e s uri src d p, bmp_document src -> opened e s uri src d -> p <= length src ->
  exists pr r, parse_from_str (e_u e) src = Val pr /\ pr_stmts pr = doc_stmts d /\
    goto_declaration e s uri (lsp_position src p) = Val r /\ shown_answers e (roots s) uri src pr p Decl r /\
    (symbol_in_ascii src (recorded (pr_stmts pr) (pr_tokens pr)) p -> answers e (roots s) uri src pr p Decl r).
Proof. exact shown_declaration. Qed.
Print Assumptions C71_declaration.
Theorem C71_references : forall e s uri src d p, bmp_document src -> opened e s uri src d -> p <= length src ->
  exists pr r, parse_from_str (e_u e) src = Val pr /\ pr_stmts pr = doc_stmts d /\
    references e s uri (lsp_position src p) = Val (option_map snd r) /\ shown_answers e (roots s) uri src pr p Use r /\
    (symbol_in_ascii src (recorded (pr_stmts pr) (pr_tokens pr)) p -> answers e (roots s) uri src pr p Use r).
Proof. exact shown_references. Qed.
Print Assumptions C71_references.
(** [%x] is in front of the accent, one use of [@v] behind it *)
Example C71_references_ex : bmp_document accent_ /\ opened env8 (sv accent_) (str "f") accent_ (doc_of env8 accent_) /\ 57 <= length accent_ /\ lsp_position accent_ 57 = mkPos 3 17 /\
  references env8 (sv accent_) (str "f") (mkPos 3 17) = Val (Some [mkLocn (str "f") (mkRange (mkPos 3 16) (mkPos 3 18))]) /\
  references env8 (sv accent_) (str "f") (mkPos 0 1) =
    Val (Some [mkLocn (str "f") (mkRange (mkPos 3 20) (mkPos 3 22)); mkLocn (str "f") (mkRange (mkPos 8 6) (mkPos 8 8))]) /\
  can_resolve (roots (sv accent_)) /\ lines_from_1 (doc_stmts (doc_of env8 accent_)).
Proof.
  split; [exact bmp_accent|]. split; [exact open_accent|]. split; [vm_compute; lia|]. split; [vm_compute; reflexivity|]. split; [vm_compute; reflexivity|]. split; [vm_compute; reflexivity|].
  split; [apply opened8|]. intros f x H. vm_compute in H. destruct H.
Qed.

(** C71: the diagnostics are the right ones, displaced *)
Theorem C71_diagnostics : forall e uri src d diags, bmp_document src -> visits_all (e_ord e) -> analyze e uri src = Val (d, diags) ->
  exists pr, parse_from_str (e_u e) src = Val pr /\
    Permutation diags
      (map (fun x => syntax_diagnostic (e_xord e) src (displaced_error src x)) (filter (within_bytes src) (pr_errors pr)) ++
       map (fun x => missing_diagnostic src (displaced_instr src x)) (filter missing_refs (instructions (pr_stmts pr))) ++
       map (fun o => undefined_diagnostic src (displaced_occ src o)) (undefined_uses (recorded (pr_stmts pr) (pr_tokens pr))) ++
       map (fun o => redefinition_diagnostic src uri (displaced_pair src o)) (redefinitions (recorded (pr_stmts pr) (pr_tokens pr)))).
Proof. exact diagnostics_shown. Qed.
Print Assumptions C71_diagnostics.
Example C71_diagnostics_ex : bmp_document accent_ /\ visits_all (e_ord env8) /\ analyze env8 (str "f") accent_ = Val (doc_of env8 accent_, diags_of accent_) /\
  map d_range (diags_of accent_) = [mkRange (mkPos 7 4) (mkPos 7 11)].
Proof.
  split; [exact bmp_accent|]. split; [apply opened8|]. split; vm_compute; reflexivity.
Qed.

(** C71: a rename sends one edit for every occurrence, displaced *)
Theorem C71_rename : forall e s uri src d p new edits, bmp_document src -> opened e s uri src d -> p <= length src -> ~ signed new ->
  rename e s uri (lsp_position src p) new = Val (Reply edits) ->
  exists pr o final, parse_from_str (e_u e) src = Val pr /\ In o (recorded (pr_stmts pr) (pr_tokens pr)) /\ covers (o_span o) p /\ accepted (e_u e) (o_kind o) new final /\
    forall ed, In ed edits <-> exists x, In x (recorded (pr_stmts pr) (pr_tokens pr)) /\ same_symbol o x /\ ed = mkEdit (lsp_range src (displaced src (o_span x))) final.
Proof. exact shown_edits. Qed.
Print Assumptions C71_rename.
(** so a rename behind an accent destroys the document: the definition ends up in the comment *)
Theorem C71_rename_refuted : exists e s uri src d p edits, bmp_document src /\ opened e s uri src d /\ p <= length src /\
  rename e s uri (lsp_position src p) (str "y") = Val (Reply edits) /\
  src = str "# " ++ [233%N; LF] ++ str "@x = 5" ++ [LF] /\ patched src edits = str "# " ++ [233%N] ++ str "@yx = 5" ++ [LF].
Proof. exact rename_lost. Qed.
Print Assumptions C71_rename_refuted.
