(** Property theorems C36, C49, C50 and C53: folding, places of symbols, outline. *)
From Verif Require Import Text Rope Chumsky Tokenizer Parser Numbers Index SemTok Diag Rename Cfg Backtrace Server SpecText SpecParse SpecIndex SpecDiag SpecBacktrace SpecCfg SpecView
  PFold PFoldText PNav ExamplesIndex ExamplesCfg ExamplesView.

(** C36: functions one below the other, blocks one below the other within them *)
Theorem C36_nesting : forall e s uri src d, small src -> opened e s uri src d ->
  exists fs bss, folding_range s uri = Some (fs ++ concat bss) /\
    map (@length _) bss = map (fun f => length (fb_blocks (snd f))) (function_defs (doc_stmts d)) /\
    StronglySorted above_eq fs /\
    Forall2 (fun f bs => fo_start f <= fo_end f /\ StronglySorted above_eq bs /\
      Forall (fun b => fo_start f <= fo_start b /\ fo_start b <= fo_end b /\ fo_end b <= fo_end f) bs) fs bss.
Proof. exact folding_small. Qed.
Print Assumptions C36_nesting.
(** on plain documents these are the lines of functions and blocks, and no line is shared *)
Theorem C36_lines : forall e s uri src d, plain_document src -> opened e s uri src d ->
  exists fs bss, folding_range s uri = Some (fs ++ concat bss) /\
    Forall2 (folds src) (flat_map func_ranges (doc_stmts d)) fs /\
    Forall2 (Forall2 (folds src)) (block_spans (doc_stmts d)) bss /\
    StronglySorted above fs /\
    Forall2 (fun f bs => fo_start f <= fo_end f /\ StronglySorted above bs /\
      Forall (fun b => fo_start f < fo_start b /\ fo_start b <= fo_end b /\ fo_end b < fo_end f) bs) fs bss.
Proof. exact folding_plain. Qed.
Print Assumptions C36_lines.
Example C36_ex : plain_document src5 /\ opened env5 s5 (str "f") src5 d5 /\
  option_map (map (fun x => (fo_start x, fo_end x))) (folding_range s5 (str "f")) =
    Some [(0, 5); (6, 10); (11, 13); (14, 16); (1, 2); (3, 4); (7, 7); (8, 9); (12, 12); (15, 15)].
Proof. split; [apply opened5|]. split; [apply opened5|]. vm_compute. reflexivity. Qed.

(** C53: a collapsed block says how many instructions it has, a collapsed
    function how many labels it defines or mentions *)
Theorem C53_texts : forall e s uri src d, small src -> opened e s uri src d ->
  exists fs bss, folding_range s uri = Some (fs ++ concat bss) /\
    Forall2 (fun f x => exists n, numbers (mentions_label (snd f)) n /\ says_count n (str " basic blocks") x) (function_defs (doc_stmts d)) fs /\
    Forall2 (fun f bs => Forall2 (fun b x => says_count (length (bb_instrs b)) (str " instructions") x) (fb_blocks (snd f)) bs) (function_defs (doc_stmts d)) bss.
Proof. exact folding_texts. Qed.
Print Assumptions C53_texts.
(** this is the number of blocks if each has a label of its own and no other is mentioned *)
Theorem C53_count : forall e s uri src d, small src -> opened e s uri src d ->
  exists fs bss, folding_range s uri = Some (fs ++ concat bss) /\ map (@length _) bss = map (fun f => length (fb_blocks (snd f))) (function_defs (doc_stmts d)) /\
    Forall2 (fun f x => well_labelled (snd f) -> says_count (length (fb_blocks (snd f))) (str " basic blocks") x) (function_defs (doc_stmts d)) fs.
Proof. exact folding_counts. Qed.
Print Assumptions C53_count.
Example C53_ex : small src5 /\ opened env5 s5 (str "f") src5 d5 /\ (exists f, nth_error (function_defs (doc_stmts d5)) 0 = Some f /\ well_labelled (snd f)) /\
  option_map (map fo_text) (folding_range s5 (str "f")) =
    Some (map str ["2 basic blocks"; "1 basic blocks"; "0 basic blocks"; "0 basic blocks";
                   "1 instructions"; "1 instructions"; "1 instructions"; "1 instructions"; "1 instructions"; "1 instructions"]%string).
Proof.
  split; [apply opened5|]. split; [apply opened5|]. split; [exact labelled5|]. vm_compute. reflexivity.
Qed.
(** but not in general *)
Theorem C53_unlabelled_refuted : exists e s uri src d f x, plain_document src /\ opened e s uri src d /\
  function_defs (doc_stmts d) = [f] /\ length (fb_blocks (snd f)) = 2 /\
  option_map (firstn 1) (folding_range s uri) = Some [x] /\ fo_text x = str "1 basic blocks".
Proof. exact unlabelled_count. Qed.
Print Assumptions C53_unlabelled_refuted.
Theorem C53_undefined_refuted : exists e s uri src d f x, plain_document src /\ opened e s uri src d /\
  function_defs (doc_stmts d) = [f] /\ length (fb_blocks (snd f)) = 1 /\
  option_map (firstn 1) (folding_range s uri) = Some [x] /\ fo_text x = str "2 basic blocks".
Proof. exact undefined_count. Qed.
Print Assumptions C53_undefined_refuted.

(** C49 *)
Theorem C49_definition : forall e s uri src d p,
  plain_document src -> opened e s uri src d -> can_resolve (roots s) -> lines_from_1 (doc_stmts d) -> p <= length src ->
  exists pr r, parse_from_str (e_u e) src = Val pr /\ pr_stmts pr = doc_stmts d /\
    goto_definition e s uri (lsp_position src p) = Val r /\ answers e (roots s) uri src pr p Def r.
Proof. exact definition_places. Qed.
Print Assumptions C49_definition.
Theorem C49_declaration : forall e s uri src d p, plain_document src -> opened e s uri src d -> p <= length src ->
  exists pr r, parse_from_str (e_u e) src = Val pr /\ pr_stmts pr = doc_stmts d /\
    goto_declaration e s uri (lsp_position src p) = Val r /\ answers e (roots s) uri src pr p Decl r.
Proof. exact declaration_places. Qed.
Print Assumptions C49_declaration.
Theorem C49_references : forall e s uri src d p, plain_document src -> opened e s uri src d -> p <= length src ->
  exists pr r, parse_from_str (e_u e) src = Val pr /\ pr_stmts pr = doc_stmts d /\
    references e s uri (lsp_position src p) = Val (option_map snd r) /\ answers e (roots s) uri src pr p Use r.
Proof. exact reference_places. Qed.
Print Assumptions C49_references.
Theorem C49_past_end : forall e s uri src d pos, plain_document src -> opened e s uri src d -> lsp_lines src <= p_line pos ->
  goto_definition e s uri pos = Val None /\ goto_declaration e s uri pos = Val None /\ references e s uri pos = Val None.
Proof. exact nothing_past_end. Qed.
Print Assumptions C49_past_end.
Example C49_ex : plain_document doc1 /\ opened env8 s8 (str "f") doc1 d8 /\ can_resolve (roots s8) /\ lines_from_1 (doc_stmts d8) /\
  goto_definition env8 s8 (str "f") (mkPos 10 16) =
    Val (Some (mkRange (mkPos 10 16) (mkPos 10 18), [mkLocn (str "file://") (mkRange (mkPos 6 0) (mkPos 6 0))])) /\
  goto_declaration env8 s8 (str "f") (mkPos 10 17) =
    Val (Some (mkRange (mkPos 10 16) (mkPos 10 18), [mkLocn (str "f") (mkRange (mkPos 1 13) (mkPos 1 15))])) /\
  references env8 s8 (str "f") (mkPos 1 14) = Val (Some [mkLocn (str "f") (mkRange (mkPos 10 16) (mkPos 10 18))]) /\
  references env8 s8 (str "f") (mkPos 1 1) = Val None.
Proof.
  split; [apply opened8|]. split; [apply opened8|]. split; [apply opened8|]. split; [apply lines8|]. repeat split; vm_compute; reflexivity.
Qed.
(** a link to line 0 crashes a debug build *)
Theorem C49_line_0_refuted : exists e s uri src d p, plain_document src /\ opened e s uri src d /\ can_resolve (roots s) /\ p <= length src /\
  goto_definition e s uri (lsp_position src p) = Panic.
Proof. exact line0_panic. Qed.
Print Assumptions C49_line_0_refuted.

(** C50 *)
Theorem C50_outline : forall e s uri src d, plain_document src -> visits_all (e_ord e) -> opened e s uri src d ->
  exists vs, document_symbol e s uri = Some (vs ++ function_outline src (doc_stmts d)) /\
    Permutation vs (map (variable_symbol src) (variable_names (doc_stmts d))) /\
    Forall (fun x => range_in (ds_selection x) (ds_range x)) (function_outline src (doc_stmts d)).
Proof. exact outline. Qed.
Print Assumptions C50_outline.
Example C50_ex : plain_document doc1 /\ visits_all (e_ord env8) /\ opened env8 s8 (str "f") doc1 d8 /\
  option_map (map (fun x => (ds_name x, ds_range x))) (document_symbol env8 s8 (str "f")) =
    Some [(str "@v", mkRange (mkPos 0 0) (mkPos 0 2)); (str "@g", mkRange (mkPos 3 0) (mkPos 7 1)); (str "@h", mkRange (mkPos 8 0) (mkPos 12 1))].
Proof. split; [apply opened8|]. split; [apply opened8|]. split; [apply opened8|]. vm_compute. reflexivity. Qed.
