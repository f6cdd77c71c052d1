(** C71: the other views of documents with text that is not ASCII. *)
From Verif Require Import Text Rope Chumsky Tokenizer Parser Numbers Index SemTok Diag Rename Cfg Backtrace Server SpecText SpecBytes SpecLex SpecParse SpecIndex SpecDiag SpecBacktrace SpecCfg SpecView SpecSemTok SpecForeign
  PForeignView ExamplesIndex ExamplesCfg ExamplesView ExamplesForeign.

(** C71: the outline names every variable and function; the ranges are displaced, and selections stay in ranges *)
Theorem C71_outline : forall e s uri src d, bmp_document src -> visits_all (e_ord e) -> opened e s uri src d ->
  exists vs, document_symbol e s uri = Some (vs ++ function_outline src (map (shown_function src) (doc_stmts d))) /\
    Permutation vs (map (fun x => variable_symbol src (shown_name src x)) (variable_names (doc_stmts d))) /\
    Forall (fun x => range_in (ds_selection x) (ds_range x)) (function_outline src (map (shown_function src) (doc_stmts d))).
Proof. exact shown_outline. Qed.
Print Assumptions C71_outline.
Example C71_outline_ex : bmp_document accents_ /\ visits_all (e_ord env5) /\ opened env5 sva (str "f") accents_ doca /\
  option_map (map (fun x => (ds_name x, ds_selection x))) (document_symbol env5 sva (str "f")) =
  Some [(str "@v", mkRange (mkPos 0 6) (mkPos 1 1)); (str "@f", mkRange (mkPos 2 11) (mkPos 2 13))].
Proof. split; [apply open_accents|]. split; [apply open_accents|]. split; [apply open_accents|]. vm_compute. reflexivity. Qed.

(** C71: every function and every block can be folded, at the displaced lines *)
Theorem C71_folds : forall e s uri src d, bmp_document src -> opened e s uri src d ->
  exists fs bss, folding_range s uri = Some (fs ++ concat bss) /\
    Forall2 (fun sp x => folds src (displaced src sp) x) (flat_map func_ranges (doc_stmts d)) fs /\
    Forall2 (Forall2 (fun sp x => folds src (displaced src sp) x)) (block_spans (doc_stmts d)) bss.
Proof. exact shown_folds. Qed.
Print Assumptions C71_folds.
(** C71: every function defined once has a lens *)
Theorem C71_lenses : forall e s uri src d, bmp_document src -> visits_all (e_ord e) -> opened e s uri src d ->
  exists ls, code_lens e s uri = Some ls /\
    Permutation ls (map (fun f => function_lens src uri (shown_def src f)) (filter (defined_once (doc_stmts d)) (function_defs (doc_stmts d)))).
Proof. exact shown_lenses. Qed.
Print Assumptions C71_lenses.
Example C71_folds_ex : option_map (map (fun x => (fo_start x, fo_end x))) (folding_range sva (str "f")) = Some [(1, 7); (2, 4); (4, 6)] /\
  option_map (map cl_range) (code_lens env5 sva (str "f")) = Some [mkRange (mkPos 2 11) (mkPos 2 13)].
Proof. split; vm_compute; reflexivity. Qed.

(** C71: hints tell the right blocks and functions at displaced places; a backtrace is read from the displaced place of its annotation *)
Theorem C71_hints : forall e s uri src d hints, bmp_document src -> opened e s uri src d -> inlay_hint_handler e s uri = Val (Some hints) ->
  exists pr hss bts, parse_from_str (e_u e) src = Val pr /\
    hints = concat hss ++ concat bts ++ map (fun f => function_end_hint src uri (shown_def src f)) (function_defs (pr_stmts pr)) /\
    Forall2 (fun x hs => shown_block_hint src uri (fst x) (snd x) hs) (blocks_in_context (pr_stmts pr)) hss /\
    Forall (Forall other_hint) bts /\
    (can_resolve (roots s) -> Forall2 (shown_instr_hint e (roots s) src (pr_stmts pr)) (instructions (pr_stmts pr)) bts).
Proof. exact shown_inlay. Qed.
Print Assumptions C71_hints.
Example C71_hints_ex : inlay_hint_handler env5 sva (str "f") = Val (Some hintsa) /\ can_resolve (roots sva) /\
  map (fun h => (ih_pos h, map lp_value (ih_parts h))) hintsa =
  [(mkPos 3 5, [str "incoming: "; str "more"]); (mkPos 5 4, [str "incoming: "; str "entry"]);
   (mkPos 4 11, [str "hyper::Translator::consume(x)"; str ", "; str "Full backtrace"]); (mkPos 7 0, [str "@f"])].
Proof. split; [vm_compute; reflexivity|]. split; [intros r []|]. vm_compute. reflexivity. Qed.
(** so an accent anywhere in front of an annotation loses the backtraces *)
Theorem C71_backtrace_refuted : exists e t d d' l l',
  analyze e (str "f") (str "# cafe" ++ t) = Val d /\ analyze e (str "f") (str "# caf" ++ [233%N] ++ t) = Val d' /\ bmp_document (str "# caf" ++ [233%N] ++ t) /\
  inlay_hint_handler e (mkServer [] false [(str "f", fst d)]) (str "f") = Val (Some l) /\ inlay_hint_handler e (mkServer [] false [(str "f", fst d')]) (str "f") = Val (Some l') /\
  length l = 4 /\ length l' = 3 /\ map (fun h => map lp_value (ih_parts h)) (firstn 1 (skipn 2 l)) = [[str "hyper::Translator::consume(x)"; str ", "; str "Full backtrace"]] /\
  map (fun h => map lp_value (ih_parts h)) l' = [[str "incoming: "; str "more"]; [str "incoming: "; str "entry"]; [str "@f"]].
Proof. exact backtrace_lost. Qed.
Print Assumptions C71_backtrace_refuted.

(** C71: every token is highlighted with its type and length, at its displaced place, also with lexical errors *)
Theorem C71_highlighting : forall u src toks errs, bmp_document src -> tokenize u src = Val (Some toks, errs) ->
  exists hs out, semantic_tokens_from_tokens toks = Val hs /\ convert_to_lsp_tokens src hs = Val out /\
    Forall2 (shows (shown_place src)) (filter_map highlighted toks) (decode out).
Proof. exact shown_tokens. Qed.
Print Assumptions C71_highlighting.
Example C71_highlighting_ex : exists toks errs hs out, tokenize u0 lost_ = Val (Some toks, errs) /\ semantic_tokens_from_tokens toks = Val hs /\ convert_to_lsp_tokens lost_ hs = Val out /\
  map fst (decode out) = [(mkPos 0 0, 3); (mkPos 0 3, 2); (mkPos 1 4, 1)].
Proof. do 4 eexists. split; [vm_compute; reflexivity|]. split; [vm_compute; reflexivity|]. split; vm_compute; reflexivity. Qed.
