(** Property theorems C76: commenting out lines. *)
From Verif Require Import Text Rope Chumsky Tokenizer Parser Numbers Index SemTok Diag Rename Cfg Backtrace Server SpecText SpecLex SpecParse SpecIndex SpecDiag SpecBacktrace SpecCfg SpecView SpecLines SpecComment
  PComment ExamplesIndex ExamplesCfg ExamplesView ExamplesSum ExamplesComment.

(** C76: the lines [x] become the lines [x'] with [#]; [a ++ b] is the document without them *)
Theorem C76_syntax : forall u a x x' b ta, full_lines a -> tokenize u a = Val (Some ta, []) -> place_after (without_comments ta) = LineStart -> commented_out x x' ->
  ((exists toks ss, ss <> [] /\ parse_from_str u (a ++ b) = Val (mkPR toks ss [])) <-> (exists toks ss, ss <> [] /\ parse_from_str u (a ++ x' ++ b) = Val (mkPR toks ss []))).
Proof. exact comment_syntax. Qed.
Print Assumptions C76_syntax.
Theorem C76_diagnostics : forall e uri a x x' b ta toks ss, full_lines a -> tokenize (e_u e) a = Val (Some ta, []) -> place_after (without_comments ta) = LineStart -> commented_out x x' ->
  parse_from_str (e_u e) (a ++ b) = Val (mkPR toks ss []) -> ss <> [] -> plain_document (a ++ b) -> plain_document (a ++ x' ++ b) -> visits_all (e_ord e) ->
  exists d l d' l', analyze e uri (a ++ b) = Val (d, l) /\ analyze e uri (a ++ x' ++ b) = Val (d', l') /\ Permutation l' (map (down_diagnostic uri (lsp_line_ends a) (lsp_line_ends x)) l).
Proof. exact comment_diagnostics. Qed.
Print Assumptions C76_diagnostics.
Example C76_ex : full_lines before76 /\ tokenize u0 before76 = Val (Some toks76, []) /\ place_after (without_comments toks76) = LineStart /\ commented_out lines76 comment76 /\
  parse_from_str u0 (before76 ++ after76) = Val (mkPR (pr_tokens (pr_of (before76 ++ after76))) (pr_stmts (pr_of (before76 ++ after76))) []) /\ pr_stmts (pr_of (before76 ++ after76)) <> [] /\
  plain_document (before76 ++ after76) /\ plain_document (before76 ++ comment76 ++ after76) /\ visits_all (e_ord env8) /\
  (lsp_line_ends before76, lsp_line_ends lines76) = (5, 3) /\
  map (fun d => (p_line (r_start (d_range d)), d_message d)) (diags_of (before76 ++ after76)) = [(8, str "Symbol `@g` already defined previously"); (5, str "Use of undefined symbol `%z`")] /\
  map (fun d => (p_line (r_start (d_range d)), d_message d)) (diags_of (before76 ++ comment76 ++ after76)) = [(11, str "Symbol `@g` already defined previously"); (8, str "Use of undefined symbol `%z`")].
Proof.
  split; [exact full76|]. split; [exact lexed76|]. split; [exact place76|]. split; [exact commented76|]. split; [apply parsed76|]. split; [apply parsed76|]. split; [apply plain76|]. split; [apply plain76|].
  split; [apply opened8|]. split; [vm_compute; reflexivity|]. split; vm_compute; reflexivity.
Qed.
(** C76: the answers at the position where a place of [a ++ b] is now *)
Theorem C76_navigation : forall e s s' uri a x x' b ta toks ss D D' p, full_lines a -> tokenize (e_u e) a = Val (Some ta, []) -> place_after (without_comments ta) = LineStart -> commented_out x x' ->
  parse_from_str (e_u e) (a ++ b) = Val (mkPR toks ss []) -> ss <> [] -> plain_document (a ++ b) -> plain_document (a ++ x' ++ b) ->
  opened e s uri (a ++ b) D -> opened e s' uri (a ++ x' ++ b) D' -> p <= length (a ++ b) ->
  let n := lsp_line_ends a in let k := lsp_line_ends x in let pos := lsp_position (a ++ b) p in let pos' := down n k pos in
  goto_declaration e s' uri pos' = rmap (option_map (down_answer uri n k)) (goto_declaration e s uri pos) /\
  references e s' uri pos' = rmap (option_map (map (down_location uri n k))) (references e s uri pos) /\
  prepare_rename s' uri pos' = option_map (down_range n k) (prepare_rename s uri pos) /\
  (roots s' = roots s -> leads_elsewhere e (roots s) uri ss -> goto_definition e s' uri pos' = rmap (option_map (down_answer uri n k)) (goto_definition e s uri pos)).
Proof. exact comment_navigation. Qed.
Print Assumptions C76_navigation.
(** C76: the outline and the folds *)
Theorem C76_views : forall e s s' uri a x x' b ta toks ss D D', full_lines a -> tokenize (e_u e) a = Val (Some ta, []) -> place_after (without_comments ta) = LineStart -> commented_out x x' ->
  parse_from_str (e_u e) (a ++ b) = Val (mkPR toks ss []) -> ss <> [] -> plain_document (a ++ b) -> plain_document (a ++ x' ++ b) ->
  opened e s uri (a ++ b) D -> opened e s' uri (a ++ x' ++ b) D' -> visits_all (e_ord e) ->
  let n := lsp_line_ends a in let k := lsp_line_ends x in
  (exists l l', document_symbol e s uri = Some l /\ document_symbol e s' uri = Some l' /\ Permutation l' (map (down_symbol n k) l)) /\
  exists l, folding_range s uri = Some l /\ folding_range s' uri = Some (map (down_fold n k) l).
Proof. exact comment_views. Qed.
Print Assumptions C76_views.
(** [%x] in the line behind the commented lines; [@h] with its source; the fold of the body *)
Example C76_answers_ex : opened env8 (sv (before76 ++ after76)) (str "f") (before76 ++ after76) (doc_of env8 (before76 ++ after76)) /\
  opened env8 (sv (before76 ++ comment76 ++ after76)) (str "f") (before76 ++ comment76 ++ after76) (doc_of env8 (before76 ++ comment76 ++ after76)) /\
  roots (sv (before76 ++ comment76 ++ after76)) = roots (sv (before76 ++ after76)) /\ leads_elsewhere env8 (roots (sv (before76 ++ after76))) (str "f") (pr_stmts (pr_of (before76 ++ after76))) /\
  ask76 (before76 ++ after76) 6 12 = [mkLocn (str "f") (mkRange (mkPos 2 20) (mkPos 2 22))] /\ ask76 (before76 ++ comment76 ++ after76) 9 12 = ask76 (before76 ++ after76) 6 12 /\
  ask76 (before76 ++ comment76 ++ after76) 4 8 = [mkLocn (str "file://") (mkRange (mkPos 6 0) (mkPos 6 0))] /\
  match folding_range (sv (before76 ++ after76)) (str "f"), folding_range (sv (before76 ++ comment76 ++ after76)) (str "f") with
  | Some l, Some l' => (map (fun x => (fo_start x, fo_end x)) l, map (fun x => (fo_start x, fo_end x)) l') = ([(2, 7); (3, 6)], [(2, 10); (3, 9)])
  | _, _ => False
  end.
Proof.
  split; [apply opened76; vm_compute; discriminate|]. split; [apply opened76; vm_compute; discriminate|]. split; [reflexivity|]. split; [apply elsewhere76|]. split; [vm_compute; reflexivity|]. split; [vm_compute; reflexivity|].
  split; [vm_compute; reflexivity|]. vm_compute. reflexivity.
Qed.
