(** Property theorems C75: an edit in one part does not change the diagnostics of the others. *)
From Verif Require Import Text Rope Chumsky Tokenizer Parser Numbers Index SemTok Diag Rename Cfg Backtrace Server SpecText SpecLex SpecParse SpecIndex SpecDiag SpecBacktrace SpecCfg SpecView SpecSum SpecEdit
  PEdit ExamplesIndex ExamplesCfg ExamplesView ExamplesSum ExamplesEdit.

(** C75: [x] is replaced by [x'], which offers the same symbols *)
Theorem C75_diagnostics : forall e uri a x x' b pa px px' pb, plain_document (a ++ x ++ b) -> plain_document (a ++ x' ++ b) -> visits_all (e_ord e) ->
  part (e_u e) a pa -> part (e_u e) x px -> part (e_u e) x' px' -> parse_from_str (e_u e) b = Val pb -> read pb -> same_offer (pr_stmts px) (pr_stmts px') ->
  exists d l d' l' A X X' B, analyze e uri (a ++ x ++ b) = Val (d, l) /\ analyze e uri (a ++ x' ++ b) = Val (d', l') /\
    Permutation (map bare l) (A ++ X ++ map (lower_bare (lsp_line_ends (a ++ x))) B) /\ Permutation (map bare l') (A ++ X' ++ map (lower_bare (lsp_line_ends (a ++ x'))) B) /\
    Forall (in_lines 0 (lsp_line_ends a)) A /\ Forall (in_lines (lsp_line_ends a) (lsp_line_ends (a ++ x))) X /\ Forall (in_lines (lsp_line_ends a) (lsp_line_ends (a ++ x'))) X'.
Proof. exact edit_diagnostics. Qed.
Print Assumptions C75_diagnostics.
Example C75_ex : plain_document (above_ ++ old_ ++ uses_k) /\ plain_document (above_ ++ new_ ++ uses_k) /\ visits_all (e_ord env8) /\
  part u0 above_ (pr_of above_) /\ part u0 old_ (pr_of old_) /\ part u0 new_ (pr_of new_) /\ parse_from_str u0 uses_k = Val (pr_of uses_k) /\ pr_errors (pr_of uses_k) = [] /\
  same_offer (pr_stmts (pr_of old_)) (pr_stmts (pr_of new_)) /\
  show (above_ ++ old_ ++ uses_k) = [(2, str "Use of undefined symbol `@g`"); (10, str "Symbol `@l` already defined previously")] /\
  show (above_ ++ new_ ++ uses_k) = [(10, str "Failed to extract basic block references from `br` instruction"); (2, str "Use of undefined symbol `@g`"); (13, str "Symbol `@l` already defined previously"); (8, str "Use of undefined symbol `%x`")].
Proof.
  split; [split; [|split]; vm_compute; reflexivity|]. split; [split; [|split]; vm_compute; reflexivity|]. split; [apply opened8|]. split; [exact part_above|]. split; [exact part_old|]. split; [exact part_new|].
  split; [apply parsed_uses|]. split; [apply parsed_uses|]. split; [exact offer_kept|]. split; vm_compute; reflexivity.
Qed.
(** the condition is needed: without [@k] there is a new diagnostic in an unchanged line *)
Example C75_offer_ex : part u0 gone_ (pr_of gone_) /\ show (old_ ++ uses_k) = [(4, str "Symbol `@l` already defined previously")] /\
  show (gone_ ++ uses_k) = [(0, str "Use of undefined symbol `@k`"); (1, str "Symbol `@l` already defined previously")].
Proof. split; [exact part_gone|]. split; vm_compute; reflexivity. Qed.
