(** Parts of a document in another order. *)
From Verif Require Import Text Rope Chumsky Tokenizer Parser Numbers Index SemTok Diag Rename Cfg Backtrace Server SpecText SpecLex SpecParse SpecIndex SpecDiag SpecBacktrace SpecNumbers SpecCfg SpecView SpecSemTok SpecSum SpecSumView.

(** What is shown about each part, at the place of the part: below the [n] lines
    and the parts in front of it. *)
Fixpoint stacked {A} (lower : nat -> A -> A) (f : piece -> list A) (n : nat) (ps : list piece) : list A :=
  match ps with
  | [] => []
  | p :: r => map (lower n) (f p) ++ stacked lower f (n + lsp_line_ends (pc_text p)) r
  end.
(** No variable, function or annotation is defined in both parts. *)
Definition defines_apart (p q : piece) : Prop :=
  forall x y, In x (tree_occs 0 (pr_stmts (pc_result p))) -> In y (tree_occs 0 (pr_stmts (pc_result q))) ->
    o_ud x = Def -> o_ud y = Def -> o_body x = None -> o_body y = None -> ~ same_symbol x y.
Definition all_apart (ps : list piece) : Prop := ForallOrdPairs defines_apart ps.
(** What is said about [p] alone and settled by the other parts: uses of names they introduce. *)
Definition settled_by (ps : list piece) (p : piece) (x : diagnostic) : Prop :=
  exists q o, In q ps /\ In o (undefined_uses (recorded (pr_stmts (pc_result p)) (pr_tokens (pc_result p)))) /\
    supplies (pr_stmts (pc_result q)) o = true /\ d_message x = str "Use of undefined symbol `" ++ o_name o ++ str "`" /\ d_range x = lsp_range (pc_text p) (o_span o).
(** A hint at an instruction of [p] whose annotation is in another part. *)
Definition supplied_by (ps : list piece) (p : piece) (h : inlay_hint) : Prop :=
  exists i r q, In i (instructions (pr_stmts (pc_result p))) /\ i_dbg i = Some r /\ In q ps /\
    existsb (annotates (fst r)) (pr_stmts (pc_result p)) = false /\ existsb (annotates (fst r)) (pr_stmts (pc_result q)) = true /\
    ih_pos h = lsp_position (pc_text p) (sp_end (snd r)).
