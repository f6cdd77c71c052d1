(** Editing one part of a document: what must not change elsewhere. *)
From Verif Require Import Text Rope Chumsky Tokenizer Parser Numbers Index SemTok Diag Rename Cfg Backtrace Server SpecText SpecLex SpecParse SpecIndex SpecDiag SpecSum.

(** The symbols that a statement declares or defines for the whole document; [true]: defines. *)
Definition offer (s : statement) : list (symbol_kind * bool * text) :=
  match s with
  | SGlobalVar x _ => [(KGlobalVar, true, fst x)]
  | SFuncDecl sig _ _ => [(KFunction, false, fst (fs_name sig))]
  | SFuncDef _ sig _ => [(KFunction, true, fst (fs_name sig))]
  | SFuncDeps _ _ => []
  | SDbgAnnotation x _ => [(KDbgAnnotation, true, fst x)]
  end.
(** The edit keeps the set of these symbols. *)
Definition same_offer (ss ss' : list statement) : Prop := forall y, In y (flat_map offer ss) <-> In y (flat_map offer ss').

(** A diagnostic without the place of the previous definition, which may be in the edited part. *)
Definition bare (x : diagnostic) : range_ * text := (d_range x, d_message x).
Definition lower_bare (n : nat) (x : range_ * text) : range_ * text := (lower_range n (fst x), snd x).
(** It starts in one of the lines from [n] to [m], exclusive. *)
Definition in_lines (n m : nat) (x : range_ * text) : Prop := n <= p_line (r_start (fst x)) /\ p_line (r_start (fst x)) < m.
(** An error-free part that consists of complete lines. *)
Definition part (u : uclass) (t : text) (pr : parser_result) : Prop := full_lines t /\ parse_from_str u t = Val pr /\ pr_errors pr = [].
