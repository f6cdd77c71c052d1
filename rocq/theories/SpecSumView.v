(** Answers for a part of a document in the whole, [n] lines further down. *)
From Verif Require Import Text Rope Chumsky Tokenizer Parser Numbers Index SemTok Diag Rename Cfg Backtrace Server SpecText SpecLex SpecParse SpecIndex SpecDiag SpecSum.

Definition lower_fold (n : nat) (x : folding) : folding := mkFold (n + fo_start x) (n + fo_end x) (fo_text x).
Definition lower_part (n : nat) (x : label_part) : label_part := mkPart (lp_value x) (option_map (lower_location n) (lp_location x)) (lp_tooltip x).
Definition lower_hint (n : nat) (x : inlay_hint) : inlay_hint := mkHint (lower n (ih_pos x)) (map (lower_part n) (ih_parts x)).
Definition lower_lens (n : nat) (x : lens) : lens := mkLens (lower_range n (cl_range x)) (cl_command x) (cl_args x).
Definition lower_token (n : nat) (x : position_ * nat * nat) : position_ * nat * nat := let '(p, l, t) := x in (lower n p, l, t).

(** No instruction of one part names an annotation of the other. *)
Definition own_annotations (ss others : list statement) : Prop :=
  forall i r, In i (instructions ss) -> i_dbg i = Some r -> existsb (annotates (fst r)) others = false.
(** No function of one part is defined in the other. *)
Definition own_functions (ss others : list statement) : Prop :=
  forall f g, In f (function_defs ss) -> In g (function_defs others) -> fst (fs_name (fst f)) <> fst (fs_name (fst g)).
