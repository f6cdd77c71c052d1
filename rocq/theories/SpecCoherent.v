(** Answers that fit together. *)
From Verif Require Import Text Rope SpecText SpecRename.

(** A position on one of the characters of a range. *)
Definition inside_range (p : position_) (r : range_) : Prop := pos_le (r_start r) p /\ pos_lt p (r_end r).
