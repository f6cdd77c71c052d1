(** Numbers that are free in a scope. *)
From Verif Require Import Text Chumsky Tokenizer Parser Index SpecParse SpecIndex SpecDiag SpecNumbers SpecRename SpecSimilar SpecRebind.

(** No name where [o] can be seen has one of the [z] numbers from [n] on. *)
Definition room (l : list occurrence) (o : occurrence) (n : N) (z : Z) : Prop :=
  forall name m, has_number name m -> (Z.of_N n <= Z.of_N m < Z.of_N n + z)%Z -> unused l o name.
(** The names from the number [n] on have moved by [z], the others are as before. *)
Definition renumbered (n : N) (z : Z) (x x' : occurrence) : Prop :=
  moves n z (o_name x) (o_name x') \/ ((forall m, has_number (o_name x) m -> (m < n)%N) /\ o_name x' = o_name x).
