(** Specification of decimal numerals and numbered names. *)
From Verif Require Import Text SpecBacktrace.

Definition all_digits (ds : text) : Prop := forall c, In c ds -> (48 <= c <= 57)%N.

(** [ds] is the canonical decimal numeral of [n]: digits, no leading zero. *)
Definition canonical_decimal (n : N) (ds : text) : Prop :=
  ds <> [] /\ all_digits ds /\ decimal_value ds = n /\ (ds = [48%N] \/ exists c r, ds = c :: r /\ c <> 48%N).

(** [name] is [prefix] followed by its longest digit suffix [ds] of value [n]. *)
Definition numbered (name prefix ds : text) (n : N) : Prop :=
  name = prefix ++ ds /\ ds <> [] /\ all_digits ds /\ decimal_value ds = n /\
  (prefix = [] \/ exists p c, prefix = p ++ [c] /\ ~ (48 <= c <= 57)%N).

(** The largest i64. *)
Definition max_i64 : N := 9223372036854775807%N.
