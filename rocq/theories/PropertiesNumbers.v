(** Property theorems C31: numbers in names. *)
From Verif Require Import Text Numbers Rename SpecBacktrace SpecNumbers PNumbers.

Theorem C31_numbered : forall u id prefix ds n, ascii_text id = true -> numbered id prefix ds n ->
  extract_number_from_identifier u id =
  Val (if (n <=? max_i64)%N then Some (prefix, Z.of_N n) else None).
Proof. exact extract_spec_some. Qed.
Print Assumptions C31_numbered.
Theorem C31_not_numbered : forall u id, ascii_text id = true ->
  (id = [] \/ exists p c, id = p ++ [c] /\ ~ (48 <= c <= 57)%N) ->
  extract_number_from_identifier u id = Val None.
Proof. exact extract_spec_none. Qed.
Print Assumptions C31_not_numbered.
(** One of the two cases applies, and a name is numbered in one way only. *)
Theorem C31_total : forall id, (exists prefix ds n, numbered id prefix ds n) \/
  (id = [] \/ exists p c, id = p ++ [c] /\ ~ (48 <= c <= 57)%N).
Proof. exact numbered_or_not. Qed.
Print Assumptions C31_total.
Theorem C31_unique : forall id p1 d1 n1 p2 d2 n2, numbered id p1 d1 n1 -> numbered id p2 d2 n2 ->
  p1 = p2 /\ d1 = d2 /\ n1 = n2.
Proof. exact numbered_unique. Qed.
Print Assumptions C31_unique.
(** Any Unicode name: a successful split is a split of the name. *)
Theorem C31_sound : forall u id prefix z, extract_number_from_identifier u id = Val (Some (prefix, z)) ->
  exists ds, id = prefix ++ ds /\ ds <> [] /\ all_digits ds /\ z = Z.of_N (decimal_value ds) /\
             (0 <= z <= Z.of_N max_i64)%Z /\
             (prefix = [] \/ exists p c, prefix = p ++ [c] /\ is_numeric u c = false).
Proof. exact extract_sound. Qed.
Print Assumptions C31_sound.
Example C31_ex : forall u, extract_number_from_identifier u (str "%v1x007") = Val (Some (str "%v1x", 7%Z)).
Proof. intros u. vm_compute. reflexivity. Qed.
(** A multi-byte character before the number crashes the split. *)
Theorem C31_panic_refuted : exists u id, extract_number_from_identifier u id = Panic.
Proof. exact extract_panic_witness. Qed.
Print Assumptions C31_panic_refuted.
