(** Decimal numbers: [str::parse::<u32>], [str::parse::<i64>], [i64::to_string]
    and the i64 arithmetic used by src/rename.rs and src/main.rs. *)
From Verif Require Import Text.

Definition digit_val (c : char) : N := (c - 48)%N.

Fixpoint digits_value (acc : N) (t : text) : option N :=
  match t with
  | [] => Some acc
  | c :: r => if ascii_digit c then digits_value (10 * acc + digit_val c)%N r else None
  end.

(** one or more ASCII digits *)
Definition parse_digits (t : text) : option N :=
  match t with [] => None | _ => digits_value 0%N t end.

(** [parse::<u32>]: optional [+], digits, value below 2^32 *)
Definition parse_u32 (t : text) : option N :=
  obind (match t with
         | c :: r => if (c =? ch "+")%N then parse_digits r else parse_digits t
         | [] => None
         end)
        (fun n => if (n <? U32)%N then Some n else None).

Definition I64_MAX : Z := 9223372036854775807%Z.
Definition I64_MIN : Z := (-9223372036854775808)%Z.
Definition in_i64 (z : Z) : bool := ((I64_MIN <=? z) && (z <=? I64_MAX))%Z.

(** [parse::<i64>]: optional [+] or [-], digits, value in range *)
Definition parse_i64 (t : text) : option Z :=
  obind (match t with
         | c :: r =>
             if (c =? ch "+")%N then option_map Z.of_N (parse_digits r)
             else if (c =? ch "-")%N then option_map (fun n => (- Z.of_N n)%Z) (parse_digits r)
             else option_map Z.of_N (parse_digits t)
         | [] => None
         end)
        (fun z => if in_i64 z then Some z else None).

(** Decimal rendering of a natural number, most significant digit first. *)
Fixpoint render_pos (fuel : nat) (n : N) (acc : text) : text :=
  match fuel with
  | 0 => acc
  | S f =>
      let d := (48 + n mod 10)%N in
      if (n <? 10)%N then d :: acc else render_pos f (n / 10)%N (d :: acc)
  end.
Definition render_N (n : N) : text := render_pos (S (N.to_nat (N.log2 n))) n [].

(** [i64::to_string] *)
Definition render_Z (z : Z) : text :=
  if (z <? 0)%Z then ch "-" :: render_N (Z.abs_N z) else render_N (Z.abs_N z).

(** Overflow behaviour of [+] and [*] on i64 and [-] on u32: a debug build
    panics, a release build wraps.  Every definition that can overflow takes
    the build profile as an argument. *)
Inductive profile := Debug | Release.

Definition wrap_i64 (z : Z) : Z :=
  ((z + 9223372036854775808) mod 18446744073709551616 - 9223372036854775808)%Z.

Definition i64_result (pf : profile) (z : Z) : res Z :=
  if in_i64 z then Val z
  else match pf with Debug => Panic | Release => Val (wrap_i64 z) end.

Definition i64_add (pf : profile) (a b : Z) : res Z := i64_result pf (a + b)%Z.
Definition i64_mul (pf : profile) (a b : Z) : res Z := i64_result pf (a * b)%Z.

(** [i64::wrapping_abs] *)
Definition wrapping_abs (z : Z) : Z := wrap_i64 (Z.abs z).

(** [u32 - 1] *)
Definition u32_pred (pf : profile) (n : N) : res N :=
  if (n =? 0)%N then match pf with Debug => Panic | Release => Val (U32 - 1)%N end
  else Val (n - 1)%N.
