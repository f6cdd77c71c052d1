(** Characters, strings and the association maps used by every model file.

    Rust [char] is a Unicode scalar value and is modelled as [N]; Rust
    [String]/[&str] is modelled as the list of its characters ([text]).  Where
    the code works with byte offsets (ropey, [src[a..b]], [str::split_at]) the
    byte length of each character is computed with [utf8_len]. *)
From Coq Require Export Ascii String.
From Coq Require Export List Arith NArith ZArith Bool Lia.
Export ListNotations.
Open Scope nat_scope.
Open Scope list_scope.

Notation char := N (only parsing).
Notation text := (list char) (only parsing).

(** Literals: [str "abc"] is the text abc; [ch "a"] the character a. *)
Definition ch (a : ascii) : char := N_of_ascii a.
Definition str (x : string) : text := map N_of_ascii (list_ascii_of_string x).

Definition LF : char := 10%N.
Definition CR : char := 13%N.
Definition VT : char := 11%N.
Definition FF : char := 12%N.
Definition TAB : char := 9%N.
Definition SPACE : char := 32%N.
Definition DQUOTE : char := 34%N.

(** Number of UTF-8 bytes of a character ([char::len_utf8]). *)
Definition utf8_len (c : char) : nat :=
  if (c <? 128)%N then 1
  else if (c <? 2048)%N then 2
  else if (c <? 65536)%N then 3
  else 4.

(** Byte length of a string ([str::len]). *)
Fixpoint byte_len (t : text) : nat :=
  match t with
  | [] => 0
  | c :: r => utf8_len c + byte_len r
  end.

(** Number of UTF-16 code units of a character (what LSP positions count). *)
Definition utf16_len (c : char) : nat := if (c <? 65536)%N then 1 else 2.

Definition is_ascii (c : char) : bool := (c <? 128)%N.
Definition ascii_text (t : text) : bool := forallb is_ascii t.

(** Unicode classification.  The tables of the Rust standard library for
    non-ASCII characters are a parameter: every theorem quantifies over all
    of them.  The ASCII rows are written out. *)
Record uclass := {
  u_alpha : char -> bool;   (* char::is_alphabetic, used for c >= 128 only *)
  u_num : char -> bool;     (* char::is_numeric,    used for c >= 128 only *)
  u_white : char -> bool;   (* char::is_whitespace, used for c >= 128 only *)
}.

Definition in_range (lo hi c : char) : bool := ((lo <=? c) && (c <=? hi))%N.

Definition ascii_digit (c : char) : bool := in_range 48%N 57%N c.
Definition ascii_upper (c : char) : bool := in_range 65%N 90%N c.
Definition ascii_lower (c : char) : bool := in_range 97%N 122%N c.
Definition ascii_alpha (c : char) : bool := ascii_upper c || ascii_lower c.

(** [char::is_alphabetic] *)
Definition is_alphabetic (u : uclass) (c : char) : bool :=
  if is_ascii c then ascii_alpha c else u_alpha u c.
(** [char::is_numeric] *)
Definition is_numeric (u : uclass) (c : char) : bool :=
  if is_ascii c then ascii_digit c else u_num u c.
(** [char::is_alphanumeric] (std: [is_alphabetic() || is_numeric()]) *)
Definition is_alphanumeric (u : uclass) (c : char) : bool :=
  is_alphabetic u c || is_numeric u c.
(** [char::is_whitespace]: ASCII: U+0009..U+000D and U+0020 *)
Definition is_whitespace (u : uclass) (c : char) : bool :=
  if is_ascii c then (in_range 9%N 13%N c || (c =? 32)%N) else u_white u c.

(** [char::is_digit(radix)] for radix 10 and 16 (ASCII only by definition). *)
Definition is_digit10 (c : char) : bool := ascii_digit c.
Definition is_digit16 (c : char) : bool :=
  ascii_digit c || in_range 65%N 70%N c || in_range 97%N 102%N c.

(** String equality ([==] on strings). *)
Fixpoint text_eqb (a b : text) : bool :=
  match a, b with
  | [], [] => true
  | x :: a', y :: b' => (x =? y)%N && text_eqb a' b'
  | _, _ => false
  end.

Lemma text_eqb_spec : forall a b, reflect (a = b) (text_eqb a b).
Proof.
  induction a as [|x a IH]; destruct b as [|y b]; cbn; try (constructor; congruence).
  destruct (N.eqb_spec x y) as [Hxy|Hxy]; cbn.
  - destruct (IH b) as [Hab|Hab]; constructor; congruence.
  - constructor; congruence.
Qed.

Lemma text_eqb_eq a b : text_eqb a b = true <-> a = b.
Proof. destruct (text_eqb_spec a b); split; congruence. Qed.

Lemma text_eqb_refl a : text_eqb a a = true.
Proof. apply text_eqb_eq; reflexivity. Qed.

Lemma text_eqb_neq a b : text_eqb a b = false <-> a <> b.
Proof. destruct (text_eqb_spec a b); split; congruence. Qed.

Definition text_eq_dec (a b : text) : {a = b} + {a <> b} := list_eq_dec N.eq_dec a b.

(** [str::starts_with] / [str::strip_prefix] *)
Fixpoint strip_prefix (p t : text) : option text :=
  match p, t with
  | [], _ => Some t
  | x :: p', y :: t' => if (x =? y)%N then strip_prefix p' t' else None
  | _, [] => None
  end.
Definition starts_with (p t : text) : bool :=
  match strip_prefix p t with Some _ => true | None => false end.
(** [str::ends_with] *)
Definition ends_with (t suf : text) : bool := starts_with (rev suf) (rev t).
(** [str::contains] *)
Fixpoint contains (t pat : text) : bool :=
  starts_with pat t ||
  match t with [] => false | _ :: r => contains r pat end.

(** [str::split(c)] for a single character separator, collected. *)
Fixpoint split_on (c : char) (t : text) : list text :=
  match t with
  | [] => [[]]
  | x :: r =>
      if (x =? c)%N then [] :: split_on c r
      else match split_on c r with
           | [] => [[x]]            (* unreachable: split_on is never [] *)
           | w :: ws => (x :: w) :: ws
           end
  end.

(** Spans: [std::ops::Range<usize>] (hir_tokenizer.rs:6).  *)
Record span := mkSpan { sp_start : nat; sp_end : nat }.

Definition span_eqb (a b : span) : bool :=
  (sp_start a =? sp_start b) && (sp_end a =? sp_end b).

Lemma span_eqb_spec a b : reflect (a = b) (span_eqb a b).
Proof.
  destruct a as [a1 a2], b as [b1 b2]; unfold span_eqb; cbn.
  destruct (Nat.eqb_spec a1 b1), (Nat.eqb_spec a2 b2); cbn; constructor; congruence.
Qed.

(** [Range::contains] (half open) and [Range::len] (saturating). *)
Definition span_contains (sp : span) (p : nat) : bool :=
  (sp_start sp <=? p) && (p <? sp_end sp).
Definition span_len (sp : span) : nat := sp_end sp - sp_start sp.

(** [Vec<Span>::contains] *)
Definition spans_mem (sp : span) (l : list span) : bool := existsb (span_eqb sp) l.

(** [HashMap<String, X>]: association list with distinct keys, kept in
    insertion order.  The iteration order of a real [HashMap] is arbitrary:
    every function that iterates a map takes the iteration order as an
    explicit argument (see [map_order] in Index.v). *)
Definition amap (X : Type) := list (text * X).

Fixpoint alookup {X} (k : text) (m : amap X) : option X :=
  match m with
  | [] => None
  | (k', x) :: r => if text_eqb k k' then Some x else alookup k r
  end.

(** [*map.entry(k).or_insert(dflt) = f(..)]: update in place or append. *)
Fixpoint aupdate {X} (k : text) (dflt : X) (f : X -> X) (m : amap X) : amap X :=
  match m with
  | [] => [(k, f dflt)]
  | (k', x) :: r =>
      if text_eqb k k' then (k', f x) :: r else (k', x) :: aupdate k dflt f r
  end.

(** [map.insert(k, x)] *)
Definition ainsert {X} (k : text) (x : X) (m : amap X) : amap X :=
  aupdate k x (fun _ => x) m.

(** The result of a computation that may panic (abort). *)
Inductive res (A : Type) := Val (a : A) | Panic.
Arguments Val {A} a.
Arguments Panic {A}.

Definition rbind {A B} (r : res A) (f : A -> res B) : res B :=
  match r with Val a => f a | Panic => Panic end.
Definition rmap {A B} (f : A -> B) (r : res A) : res B := rbind r (fun a => Val (f a)).

(** Option helpers ([?] on options). *)
Definition obind {A B} (o : option A) (f : A -> option B) : option B :=
  match o with Some a => f a | None => None end.

(** [filter_map] *)
Fixpoint filter_map {A B} (f : A -> option B) (l : list A) : list B :=
  match l with
  | [] => []
  | a :: r => match f a with Some b => b :: filter_map f r | None => filter_map f r end
  end.

(** [position]: index of the first element satisfying [f]. *)
Fixpoint position {A} (f : A -> bool) (l : list A) : option nat :=
  match l with
  | [] => None
  | a :: r => if f a then Some 0 else option_map S (position f r)
  end.

(** [u32] conversions.  [try_into] fails above 2^32-1, [as u32] wraps. *)
Definition U32 : N := 4294967296%N.
Definition fits_u32 (n : nat) : bool := (N.of_nat n <? U32)%N.
Definition as_u32 (n : nat) : nat := N.to_nat (N.of_nat n mod U32)%N.
