(** Ropey 1.6.1 ([Rope], default features: unicode_lines, cr_lines) and
    src/lsp_utils.rs.

    A rope is modelled by its text; only the index conversions used by the
    server are modelled.  Line breaks recognised by ropey with default
    features (Cargo.toml:10 enables the defaults): LF, VT, FF, CR, CRLF,
    U+0085, U+2028, U+2029. *)
From Verif Require Import Text.

Definition rope := text.

Definition is_break (c : char) : bool :=
  (in_range 10%N 13%N c || (c =? 133) || (c =? 8232) || (c =? 8233))%N.

(** Character indices just after each line break, in order.  CR LF counts as
    one break, after the LF. *)
Fixpoint breaks (t : text) (i : nat) : list nat :=
  match t with
  | [] => []
  | c :: r =>
      if (c =? CR)%N then
        match r with
        | d :: r' => if (d =? LF)%N then (i + 2) :: breaks r' (i + 2)
                     else (i + 1) :: breaks r (i + 1)
        | [] => [i + 1]
        end
      else if is_break c then (i + 1) :: breaks r (i + 1)
      else breaks r (i + 1)
  end.

Definition len_chars (t : rope) : nat := length t.
Definition len_lines (t : rope) : nat := S (length (breaks t 0)).

(** [Rope::try_line_to_char]: Ok for line <= len_lines; one past the last
    line gives the length in characters. *)
Definition try_line_to_char (t : rope) (line : nat) : option nat :=
  match line with
  | 0 => Some 0
  | S l => nth_error (breaks t 0 ++ [len_chars t]) l
  end.

(** Line containing a character index (breaks belong to the line they end). *)
Definition char_to_line (t : rope) (p : nat) : nat :=
  length (filter (fun b => b <=? p) (breaks t 0)).

(** [Rope::try_byte_to_char]: Ok for b <= len_bytes; a byte inside a
    multi-byte character belongs to that character. *)
Fixpoint byte_to_char (t : text) (b : nat) : nat :=
  match t with
  | [] => 0
  | c :: r => if utf8_len c <=? b then S (byte_to_char r (b - utf8_len c)) else 0
  end.
Definition try_byte_to_char (t : rope) (b : nat) : option nat :=
  if b <=? byte_len t then Some (byte_to_char t b) else None.

(** [Rope::try_byte_to_line] *)
Definition try_byte_to_line (t : rope) (b : nat) : option nat :=
  if b <=? byte_len t then Some (char_to_line t (byte_to_char t b)) else None.

(** lsp_types::Position, Range (both fields are u32). *)
Record position_ := mkPos { p_line : nat; p_char : nat }.
Record range_ := mkRange { r_start : position_; r_end : position_ }.

(** src/lsp_utils.rs:6-9 [lsp_pos_to_offset].  usize is modelled as
    unbounded: [char + pos.character] cannot overflow a 64-bit usize. *)
Definition lsp_pos_to_offset (t : rope) (pos : position_) : option nat :=
  obind (try_line_to_char t (p_line pos)) (fun c => Some (c + p_char pos)).

(** src/lsp_utils.rs:11-19 [offset_to_lsp_pos].  The argument is used as a
    byte offset.  The subtraction at line 14 cannot underflow: [first] is the
    first character of the line containing the byte. *)
Definition offset_to_lsp_pos (t : rope) (p : nat) : option position_ :=
  obind (try_byte_to_line t p) (fun line =>
  obind (try_line_to_char t line) (fun first =>
  obind (try_byte_to_char t p) (fun c =>
  let character := c - first in
  if fits_u32 line && fits_u32 character then Some (mkPos line character) else None))).

(** src/lsp_utils.rs:21-26 [range_to_lsp] *)
Definition range_to_lsp (t : rope) (sp : span) : option range_ :=
  obind (offset_to_lsp_pos t (sp_start sp)) (fun a =>
  obind (offset_to_lsp_pos t (sp_end sp)) (fun b => Some (mkRange a b))).
