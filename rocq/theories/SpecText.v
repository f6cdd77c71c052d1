(** Specification of LSP positions (LSP 3.17, "Text Documents" and
    "Position"), independent of the model of ropey and of src/lsp_utils.rs. *)
From Verif Require Import Text Rope.

(** LSP end-of-line characters: LF, CR LF and lone CR.  [c] followed by
    [rest] completes a line end. *)
Definition lsp_eol (c : char) (rest : text) : bool :=
  (c =? LF)%N || ((c =? CR)%N && match rest with d :: _ => negb (d =? LF)%N | [] => true end).

(** Walk over the first [p] characters counting lines and UTF-16 units. *)
Fixpoint lsp_scan (t : text) (p : nat) (line col : nat) : position_ :=
  match p, t with
  | S p', c :: r => if lsp_eol c r then lsp_scan r p' (S line) 0
                    else lsp_scan r p' line (col + utf16_len c)
  | _, _ => mkPos line col
  end.

(** The LSP position of the [p]-th character of [t]. *)
Definition lsp_position (t : text) (p : nat) : position_ := lsp_scan t p 0 0.

(** Number of lines of a document. *)
Fixpoint lsp_line_ends (t : text) : nat :=
  match t with
  | [] => 0
  | c :: r => (if lsp_eol c r then 1 else 0) + lsp_line_ends r
  end.
Definition lsp_lines (t : text) : nat := S (lsp_line_ends t).

(** Document order of positions. *)
Definition pos_le (a b : position_) : Prop :=
  p_line a < p_line b \/ (p_line a = p_line b /\ p_char a <= p_char b).

(** Documents on which counting characters and ropey's line ends agree with
    LSP: only LF and CR as line-end characters, no character outside the basic
    multilingual plane. *)
Definition lsp_plain_char (c : char) : bool :=
  negb ((c =? VT) || (c =? FF) || (c =? 133) || (c =? 8232) || (c =? 8233))%N
  && (c <? 65536)%N.
Definition lsp_plain (t : text) : bool := forallb lsp_plain_char t.

(** Documents below 4 GiB (all line and column numbers fit into u32). *)
Definition small (t : text) : Prop := (N.of_nat (length t) < U32)%N.

(** Byte [b] of [t] lies in the character with index [i] ([b] may be the end). *)
Definition byte_in_char (t : text) (b i : nat) : Prop :=
  (exists pre c post, t = pre ++ c :: post /\ i = length pre /\
                      byte_len pre <= b < byte_len pre + utf8_len c)
  \/ (b = byte_len t /\ i = length t).

(** The Unicode line-end convention: as LSP, plus VT, FF, NEL, LS, PS. *)
Definition unicode_eol (c : char) (rest : text) : bool :=
  lsp_eol c rest || ((c =? VT) || (c =? FF) || (c =? 133) || (c =? 8232) || (c =? 8233))%N.

(** Position counting Unicode line ends and characters. *)
Fixpoint unicode_scan (t : text) (p : nat) (line col : nat) : position_ :=
  match p, t with
  | S p', c :: r => if unicode_eol c r then unicode_scan r p' (S line) 0
                    else unicode_scan r p' line (S col)
  | _, _ => mkPos line col
  end.
Definition unicode_position (t : text) (p : nat) : position_ := unicode_scan t p 0 0.

Fixpoint unicode_line_ends (t : text) : nat :=
  match t with
  | [] => 0
  | c :: r => (if unicode_eol c r then 1 else 0) + unicode_line_ends r
  end.
Definition unicode_lines (t : text) : nat := S (unicode_line_ends t).

(** The lines of a document without their line ends. *)
Fixpoint lsp_split (t : text) : list text :=
  match t with
  | [] => [[]]
  | c :: r =>
      if lsp_eol c r then [] :: lsp_split r
      else if (c =? CR)%N then lsp_split r     (* CR of a CR LF: not part of the line *)
      else match lsp_split r with
           | l :: ls => (c :: l) :: ls
           | [] => [[c]]
           end
  end.
