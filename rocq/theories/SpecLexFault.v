(** Where the lexical errors of a text are. *)
From Verif Require Import Text Chumsky Tokenizer SpecLex.

(** The offsets at which the runs of text that is no token start.  The last run
    may go on to the end of the text. *)
Inductive lex_faults (u : uclass) : nat -> text -> list nat -> Prop :=
| lf_end i bl : Forall blank bl -> lex_faults u i bl []
| lf_token i bl t w r offs : Forall blank bl -> longest u t w r ->
    lex_faults u (i + length bl + length w) r offs ->
    lex_faults u i (bl ++ w ++ r) offs
| lf_run i bl g t w r offs : Forall blank bl -> garbage u g (w ++ r) -> longest u t w r ->
    lex_faults u (i + length bl + length g + length w) r offs ->
    lex_faults u i (bl ++ g ++ w ++ r) (i + length bl :: offs)
| lf_last i bl g : Forall blank bl -> garbage u g [] ->
    lex_faults u i (bl ++ g) [i + length bl].

(** The place that is marked for a run at [off]: the character it starts with.
    A string that is not closed goes on to the end of the text, and a carriage
    return is wrong only because of what follows it. *)
Definition mark_of (src : text) (off : nat) : nat :=
  match nth_error src off with
  | Some c => if (c =? DQUOTE)%N then length src else if (c =? CR)%N then off + 1 else off
  | None => off
  end.

(** The error says "unexpected" at the character [p] of the text (or at its end). *)
Definition marks (src : text) (p : nat) (e : simple char) : Prop :=
  e_reason e = Unexpected /\ e_span e = mkSpan p (p + 1) /\ e_found e = nth_error src p.
