(** Errors further down. *)
From Verif Require Import Text Chumsky Tokenizer Parser Index Diag SpecLex.

(** The same error, [d] characters further down. *)
Definition move_error {I} (d : nat) (e : simple I) : simple I :=
  mkSimple (shift_span d (e_span e)) (e_reason e) (e_expected e) (e_found e).

(** The same error when [a] is put in front of [b].  What is reported at the
    end of the text moves by the bytes of [a], not by its characters. *)
Definition further {I} (a b : text) (e e' : simple I) : Prop :=
  e' = move_error (length a) e \/ (e_span e = mkSpan (byte_len b) (byte_len b + 1) /\ e' = move_error (byte_len a) e).

(** A report about a branch or a name, not about the syntax. *)
Definition named (x : diagnostic) : Prop := exists n,
  d_message x = str "Failed to extract basic block references from `" ++ n ++ str "` instruction" \/
  d_message x = str "Use of undefined symbol `" ++ n ++ str "`" \/
  d_message x = str "Symbol `" ++ n ++ str "` already defined previously".
