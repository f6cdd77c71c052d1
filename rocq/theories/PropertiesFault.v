(** C66: what a syntax error says. *)
From Verif Require Import Text Chumsky Tokenizer Parser Rope Numbers Index Diag SpecParse SpecFault SpecExact SpecViable PPlace PHopeless PViableDoc ExamplesIndex ExamplesFault.

(** C66: an error is at a token that is not what it asks for, or at the end *)
Theorem C66_places : forall src toks o errs, parse_tokens src toks = Val (o, errs) ->
  Forall (fault (mkSpan (byte_len src) (byte_len src + 1)) (without_comments toks)) errs.
Proof. exact parse_faults. Qed.
Print Assumptions C66_places.
Theorem C66_says : forall ord src toks o errs, parse_tokens src toks = Val (o, errs) ->
  Forall (fun e => says (mkSpan (byte_len src) (byte_len src + 1)) (without_comments toks) (e_span e) (parser_error_message ord (simple_map token_display e))) errs.
Proof. exact parse_says. Qed.
Print Assumptions C66_says.
Example C66_ex : parse_tokens bad66 (toks66 bad66) = Val (out66 bad66, errs66 bad66) /\
  map (fun e => (e_span e, parser_error_message (fun l => l) (simple_map token_display e))) (errs66 bad66) =
    [(mkSpan 34 35, str "Unexpected token in input, expected )")].
Proof. vm_compute. split; reflexivity. Qed.

(** nothing behind the first error can repair it *)
Theorem C66_hopeless : forall u src a w t e, marked u src a t w e -> tidy (a ++ [t]) -> fst t <> TPunct (ch ",") -> ~ repaired u a t.
Proof. exact hopeless. Qed.
Print Assumptions C66_hopeless.
Example C66_hopeless_ex : marked u0 bad66 (before66 10 bad66) (at66 10 bad66) (behind66 10 bad66) (err66 bad66) /\
  tidy (before66 10 bad66 ++ [at66 10 bad66]) /\ at66 10 bad66 = (TNum (str "5"), mkSpan 34 35).
Proof. exact bad_marked. Qed.

(** what is in front of the first error is right: complete statements and the beginning of another one *)
Theorem C66_viable : forall u src a t w e, marked u src a t w e -> viable a.
Proof. exact marked_viable. Qed.
Print Assumptions C66_viable.
Example C66_viable_ex : marked u0 bad66 (before66 10 bad66) (at66 10 bad66) (behind66 10 bad66) (err66 bad66) /\ length (before66 10 bad66) = 10.
Proof. split; [apply bad_marked|vm_compute; reflexivity]. Qed.

(** an identifier is asked for with "expected global name" *)
Theorem C66_kind_refuted : exists ord u src toks terrs o errs e g, tokenize u src = Val (Some toks, terrs) /\ parse_tokens src toks = Val (o, errs) /\ In e errs /\
  In (TGlobalName g, e_span e) toks /\ parser_error_message ord (simple_map token_display e) = str "expected global name".
Proof. exact global_witness. Qed.
Print Assumptions C66_kind_refuted.
(** a comma in a dependency list is marked for what follows it *)
Theorem C66_comma_refuted : exists u src a t w e, marked u src a t w e /\ tidy (a ++ [t]) /\ repaired u a t.
Proof. exact comma_witness. Qed.
Print Assumptions C66_comma_refuted.
(** a token behind a line that ends with a comma is marked for what follows it *)
Theorem C66_continued_refuted : exists u src a t w e, marked u src a t w e /\ fst t <> TPunct (ch ",") /\ repaired u a t.
Proof. exact open_witness. Qed.
Print Assumptions C66_continued_refuted.
