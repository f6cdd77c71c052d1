(** C80: what a syntax error asks for would be right there. *)
From Verif Require Import Text Chumsky Tokenizer Parser Rope Numbers Index Diag SpecParse SpecFault SpecExact SpecViable SpecSeed SpecHelp PHelpDoc ExamplesIndex ExamplesFault ExamplesHelp.

(** C80: every token that is named can follow, and where the end is named nothing is missing *)
Theorem C80_tokens : forall u src a t w e y, marked u src a t w e -> In (Some y) (e_expected e) -> fits a y.
Proof. exact marked_token. Qed.
Print Assumptions C80_tokens.
Theorem C80_end : forall u src a t w e, marked u src a t w e -> In None (e_expected e) -> finished a.
Proof. exact marked_end. Qed.
Print Assumptions C80_end.
Example C80_tokens_ex : marked u0 tail80 (before66 5 tail80) (at66 5 tail80) (behind66 5 tail80) (err66 tail80) /\
  e_expected (err66 tail80) = [Some TNewline; None; Some (TPunct (ch "="))] /\ length (before66 5 tail80) = 5.
Proof. split; [exact tail_marked|]. vm_compute. split; reflexivity. Qed.

(** C80: in the words of the message, in whatever order it lists them *)
Theorem C80_advice : forall ord u src a t w e, lists_all ord -> marked u src a t w e -> advice a (parser_error_message ord (simple_map token_display e)).
Proof. exact marked_message. Qed.
Print Assumptions C80_advice.
Example C80_advice_ex : lists_all (fun l => l) /\ marked u0 tail80 (before66 5 tail80) (at66 5 tail80) (behind66 5 tail80) (err66 tail80) /\
  say80 tail80 = str "Unexpected token in input, expected \n, end of input, =".
Proof. split; [intros l; reflexivity|]. split; [exact tail_marked|]. vm_compute. reflexivity. Qed.
Example C80_kind_ex : marked u0 type80 (before66 11 type80) (at66 11 type80) (behind66 11 type80) (err66 type80) /\ say80 type80 = str "expected local name".
Proof. split; [exact type_marked|]. vm_compute. reflexivity. Qed.

(** not everything that can follow is named *)
Theorem C80_all_refuted : exists u src a t w e tk sp, marked u src a t w e /\ viable (a ++ [(tk, sp)]) /\ e_reason e = Unexpected /\ ~ In (Some tk) (e_expected e) /\
  parser_error_message (fun l => l) (simple_map token_display e) = str "Unexpected token in input, expected )".
Proof. exact list_witness. Qed.
Print Assumptions C80_all_refuted.
