(** The errors of documents with several of them. *)
From Verif Require Import Text Chumsky Tokenizer Parser SpecParse SpecExact SpecFault SpecDiag SpecViable SpecSalvage SpecStuck PStuck ExamplesIndex ExamplesSalvage.

Definition errs_of (t : text) : list (simple token) := match parse_tokens t (toks_of t) with Val (_, es) => es | _ => [] end.
Lemma torn_parse : parse_tokens torn (toks_of torn) = Val (Some (match parse_tokens torn (toks_of torn) with Val (Some l, _) => l | _ => [] end), errs_of torn).
Proof. vm_compute. reflexivity. Qed.
(** the name in the unfinished declaration, then the mnemonic *)
Lemma torn_places : map (@e_span token) (errs_of torn) = [mkSpan 8 10; mkSpan 39 42].
Proof. vm_compute. reflexivity. Qed.
Lemma torn_end_parse : parse_tokens torn_end (toks_of torn_end) = Val (None, errs_of torn_end) /\ length (errs_of torn_end) = 3.
Proof. split; vm_compute; reflexivity. Qed.
(** the last line of [torn_end] is reported where the reading of a statement stopped *)
Lemma torn_end_places : map (@e_span token) (errs_of torn_end) = [mkSpan 8 10; mkSpan 39 42; mkSpan 76 78].
Proof. vm_compute. reflexivity. Qed.
