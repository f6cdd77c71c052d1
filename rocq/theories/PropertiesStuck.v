(** Property theorems C84: where the errors of a document are. *)
From Verif Require Import Text Chumsky Tokenizer Parser SpecParse SpecExact SpecFault SpecDiag SpecViable SpecSalvage SpecStuck PStuck ExamplesIndex ExamplesSalvage ExamplesStuck.

(** C84 *)
Theorem C84_every : forall src toks o errs, parse_tokens src toks = Val (o, errs) ->
  faulty (mkSpan (byte_len src) (byte_len src + 1)) [] (without_comments toks) o errs.
Proof. exact parse_faulty. Qed.
Print Assumptions C84_every.
(** The same description as in C83, with the errors instead of their number. *)
Theorem C84_salvage : forall eoi starts toks o errs, faulty eoi starts toks o errs -> salvage toks o (length errs).
Proof. exact faulty_salvage. Qed.
Print Assumptions C84_salvage.
Theorem C84_document : forall u src pr, parse_from_str u src = Val pr ->
  exists toks lerrs, tokenize u src = Val (toks, lerrs) /\
    match toks with
    | Some ts => exists o errs, faulty (mkSpan (byte_len src) (byte_len src + 1)) [] (without_comments ts) o errs /\ pr_stmts pr = match o with Some ss => ss | None => [] end /\
        pr_errors pr = map (simple_map (fun c => [c])) lerrs ++ map (simple_map token_display) errs
    | None => pr_stmts pr = [] /\ pr_errors pr = map (simple_map (fun c => [c])) lerrs
    end.
Proof. exact document_faulty. Qed.
Print Assumptions C84_document.
(** Each error by itself: no statement can be read at some place, and whatever
    comes behind the marked token cannot change that; or the mnemonic of an
    instruction that was read is marked. *)
Theorem C84_each : forall eoi starts toks o errs, faulty eoi starts toks o errs -> forall e, In e errs ->
  (exists st, (exists p, toks = p ++ st) /\ unreadable st /\ exists a y, st = a ++ y /\ about eoi y e /\ hopeless_at a y) \/
  (exists st s n rest i, (exists p, toks = p ++ st) /\ next st s n rest /\ In i (instructions [s]) /\ e_span e = snd (i_instr i) /\ faults_name (fst (i_instr i)) e).
Proof. exact stuck_from. Qed.
Print Assumptions C84_each.
Example C84_ex : parse_tokens torn (toks_of torn) = Val (Some (match parse_tokens torn (toks_of torn) with Val (Some l, _) => l | _ => [] end), errs_of torn) /\
  map (@e_span token) (errs_of torn) = [mkSpan 8 10; mkSpan 39 42].
Proof. exact (conj torn_parse torn_places). Qed.
Example C84_lost_ex : (parse_tokens torn_end (toks_of torn_end) = Val (None, errs_of torn_end) /\ length (errs_of torn_end) = 3) /\
  map (@e_span token) (errs_of torn_end) = [mkSpan 8 10; mkSpan 39 42; mkSpan 76 78].
Proof. exact (conj torn_end_parse torn_end_places). Qed.
