(** Property theorems C83: what is read of a document with errors. *)
From Verif Require Import Text Chumsky Tokenizer Parser SpecParse SpecExact SpecSalvage PSalvage ExamplesIndex ExamplesSalvage.

(** C83 *)
Theorem C83_exact : forall src toks o n,
  (exists errs, parse_tokens src toks = Val (o, errs) /\ length errs = n) <-> salvage (without_comments toks) o n.
Proof. exact parse_salvage. Qed.
Print Assumptions C83_exact.
Theorem C83_unique : forall toks o n o' n', salvage toks o n -> salvage toks o' n' -> o = o' /\ n = n'.
Proof. exact salvage_unique. Qed.
Print Assumptions C83_unique.
Theorem C83_total : forall toks, exists o n, salvage toks o n.
Proof. exact salvage_total. Qed.
Print Assumptions C83_total.
Theorem C83_document : forall u src pr, parse_from_str u src = Val pr ->
  exists toks lerrs, tokenize u src = Val (toks, lerrs) /\
    match toks with
    | Some ts => exists o n, salvage (without_comments ts) o n /\ pr_stmts pr = match o with Some ss => ss | None => [] end /\
        length (pr_errors pr) = length lerrs + n
    | None => pr_stmts pr = [] /\ length (pr_errors pr) = length lerrs
    end.
Proof. exact document_salvage. Qed.
Print Assumptions C83_document.
(** Documents without errors are those of C63. *)
Theorem C83_clean : forall toks ss, salvage (without_comments toks) (Some ss) 0 <-> module_at ss (without_comments toks).
Proof. exact salvage_clean. Qed.
Print Assumptions C83_clean.
Theorem C83_errors : forall src toks o errs, parse_tokens src toks = Val (o, errs) -> length errs <= length (without_comments toks).
Proof. exact parse_few. Qed.
Print Assumptions C83_errors.
Example C83_ex : tokenize u0 torn = Val (Some (toks_of torn), []) /\
  exists x d kw sig body, salvage (without_comments (toks_of torn)) (Some [SGlobalVar x d; SFuncDef kw sig body]) 2 /\ fst x = str "@q" /\
  exists b i, fb_blocks body = [b] /\ bb_instrs b = [i] /\ map fst (i_refs i) = [str "a"; str "b"].
Proof. exact (conj torn_toks torn_left). Qed.
Example C83_lost_ex : tokenize u0 torn_end = Val (Some (toks_of torn_end), []) /\ salvage (without_comments (toks_of torn_end)) None 3.
Proof. exact (conj torn_end_toks torn_lost). Qed.
