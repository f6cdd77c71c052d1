(** Property theorems C63 and C26 at the level of tokens: the parser accepts
    exactly the grammar. *)
From Verif Require Import Text Chumsky Tokenizer Parser SpecParse SpecExact PExact ExamplesExact.

(** C63 *)
Theorem C63_exact : forall src toks ss,
  parse_tokens src toks = Val (Some ss, []) <-> module_at ss (without_comments toks).
Proof. exact parse_exact. Qed.
Print Assumptions C63_exact.
Theorem C63_document : forall u src toks ss,
  parse_from_str u src = Val (mkPR toks ss []) <->
  tokenize u src = Val (Some toks, []) /\ module_at ss (without_comments toks).
Proof. exact document_exact. Qed.
Print Assumptions C63_document.
Theorem C63_unique : forall toks ss ss', module_at ss toks -> module_at ss' toks -> ss = ss'.
Proof. exact exact_unique. Qed.
Print Assumptions C63_unique.
Theorem C63_rejects : forall src toks,
  (exists o errs, parse_tokens src toks = Val (o, errs) /\ errs <> []) <->
  ~ exists ss, module_at ss (without_comments toks).
Proof. exact parse_rejects. Qed.
Print Assumptions C63_rejects.
Example C63_ex : exists toks ss, parse_from_str u15 doc15 = Val (mkPR toks ss []) /\ length toks = 58 /\ length ss = 1.
Proof. do 2 eexists. split; [exact parsed15_ok|]. split; vm_compute; reflexivity. Qed.
Example C63_rejects_ex : tokenize u15 doc16 = Val (Some toks16, []) /\ ~ exists ss, module_at ss (without_comments toks16).
Proof. exact rejected16. Qed.

(** C26: the targets of an instruction are missing exactly if no reading of
    what is written there has any. *)
Theorem C26_unreadable : forall src toks ss, parse_tokens src toks = Val (Some ss, []) ->
  forall kw sig body b i, In (SFuncDef kw sig body) ss -> In b (fb_blocks body) -> In i (bb_instrs b) ->
  exists before st q, without_comments toks = before ++ st /\ st = tident (i_instr i) :: q /\
    (exists f rest, reads f (i_instr i) (i_refs i) (i_dbg i) st rest /\ preferred f st) /\
    (i_refs i = [] <-> forall f m refs dbg rest, reads f m refs dbg st rest -> refs = []).
Proof. exact instruction_reading. Qed.
Print Assumptions C26_unreadable.
Example C26_unreadable_ex : refs15 = [[]; [str "a"]; []; [str "a"; str "b"]; []; [str "a"; str "b"]].
Proof. exact refs15_ok. Qed.
