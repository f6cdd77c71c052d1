(** Property theorems C05-C10: the lexer. *)
From Verif Require Import Text Chumsky Tokenizer SpecLex PTokens PLexSpec PLexProps.

(** C05 *)
Theorem C05_lexer_total : forall u src, exists o errs, tokenize u src = Val (o, errs).
Proof. exact tokenize_total. Qed.
Print Assumptions C05_lexer_total.
(** ... and when it returns nothing it says why: the document is blank, or is
    not a sequence of tokens and garbage runs in front of tokens. *)
Theorem C05_lexer_gives_up : forall u src, (exists errs, tokenize u src = Val (None, errs)) <->
  src <> [] /\ (Forall blank src \/ forall toks n, ~ lexes u 0 src toks n).
Proof. exact tokenize_none. Qed.
Print Assumptions C05_lexer_gives_up.
Example C05_ex : forall u, exists e, tokenize u (str "%x = " ++ [DQUOTE]) = Val (None, [e]).
Proof. intros u. eexists. vm_compute. reflexivity. Qed.

(** C06 *)
Theorem C06_spans : forall u src toks errs, tokenize u src = Val (Some toks, errs) ->
  spans_in 0 (length src) toks.
Proof. exact tokenize_spans. Qed.
Print Assumptions C06_spans.
Example C06_ex : forall u, exists e, tokenize u (str "$ %x=0x1f") =
  Val (Some [(TLocalName (str "%x"), mkSpan 0 4); (TPunct (ch "="), mkSpan 4 5); (THexNum (str "1f"), mkSpan 5 9)], [e]).
Proof. intros u. eexists. vm_compute. reflexivity. Qed.

(** C07 *)
Theorem C07_complete : forall u src toks, tokenize u src = Val (Some toks, []) ->
  (forall tok sp, In (tok, sp) toks -> lexeme u tok (text_at src sp)) /\
  (forall p c, nth_error src p = Some c ->
     blank c \/ exists tok sp, In (tok, sp) toks /\ sp_start sp <= p < sp_end sp).
Proof. exact tokenize_texts. Qed.
Print Assumptions C07_complete.
Theorem C07_token_text : forall u t1 t2 w, lexeme u t1 w -> lexeme u t2 w -> t1 = t2.
Proof. exact lexeme_unique. Qed.
Print Assumptions C07_token_text.
Example C07_ex : forall u, tokenize u (str "ret %a::b # c") =
  Val (Some [(TIdent (str "ret"), mkSpan 0 3); (TLocalName (str "%a::b"), mkSpan 4 9); (TComment, mkSpan 10 13)], []).
Proof. intros u. vm_compute. reflexivity. Qed.
(** With errors the text at a span need not be the token. *)
Theorem C07_with_errors_refuted : exists u src tok sp toks errs,
  tokenize u src = Val (Some ((tok, sp) :: toks), errs) /\ ~ lexeme u tok (text_at src sp).
Proof. exact recovery_span_witness. Qed.
Print Assumptions C07_with_errors_refuted.

(** C08 *)
Theorem C08_grammar : forall u src toks, tokenize u src = Val (Some toks, []) <->
  lexes u 0 src toks 0 /\ (src = [] \/ ~ Forall blank src).
Proof. exact tokenize_iff. Qed.
Print Assumptions C08_grammar.
(** ... and with [n] errors exactly the texts with [n] garbage runs *)
Theorem C08_grammar_errors : forall u src toks n,
  (exists errs, tokenize u src = Val (Some toks, errs) /\ length errs = n) <->
  (lexes u 0 src toks n /\ (src = [] \/ ~ Forall blank src)).
Proof. exact tokenize_spec. Qed.
Print Assumptions C08_grammar_errors.
Theorem C08_deterministic : forall u i t toks n, lexes u i t toks n ->
  forall toks' n', lexes u i t toks' n' -> toks = toks' /\ n = n'.
Proof. exact lexes_det. Qed.
Print Assumptions C08_deterministic.
Example C08_ex : forall u, lexes u 0 (str "define f") [(TDefine, mkSpan 0 6); (TIdent (str "f"), mkSpan 7 8)] 0.
Proof. intros u. apply C08_grammar. vm_compute. reflexivity. Qed.
(** A document of blanks is accepted by the grammar but rejected. *)
Theorem C08_blank_document_refuted : exists u src, lexes u 0 src [] 0 /\
  exists errs, tokenize u src = Val (None, errs).
Proof. exact blank_document_witness. Qed.
Print Assumptions C08_blank_document_refuted.

(** C09 *)
Theorem C09_recovery : forall u pre toks1 g post tok e toks2,
  full_lines pre -> tokenize u pre = Val (Some toks1, []) ->
  garbage u g post ->
  tokenize u post = Val (Some ((tok, mkSpan 0 e) :: toks2), []) ->
  exists err, tokenize u (pre ++ g ++ post) =
    Val (Some (toks1 ++ (tok, mkSpan (length pre) (length pre + length g + e))
                     :: map (shift_tok (length pre + length g)) toks2), [err]).
Proof. exact recovery. Qed.
Print Assumptions C09_recovery.
Example C09_ex : forall u, let pre := str "x" ++ [LF] in
  full_lines pre /\ (exists toks, tokenize u pre = Val (Some toks, [])) /\ garbage u (str "$") (str "%y z") /\
  tokenize u (str "%y z") = Val (Some [(TLocalName (str "%y"), mkSpan 0 2); (TIdent (str "z"), mkSpan 3 4)], []).
Proof.
  intros u. split; [right; exists (str "x"); reflexivity|]. split; [eexists; vm_compute; reflexivity|].
  split; [apply garbage_dollar | vm_compute; reflexivity].
Qed.
(** Garbage at the end loses every token, for every document. *)
Theorem C09_trailing_garbage : forall u pre toks1 g,
  full_lines pre -> tokenize u pre = Val (Some toks1, []) -> garbage u g [] ->
  exists errs, tokenize u (pre ++ g) = Val (None, errs).
Proof. exact trailing_garbage. Qed.
Print Assumptions C09_trailing_garbage.
Theorem C09_trailing_garbage_refuted : exists u pre toks g,
  tokenize u pre = Val (Some toks, []) /\ toks <> [] /\ garbage u g [] /\
  exists errs, tokenize u (pre ++ g) = Val (None, errs).
Proof. exact trailing_garbage_witness. Qed.
Print Assumptions C09_trailing_garbage_refuted.

(** C10 *)
Theorem C10_print_relex : forall u l,
  Forall (fun x => lexeme u (fst x) (snd x)) l -> comments_end_lines l ->
  exists toks, tokenize u (print_tokens l) = Val (Some toks, []) /\ map fst toks = map fst l.
Proof. exact print_relex. Qed.
Print Assumptions C10_print_relex.
Example C10_ex : forall u, let l := [(TStr (str "a b"), [DQUOTE] ++ str "a b" ++ [DQUOTE]); (TComment, str "#x"); (TNewline, [LF])] in
  Forall (fun x => lexeme u (fst x) (snd x)) l /\ comments_end_lines l.
Proof.
  intros u. split; [|cbn; auto]. constructor; [|constructor; [|constructor; [|constructor]]].
  - apply (lx_str u (str "a b")). cbn. intros H. intuition discriminate.
  - apply (lx_comment u (str "x")). cbn. intros H. intuition discriminate.
  - apply lx_newline. left. reflexivity.
Qed.
