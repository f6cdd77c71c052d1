(** C68: what a lexical error marks. *)
From Verif Require Import Text Rope Chumsky Tokenizer Parser Numbers Index SemTok Diag Rename Cfg Backtrace Server SpecText SpecIndex SpecLex SpecDiag SpecLexFault
  PLexPlaces PLexFirst ExamplesIndex ExamplesLexFault.

(** every text has its runs of characters that are no tokens, in one way *)
Theorem C68_runs : forall u src, exists offs, lex_faults u 0 src offs /\ forall offs', lex_faults u 0 src offs' -> offs' = offs.
Proof. exact faults_exist. Qed.
Print Assumptions C68_runs.
(** there is one error for each run, and it marks where the run goes wrong *)
Theorem C68_places : forall u src o errs offs, tokenize u src = Val (o, errs) -> src = [] \/ ~ Forall blank src ->
  lex_faults u 0 src offs -> Forall2 (fun off e => marks src (mark_of src off) e) offs errs.
Proof. exact tokenize_marks. Qed.
Print Assumptions C68_places.
Example C68_places_ex : tokenize u0 src68 = Val (toks68, errs68) /\ (src68 = [] \/ ~ Forall blank src68) /\ lex_faults u0 0 src68 [18; 24; 27; 32] /\
  map (fun e => (e_span e, e_found e)) errs68 =
    [(mkSpan 18 19, Some (ch "$")); (mkSpan 25 26, Some (ch "2")); (mkSpan 33 34, None); (mkSpan 32 33, Some (ch "~"))].
Proof. split; [vm_compute; reflexivity|]. split; [exact nonblank68|]. split; [exact faults68|]. vm_compute. reflexivity. Qed.

(** up to the first error the text can be continued to one without errors; with the marked character it cannot *)
Theorem C68_first : forall u src o e errs, tokenize u src = Val (o, e :: errs) ->
  exists p, p <= length src /\ marks src p e /\
    (exists more toks, tokenize u (firstn p src ++ more) = Val (Some toks, [])) /\
    (p < length src -> forall more o', tokenize u (firstn (S p) src ++ more) <> Val (o', [])).
Proof. exact first_error. Qed.
Print Assumptions C68_first.
Example C68_first_ex : tokenize u0 src68 = Val (toks68, err68 :: tl errs68) /\ e_span err68 = mkSpan 18 19.
Proof. vm_compute. split; reflexivity. Qed.

(** the client is shown the error of each run, at the marked character *)
Theorem C68_shown : forall e uri src d diags, plain_document src -> visits_all (e_ord e) -> analyze e uri src = Val (d, diags) ->
  src = [] \/ ~ Forall blank src ->
  forall offs off, lex_faults (e_u e) 0 src offs -> In off offs -> mark_of src off < length src ->
    exists msg, In (mkDiag (lsp_range src (mkSpan (mark_of src off) (mark_of src off + 1))) msg []) diags.
Proof. exact faults_shown. Qed.
Print Assumptions C68_shown.
Example C68_shown_ex : plain_document src68 /\ visits_all (e_ord env0) /\ analyze env0 (str "f") src68 = Val (d68, diags68) /\
  lex_faults (e_u env0) 0 src68 [18; 24; 27; 32] /\ mark_of src68 24 < length src68 /\ length diags68 = 3.
Proof.
  split; [exact plain68|]. split; [exact ord68|]. split; [vm_compute; reflexivity|]. split; [exact faults68|].
  split; [apply Nat.ltb_lt|]; vm_compute; reflexivity.
Qed.

(** the error of a string that is not closed is not shown *)
Theorem C68_unclosed_refuted : exists e uri src d off offs, plain_document src /\ visits_all (e_ord e) /\ ~ Forall blank src /\
  lex_faults (e_u e) 0 src (off :: offs) /\ analyze e uri src = Val (d, []).
Proof. exact unclosed_witness. Qed.
Print Assumptions C68_unclosed_refuted.
