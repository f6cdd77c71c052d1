(** Documents without diagnostics. *)
From Verif Require Import Text Rope Chumsky Tokenizer Parser Numbers Index SemTok Diag Rename Cfg Backtrace Server SpecText SpecBytes SpecLex SpecParse SpecExact SpecIndex SpecDiag SpecBacktrace SpecCfg SpecView SpecForeign SpecFault SpecViable
  PTokens PExact PLexProps PClean ExamplesIndex ExamplesCfg ExamplesView ExamplesSum ExamplesFault.

(** the result of parsing has the tokens, the statements and no mistakes *)
Lemma program_check u src pr : parse_from_str u src = Val pr -> pr_errors pr = [] ->
  undefined_uses (recorded (pr_stmts pr) (pr_tokens pr)) = [] -> redefinitions (recorded (pr_stmts pr) (pr_tokens pr)) = [] -> filter missing_refs (instructions (pr_stmts pr)) = [] -> program u src.
Proof.
  intros P E. destruct pr as [toks ss errs]. cbn [pr_errors pr_stmts pr_tokens] in *. subst errs. pose proof P as Q. apply document_exact in Q as [Q M]. apply tokenize_iff in Q as [L _].
  intros. apply (program_alt _ _ _ P L); auto. left. exact M.
Qed.
Lemma program_not u src toks o e errs : tokenize u src = Val (Some toks, []) -> parse_tokens src toks = Val (o, e :: errs) -> ~ newlines (without_comments toks) -> ~ exists ss, contents ss (without_comments toks).
Proof.
  intros T Q N (ss & [M|[_ M]]); [|contradiction]. apply (parse_exact src) in M. congruence.
Qed.

Definition clean_ : text := str "@v = 1 # caf" ++ [233%N] ++ str "
declare int8 @g(int8 %a)

define void @f(int8 %x) {
entry:
  int8 %y = call @g(%x), @v
  br more
more:
  return %y
}
".
Lemma clean_program : program u0 clean_.
Proof. apply (program_check u0 clean_ (pr66 clean_)); vm_compute; reflexivity. Qed.
Lemma clean_bmp : bmp_document clean_.
Proof. split; vm_compute; reflexivity. Qed.

(** a file with nothing but a comment *)
Definition remark_ : text := str "
# nothing here
".
Lemma remark_program : program u0 remark_ /\ pr_errors (pr66 remark_) <> [].
Proof.
  split; [|vm_compute; discriminate]. apply (program_alt u0 remark_ (pr66 remark_)); try (vm_compute; reflexivity).
  - assert (tokenize u0 remark_ = Val (Some (pr_tokens (pr66 remark_)), [])) as T by (vm_compute; reflexivity). apply tokenize_iff in T. apply T.
  - right. vm_compute. split; [reflexivity|]. repeat constructor.
Qed.

(** a string without its end, and a statement without its end *)
Definition half_token : text := str "@a = ""ab".
Definition half_statement : text := str "# to be continued
declare void".
Lemma half_token_is : unfinished_token u0 half_token.
Proof.
  split.
  - intros (toks & L). assert (tokenize u0 half_token = Val (Some toks, [])) as T by (apply tokenize_iff; split; [exact L|right; intros B; inversion B as [|? ? [K|K] _]; discriminate]). vm_compute in T. discriminate.
  - exists (str """"). eexists. eapply (tokenize_iff u0 (half_token ++ str """")). vm_compute. reflexivity.
Qed.
Lemma half_statement_not : ~ program u0 half_statement.
Proof.
  intros (toks & ss & L & C & _). assert (tokenize u0 half_statement = Val (Some (toks66 half_statement), [])) as T by (vm_compute; reflexivity).
  assert (tokenize u0 half_statement = Val (Some toks, [])) as T2 by (apply tokenize_iff; split; [exact L|right; intros B; inversion B as [|? ? [K|K] _]; discriminate]).
  assert (toks = toks66 half_statement) as -> by congruence. revert C. assert (~ exists ss, contents ss (without_comments (toks66 half_statement))) as N; [|intros C; apply N; eauto].
  apply (program_not u0 half_statement _ (out66 half_statement) (err66 half_statement) (tl (errs66 half_statement)) T); [vm_compute; reflexivity|].
  intros K. vm_compute in K. inversion K as [|? ? _ K2]. inversion K2 as [|? ? K3 _]. discriminate.
Qed.
Lemma half_silent : exists e uri src d, bmp_document src /\ visits_all (e_ord e) /\ analyze e uri src = Val (d, []) /\ ~ program (e_u e) src.
Proof.
  exists env8, (str "f"), half_statement, (doc_of env8 half_statement). split; [split; vm_compute; reflexivity|]. split; [apply opened8|]. split; [vm_compute; reflexivity|exact half_statement_not].
Qed.
