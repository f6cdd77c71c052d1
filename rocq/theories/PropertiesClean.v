(** C72: a document without diagnostics is a program, or breaks off at its end. *)
From Verif Require Import Text Rope Chumsky Tokenizer Parser Numbers Index SemTok Diag Rename Cfg Backtrace Server SpecText SpecBytes SpecLex SpecParse SpecExact SpecIndex SpecDiag SpecCfg SpecView SpecForeign SpecFault SpecViable
  PClean ExamplesIndex ExamplesCfg ExamplesView ExamplesSum ExamplesFault ExamplesClean.

(** C72: nothing is said about a program *)
Theorem C72_quiet : forall e uri src d diags, bmp_document src -> visits_all (e_ord e) -> program (e_u e) src -> analyze e uri src = Val (d, diags) -> diags = [].
Proof. exact program_silent. Qed.
Print Assumptions C72_quiet.
Example C72_quiet_ex : bmp_document clean_ /\ visits_all (e_ord env8) /\ program (e_u env8) clean_ /\ analyze env8 (str "f") clean_ = Val (doc_of env8 clean_, []) /\
  length (instructions (doc_stmts (doc_of env8 clean_))) = 3.
Proof. split; [exact clean_bmp|]. split; [apply opened8|]. split; [exact clean_program|]. split; vm_compute; reflexivity. Qed.
(** not even about one in which the parser misses a statement *)
Example C72_remark_ex : bmp_document remark_ /\ program (e_u env8) remark_ /\ pr_errors (pr66 remark_) <> [] /\ analyze env8 (str "f") remark_ = Val (doc_of env8 remark_, []).
Proof. split; [split; vm_compute; reflexivity|]. split; [apply remark_program|]. split; [apply remark_program|]. vm_compute. reflexivity. Qed.

(** C72: where nothing is said there is a program, or the text breaks off *)
Theorem C72_silent : forall e uri src d, bmp_document src -> visits_all (e_ord e) -> analyze e uri src = Val (d, []) ->
  program (e_u e) src \/ unfinished_token (e_u e) src \/ unfinished_statement (e_u e) src.
Proof. exact silent_cases. Qed.
Print Assumptions C72_silent.
Example C72_silent_ex : bmp_document half_token /\ visits_all (e_ord env8) /\ analyze env8 (str "f") half_token = Val (doc_of env8 half_token, []) /\ unfinished_token (e_u env8) half_token.
Proof. split; [split; vm_compute; reflexivity|]. split; [apply opened8|]. split; [vm_compute; reflexivity|exact half_token_is]. Qed.

(** a document that breaks off is not complained about *)
Theorem C72_silent_refuted : exists e uri src d, bmp_document src /\ visits_all (e_ord e) /\ analyze e uri src = Val (d, []) /\ ~ program (e_u e) src.
Proof. exact half_silent. Qed.
Print Assumptions C72_silent_refuted.
