(** Documents whose parts are deleted. *)
From Verif Require Import Text Rope Chumsky Tokenizer Parser Numbers Index SemTok Diag Rename Cfg Backtrace Server SpecText SpecLex SpecParse SpecIndex SpecDiag SpecBacktrace SpecCfg SpecView SpecSemTok SpecSum SpecSumView SpecMove SpecDelete
  PDiag ExamplesIndex ExamplesCfg ExamplesView ExamplesSum ExamplesSumView ExamplesMove.

(** without [@g] and [!2], which the first part uses *)
Definition keep95 (p : piece) : bool := negb (text_eqb (pc_text p) two91).
Definition left95 : text := one91 ++ three91.
Lemma left95_ok : whole (staying keep95 parts91) = left95. Proof. vm_compute. reflexivity. Qed.
Lemma opened95 : opened env13 (sv13 (whole (staying keep95 parts91))) (str "f") (whole (staying keep95 parts91)) (doc_of env13 (whole (staying keep95 parts91))).
Proof. split; [reflexivity|]. exists (diags13 (whole (staying keep95 parts91))). vm_compute. reflexivity. Qed.
Lemma said95 : said (diags13 (whole parts91)) = [(2, undef91 (str "@none")); (7, again91 (str "%x"))] /\ said (diags13 left95) = [(2, undef91 (str "@none")); (2, undef91 (str "@g")); (3, undef91 (str "!2"))] /\
  said (orphans keep95 parts91 (piece_of one91)) = [(2, undef91 (str "@g")); (3, undef91 (str "!2"))].
Proof. split; [|split]; vm_compute; reflexivity. Qed.
Lemma folds95 : places (folds13 (whole parts91)) = [(0, 4); (5, 9); (1, 3); (6, 8)] /\ places (folds13 left95) = [(0, 4); (1, 3)].
Proof. split; vm_compute; reflexivity. Qed.
(** the hint at [br a !2] is lost *)
Lemma hints95 : map ih_pos (hints13 (whole parts91)) = [mkPos 1 2; mkPos 6 2; mkPos 3 9; mkPos 8 9; mkPos 4 1; mkPos 9 1] /\ map ih_pos (hints13 left95) = [mkPos 1 2; mkPos 4 1].
Proof. split; vm_compute; reflexivity. Qed.
Lemma graph95 : execute_command (sv13 left95) (str "visualize-cfg") [JStr (str "f"); JStr (str "@g")] = RpcError (str "function `@g` not found") /\
  exists g, execute_command (sv13 left95) (str "visualize-cfg") [JStr (str "f"); JStr (str "@f")] = Reply g.
Proof. split; [vm_compute; reflexivity|]. eexists. vm_compute. reflexivity. Qed.
Lemma has_functionb p f : existsb (fun x => text_eqb (fst (fs_name (fst x))) f) (function_defs (pr_stmts (pc_result p))) = true -> has_function p f.
Proof. intros H. apply existsb_exists in H as (x & H1 & H2). exists x. split; [exact H1|]. apply text_eqb_eq. exact H2. Qed.
Lemma has95 : In (piece_of two91) (going keep95 parts91) /\ has_function (piece_of two91) (str "@g").
Proof.
  split; [|apply has_functionb; vm_compute; reflexivity].
  apply filter_In. split; [right; left; reflexivity|]. vm_compute. reflexivity.
Qed.
Lemma hasnt95 : forall q, In q (going keep95 parts91) -> ~ has_function q (str "@f").
Proof.
  intros q Hq (x & H1 & H2). assert (N : forallb (fun p => negb (existsb (fun x => text_eqb (fst (fs_name (fst x))) (str "@f")) (function_defs (pr_stmts (pc_result p))))) (going keep95 parts91) = true) by (vm_compute; reflexivity).
  rewrite forallb_forall in N. specialize (N q Hq). apply negb_true_iff in N. assert (existsb (fun x => text_eqb (fst (fs_name (fst x))) (str "@f")) (function_defs (pr_stmts (pc_result q))) = true) as E; [|congruence].
  apply existsb_exists. exists x. split; [exact H1|]. rewrite H2. apply text_eqb_refl.
Qed.
(** ** Without the first part, which nobody uses *)
Definition keep95' (p : piece) : bool := negb (text_eqb (pc_text p) one91).
Definition unusedb (keep : piece -> bool) (ps : list piece) : bool :=
  forallb (fun p => forallb (fun q => forallb (fun o => is_definition o || negb (is_use o) || negb (supplies (pr_stmts (pc_result q)) o)) (recorded (pr_stmts (pc_result p)) (pr_tokens (pc_result p)))) (going keep ps)) (staying keep ps).
Lemma unusedb_ok keep ps : unusedb keep ps = true -> unused keep ps.
Proof.
  intros H p q o Hp Hq Ho Hu. unfold unusedb in H. rewrite forallb_forall in H. specialize (H p Hp). rewrite forallb_forall in H. specialize (H q Hq). rewrite forallb_forall in H. specialize (H o Ho).
  unfold is_definition, is_use in H. rewrite Hu in H. cbn [negb orb] in H. apply negb_true_iff in H. exact H.
Qed.
Lemma unused95 : unused keep95' parts91. Proof. apply unusedb_ok. vm_compute. reflexivity. Qed.
Lemma said95' : said (diags13 (whole (staying keep95' parts91))) = [(2, again91 (str "%x"))]. Proof. vm_compute. reflexivity. Qed.
