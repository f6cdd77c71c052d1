(** Two words of the same scope in the document of ExamplesRenumber.v. *)
From Verif Require Import Text Rope Chumsky Tokenizer Parser Numbers Index SemTok Diag Rename Cfg Backtrace Server SpecText SpecLex SpecParse SpecIndex SpecDiag SpecView SpecNumbers SpecRename SpecSum SpecWritten SpecRenumber SpecAnywhere
  ExamplesIndex ExamplesView ExamplesSum ExamplesRename ExamplesRenumber.

(** [@v1] and the use of [@v3] inside of the function *)
Lemma far99 : (In (token98 30) (pr_tokens pr98) /\ names_symbol (pr_stmts pr98) (token98 30) /\ covers (snd (token98 30)) (sp_start (snd (token98 30)))) /\ has_number (word (token98 30)) 3 /\ together (pr_stmts pr98) (token98 4) (token98 30).
Proof.
  split; [split; [apply (nth_error_In _ 30); vm_compute; reflexivity|]; split; [|unfold covers; vm_compute; lia]; unfold names_symbol; assert (fst (token98 30) = TGlobalName (str "@v3")) as -> by (vm_compute; reflexivity); exact I|].
  split; [apply number98; [vm_compute; reflexivity|exists (str "@v"); vm_compute; reflexivity]|]. split; vm_compute; reflexivity.
Qed.
(** the parameter [%1] and its use *)
Lemma use99 : (In (token98 28) (pr_tokens pr98) /\ names_symbol (pr_stmts pr98) (token98 28) /\ covers (snd (token98 28)) (sp_start (snd (token98 28)))) /\ has_number (word (token98 28)) 1 /\ together (pr_stmts pr98) (token98 17) (token98 28).
Proof.
  split; [split; [apply (nth_error_In _ 28); vm_compute; reflexivity|]; split; [|unfold covers; vm_compute; lia]; unfold names_symbol; assert (fst (token98 28) = TLocalName (str "%1")) as -> by (vm_compute; reflexivity); exists range98; split; [apply (nth_error_In _ 0); vm_compute; reflexivity|unfold inside; vm_compute; lia]|].
  split; [apply number98; [vm_compute; reflexivity|exists (str "%"); vm_compute; reflexivity]|]. split; vm_compute; reflexivity.
Qed.
(** the labels [bb1] and [bb2], and the branch to [bb1] *)
Definition branch99 (n : nat) : spanned := nth n (label_names (fb_blocks (snd def98))) ([], mkSpan 0 0).
Lemma second99 : (In (branch99 1) (label_names (fb_blocks (snd def98))) /\ covers (snd (branch99 1)) (sp_start (snd (branch99 1)))) /\ has_number (fst (branch99 1)) 2.
Proof. split; [split; [apply (nth_error_In _ 1); vm_compute; reflexivity|unfold covers; vm_compute; lia]|]. apply number98; [vm_compute; reflexivity|exists (str "bb"); vm_compute; reflexivity]. Qed.
Lemma back99 : (In (branch99 3) (label_names (fb_blocks (snd def98))) /\ covers (snd (branch99 3)) (sp_start (snd (branch99 3)))) /\ has_number (fst (branch99 3)) 1.
Proof. split; [split; [apply (nth_error_In _ 3); vm_compute; reflexivity|unfold covers; vm_compute; lia]|]. apply number98; [vm_compute; reflexivity|exists (str "bb"); vm_compute; reflexivity]. Qed.
Lemma shown99 : shifted98 (mkPos 5 20) = [(mkPos 15 0, str "@v6"); (mkPos 2 0, str "@v4"); (mkPos 5 20, str "@v4"); (mkPos 14 8, str "@v4")].
Proof. vm_compute. reflexivity. Qed.
Lemma shown_locals99 : shifted98 (mkPos 3 21) = shifted98 (mkPos 5 16) /\ length (shifted98 (mkPos 3 21)) = 3.
Proof. vm_compute. auto. Qed.
(** the definition of the variable [@f1], which is called like a function, is moved from [@v1], but asking there moves the functions *)
Lemma apart99 : same_space (pr_stmts pr98) (token98 4) (token98 0) = true /\ same_space (pr_stmts pr98) (token98 0) (token98 4) = false /\ ~ In (mkPos 1 0) (map fst (shifted98 (mkPos 0 0))).
Proof. split; [vm_compute; reflexivity|]. split; [vm_compute; reflexivity|]. vm_compute. intros [H|[H|[]]]; discriminate. Qed.
