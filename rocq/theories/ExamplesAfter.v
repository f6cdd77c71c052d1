(** Examples for PropertiesAfter.v. *)
From Verif Require Import Text Rope Chumsky Tokenizer Parser Numbers Index SemTok Diag Rename Cfg Backtrace Server SpecText SpecLex SpecParse SpecIndex SpecDiag SpecBacktrace SpecNumbers SpecCfg SpecView SpecSemTok SpecRename SpecPatch SpecSimilar SpecRebind SpecSteps SpecComment SpecAfter
  ExamplesIndex ExamplesCfg ExamplesView ExamplesRename ExamplesPatch ExamplesRebind ExamplesLabel ExamplesUndo ExamplesSteps ExamplesSum ExamplesComment.

(** @f is defined twice, %z and @w are not defined *)
Definition doc86 : text := str "define void @f(int1 %a) {
  call @f, %a, @f, %z
}
@v = 5
define void @f() {
  int1 %b = add @v, @w, %b # @f
}
".
Definition doc86_renamed : text := str "define void @run(int1 %a) {
  call @run, %a, @run, %z
}
@v = 5
define void @run() {
  int1 %b = add @v, @w, %b # @f
}
".
Definition o86 : occurrence := mkOcc (mkSpan 12 14) Def KFunction (str "@f") None.
Definition edits86 : list text_edit := edits_of (rename env8 (sv doc86) (str "f") (lsp_position doc86 13) (str "run")).
Lemma patched86 : patched doc86 edits86 = doc86_renamed.
Proof. vm_compute. reflexivity. Qed.
Lemma opened86 : opened env8 (sv doc86) (str "f") doc86 (doc_of env8 doc86) /\ opened env8 (sv doc86_renamed) (str "f") doc86_renamed (doc_of env8 doc86_renamed).
Proof.
  split; (split; [reflexivity|]); [exists (diags_of doc86)|exists (diags_of doc86_renamed)]; vm_compute; reflexivity.
Qed.
Lemma analyzed86 : analyze env8 (str "f") doc86 = Val (doc_of env8 doc86, diags_of doc86) /\ analyze env8 (str "f") (patched doc86 edits86) = Val (doc_of env8 doc86_renamed, diags_of doc86_renamed).
Proof. rewrite patched86. split; vm_compute; reflexivity. Qed.
Lemma unused86 : unused (occs_of doc86) o86 (str "@run").
Proof.
  intros x Hx _ _. assert (forallb (fun x => negb (text_eqb (o_name x) (str "@run"))) (occs_of doc86) = true) as G by (vm_compute; reflexivity).
  rewrite forallb_forall in G. specialize (G x Hx). apply negb_true_iff in G. apply text_eqb_neq. exact G.
Qed.
Lemma proper86 : proper (e_u env8) (pr_of doc86) o86 (str "run") (str "@run").
Proof.
  split.
  { exists (ch "r"), (str "un"). split; [right; split; [reflexivity|intros r; discriminate]|]. split; [reflexivity|]. split; [|vm_compute; discriminate]. repeat (apply Forall_cons; [vm_compute; auto|]). apply Forall_nil. }
  split; [intros b E; assert (last (str "@run") 0%N = ch ":") as Z by (rewrite E; apply last_last); discriminate Z|]. split; [discriminate|].
  intros _ H. destruct H as [H _]. vm_compute in H. discriminate H.
Qed.
Lemma renaming86 : renaming env8 (sv doc86) (str "f") doc86 (doc_of env8 doc86) (pr_of doc86) 13 o86 (str "run") (str "@run") edits86.
Proof.
  split; [split; [|split]; vm_compute; reflexivity|]. split; [apply opened86|]. split; [vm_compute; reflexivity|]. split; [vm_compute; reflexivity|].
  split; [apply (nth_error_In _ 0); vm_compute; reflexivity|]. split; [split; vm_compute; lia|]. split; [exact proper86|]. split; [exact unused86|]. split; [vm_compute; reflexivity|].
  rewrite patched86. split; [|split]; vm_compute; reflexivity.
Qed.
Lemma shown86 : option_map (map ds_name) (document_symbol env8 (sv doc86) (str "f")) = Some [str "@v"; str "@f"; str "@f"] /\
  option_map (map ds_name) (document_symbol env8 (sv doc86_renamed) (str "f")) = Some [str "@v"; str "@run"; str "@run"] /\
  map (fun x => (r_start (d_range x), d_message x)) (diags_of doc86_renamed) <> map (fun x => (r_start (d_range x), d_message x)) (diags_of doc86).
Proof. split; [vm_compute; reflexivity|]. split; [vm_compute; reflexivity|]. vm_compute. discriminate. Qed.
(** a place behind two edits in its line *)
Lemma carried86 : carried edits86 (mkPos 1 19) = mkPos 1 23 /\ carried edits86 (mkPos 3 0) = mkPos 3 0.
Proof. split; vm_compute; reflexivity. Qed.
