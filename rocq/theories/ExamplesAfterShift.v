(** Examples for PropertiesAfterShift.v. *)
From Verif Require Import Text Rope Chumsky Tokenizer Parser Numbers Index SemTok Diag Rename Cfg Backtrace Server SpecText SpecLex SpecParse SpecIndex SpecDiag SpecBacktrace SpecNumbers SpecCfg SpecView SpecSemTok SpecRename SpecPatch SpecSimilar SpecRebind SpecSteps SpecComment SpecAfter SpecAfterShift
  ExamplesIndex ExamplesCfg ExamplesView ExamplesRename ExamplesPatch ExamplesRebind ExamplesLabel ExamplesUndo ExamplesSteps ExamplesSum ExamplesComment.

(** doc10 with the numbers from 2 on moved by 3; %4 is not defined *)
Definition edits87 : list text_edit := edits_of (rename env8 s10 (str "f") (lsp_position doc10 30) (str "+3")).
Lemma patched87 : patched doc10 edits87 = doc10_moved.
Proof. vm_compute. reflexivity. Qed.
Lemma shifting87 : shifting env8 s10 (str "f") doc10 d10 (pr_of doc10) 30 o10 (str "+3") 3 2 edits87.
Proof.
  destruct opened10 as (H1 & _ & H2). destruct o10_ok as (H3 & H4 & H5 & H6 & H7). destruct zeros10 as [H8 H9].
  split; [exact H1|]. split; [exact H2|]. split; [vm_compute; reflexivity|]. split; [vm_compute; reflexivity|]. split; [exact H3|]. split; [exact H4|]. split; [exact H6|]. split; [lia|]. split; [exact H5|]. split; [exact H7|]. split; [exact H8|].
  split; [discriminate|]. split; [exact H9|]. split; [vm_compute; reflexivity|]. rewrite patched87. exact (proj1 opened10m).
Qed.
Lemma opened87 : opened env8 (with_doc doc10_moved) (str "f") (patched doc10 edits87) (doc_of env8 doc10_moved).
Proof. rewrite patched87. exact (proj2 opened10m). Qed.
Lemma analyzed87 : analyze env8 (str "f") doc10 = Val (d10, diags_of doc10) /\ analyze env8 (str "f") (patched doc10 edits87) = Val (doc_of env8 doc10_moved, diags_of doc10_moved).
Proof. rewrite patched87. split; vm_compute; reflexivity. Qed.
Lemma shown87 : map (fun x => (r_start (d_range x), d_message x)) (diags_of doc10) = [(mkPos 3 16, str "Use of undefined symbol `%4`")] /\
  map (fun x => (r_start (d_range x), d_message x)) (diags_of doc10_moved) = [(mkPos 3 16, str "Use of undefined symbol `%7`")].
Proof. split; vm_compute; reflexivity. Qed.
