(** A document with a part pasted a second time. *)
From Verif Require Import Text Rope Chumsky Tokenizer Parser Numbers Index SemTok Diag Rename Cfg Backtrace Server SpecText SpecLex SpecParse SpecIndex SpecDiag SpecBacktrace SpecCfg SpecView SpecSemTok SpecSum SpecSumView SpecMove SpecPaste
  PDiag ExamplesIndex ExamplesCfg ExamplesView ExamplesSum ExamplesSumView ExamplesMove.

Definition twice96 : text := whole parts91 ++ two91.
Lemma in96 : In (piece_of two91) parts91. Proof. right. left. reflexivity. Qed.
Lemma plain96 : plain_document (whole parts91 ++ pc_text (piece_of two91)).
Proof. split; [|split]; vm_compute; reflexivity. Qed.
Lemma opened96 : opened env13 (sv13 twice96) (str "f") twice96 (doc_of env13 twice96).
Proof. split; [reflexivity|]. exists (diags13 twice96). vm_compute. reflexivity. Qed.
Definition points (l : list diagnostic) : list (nat * text * list nat) := map (fun x => (p_line (r_start (d_range x)), d_message x, map (fun y => p_line (r_start (loc_range (fst y)))) (d_related x))) l.
Lemma points96 : points (diags13 (whole parts91)) = [(2, undef91 (str "@none"), []); (7, again91 (str "%x"), [5])] /\
  points (said_about (str "f") parts91 (piece_of two91)) = [(2, again91 (str "%x"), [0])] /\
  points (diags13 twice96) = [(2, undef91 (str "@none"), []); (14, again91 (str "@g"), [5]); (19, again91 (str "!2"), [10]); (7, again91 (str "%x"), [5]); (16, again91 (str "%x"), [14])].
Proof. split; [|split]; vm_compute; reflexivity. Qed.
Lemma globals96 : map o_name (global_definitions (pr_stmts (pc_result (piece_of two91)))) = [str "@g"; str "!2"].
Proof. vm_compute. reflexivity. Qed.
