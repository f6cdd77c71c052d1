(** Examples for PropertiesRoom.v. *)
From Verif Require Import Text Rope Chumsky Tokenizer Parser Numbers Index SemTok Diag Rename Cfg Backtrace Server SpecText SpecLex SpecParse SpecIndex SpecDiag SpecBacktrace SpecNumbers SpecCfg SpecView SpecRename SpecPatch SpecSimilar SpecRebind SpecServer SpecRoom
  PNumbers PRename PRebind ExamplesIndex ExamplesCfg ExamplesView ExamplesRename ExamplesPatch ExamplesServer ExamplesRebind.

(** doc10 with the numbers from 2 on moved by 3, and %2 in its place again *)
Definition moved78 : text := patched doc10 (edits_of (rename env8 s10 (str "f") (lsp_position doc10 30) (str "+3"))).
(** a global variable that is numbered like a function *)
Definition doc78 : text := str "@x1 = 5
declare void @x2()
define void @g(int1 %1) {
  int1 %5 = add %1, @x1
}".
Definition s78 : server := mkServer [root8] false [(str "f", doc_of env8 doc78)].
Definition edits78 : list text_edit := edits_of (rename env8 s78 (str "f") (lsp_position doc78 1) (str "+1")).
Lemma captured78 : exists e s uri src d p o edits pr pr', plain_document src /\ visits_all (e_ord e) /\ opened e s uri src d /\ parse_from_str (e_u e) src = Val pr /\
  In o (recorded (pr_stmts pr) (pr_tokens pr)) /\ covers (o_span o) p /\ o_kind o = KGlobalVar /\ asks_shift (str "+1") 1 /\ has_number (o_name o) 1 /\
  rename e s uri (lsp_position src p) (str "+1") = Val (Reply edits) /\ parse_from_str (e_u e) (patched src edits) = Val pr' /\
  (exists x x', In x (recorded (pr_stmts pr') (pr_tokens pr')) /\ In x' (recorded (pr_stmts pr') (pr_tokens pr')) /\ o_kind x = KGlobalVar /\ o_kind x' = KFunction /\ o_span x = o_span x') /\
  ~ bound_alike pr pr'.
Proof.
  exists env8, s78, (str "f"), doc78, (doc_of env8 doc78), 1, (mkOcc (mkSpan 0 3) Def KGlobalVar (str "@x1") None), edits78, (pr_of doc78), (pr_of (patched doc78 edits78)).
  split; [split; [reflexivity|]; split; [vm_compute; reflexivity|]; vm_compute; reflexivity|]. split; [apply opened10|].
  split; [split; [reflexivity|]; exists (match analyze env8 (str "f") doc78 with Val (_, ds) => ds | Panic => [] end); vm_compute; reflexivity|]. split; [vm_compute; reflexivity|]. split; [vm_compute; auto|]. split; [cbn; unfold covers; cbn; lia|]. split; [reflexivity|].
  split; [exists (str "1"), 1%Z; split; [apply parse_i64_iff; reflexivity|left; auto]|].
  split.
  { exists (str "@x"), (str "1"). split; [|unfold max_i64; lia]. split; [reflexivity|]. split; [discriminate|]. split; [intros c [<-|[]]; vm_compute; split; discriminate|]. split; [reflexivity|].
    right. exists (str "@"), (ch "x"). split; [reflexivity|]. unfold ch; cbn; lia. }
  split; [vm_compute; reflexivity|]. split; [vm_compute; reflexivity|]. split.
  - exists (mkOcc (mkSpan 0 3) Def KGlobalVar (str "@x2") None), (mkOcc (mkSpan 0 3) Use KFunction (str "@x2") None). split; [vm_compute; auto|]. split; [vm_compute; auto 12|]. auto.
  - intros ((F & _) & _). apply forall2_len in F. vm_compute in F. discriminate F.
Qed.
Lemma action10 : e_url_parse env11 (str "f") = Some (str "f") /\
  edits_of (rename env11 s11' (str "f") (mkPos 1 7) (str "+1")) = [mkEdit (mkRange (mkPos 1 7) (mkPos 1 9)) (str "%6"); mkEdit (mkRange (mkPos 2 16) (mkPos 2 18)) (str "%6")] /\
  code_action env11 (with_lazy false s11') (str "f") (mkRange (mkPos 1 7) (mkPos 1 7)) =
    Val (Reply (Some [mkCA (str "Shift variable numbering") (ca_data old_action) (Some (str "f", edits_of (rename env11 s11' (str "f") (mkPos 1 7) (str "+1"))))])).
Proof. split; [reflexivity|]. split; vm_compute; reflexivity. Qed.
