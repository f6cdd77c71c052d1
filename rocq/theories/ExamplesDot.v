(** Documents for the examples of PropertiesDot.v. *)
From Verif Require Import Text Rope Chumsky Tokenizer Parser Numbers Index SemTok Diag Rename Cfg Backtrace Server SpecText SpecParse SpecIndex SpecDiag SpecBacktrace SpecCfg SpecDot ExamplesIndex ExamplesCfg.

(** a function that enters its loop without a label *)
Definition src67 : text := str "define void @h() {
  br a
a:
  return
}".
Definition d67 : doc := match analyze env5 (str "f") src67 with Val (d, _) => d | Panic => mkDoc [] [] [] index_empty end.
Definition s67 : server := mkServer [] false [(str "f", d67)].
Lemma missing_block : exists e s uri src d f title t items bb l,
  plain_document src /\ opened e s uri src d /\ In f (function_defs (doc_stmts d)) /\ defined_once (doc_stmts d) f = true /\
  execute_command s (str "visualize-cfg") [JStr uri; JStr (fst (fs_name (fst f)))] = Reply (mkShow title t) /\ dot_read t = Some items /\
  In bb (fb_blocks (snd f)) /\ bb_label bb = Some l /\ ~ drawn items (fst l) /\
  exists bb' i r, In bb' (fb_blocks (snd f)) /\ In i (bb_instrs bb') /\ branch i /\ In r (i_refs i) /\ fst r = fst l.
Proof.
  exists env5, s67, (str "f"), src67, d67. destruct (function_defs (doc_stmts d67)) as [|f fs] eqn:Ef; [vm_compute in Ef; discriminate|].
  exists f. vm_compute in Ef. injection Ef as <- <-. do 5 eexists.
  split; [split; [|split]; vm_compute; reflexivity|]. split; [split; [reflexivity|eexists; vm_compute; reflexivity]|]. split; [left; reflexivity|].
  split; [vm_compute; reflexivity|]. split; [vm_compute; reflexivity|]. split; [vm_compute; reflexivity|]. split; [right; left; reflexivity|]. split; [reflexivity|]. split.
  - intros [[]|(b & [[]|[]])].
  - do 3 eexists. split; [left; reflexivity|]. split; [left; reflexivity|]. split; [left; exists []; reflexivity|]. split; [left; reflexivity|reflexivity].
Qed.
Lemma shown5 : opened env5 s5 (str "f") src5 d5 /\ exists f, In f (function_defs (doc_stmts d5)) /\ defined_once (doc_stmts d5) f = true /\ fst (fs_name (fst f)) = str "@g".
Proof.
  split; [apply opened5|]. assert (E : exists f fs, function_defs (doc_stmts d5) = f :: fs /\ defined_once (doc_stmts d5) f = true /\ fst (fs_name (fst f)) = str "@g") by (vm_compute; eauto).
  destruct E as (f & fs & E & H). exists f. split; [rewrite E; left; reflexivity|exact H].
Qed.
