(** Examples for PropertiesUndo.v. *)
From Verif Require Import Text Rope Chumsky Tokenizer Parser Numbers Index SemTok Diag Rename Cfg Backtrace Server SpecText SpecLex SpecParse SpecIndex SpecDiag SpecBacktrace SpecNumbers SpecCfg SpecView SpecRename SpecPatch SpecSimilar SpecRebind
  ExamplesIndex ExamplesCfg ExamplesView ExamplesRename ExamplesPatch ExamplesRebind ExamplesLabel.

(** the server with a document of its own *)
Definition with_doc (src : text) : server := mkServer [root8] false [(str "f", doc_of env8 src)].
Lemma accepted12_back : accepted (e_u env8) KLabel (str "a_1") (o_name o12).
Proof.
  exists (ch "a"), (str "_1"). split; [left; reflexivity|]. split; [reflexivity|].
  split; [|vm_compute; discriminate]. repeat (apply Forall_cons; [vm_compute; auto|]). apply Forall_nil.
Qed.
Lemma opened12r : plain_document doc12_renamed /\ opened env8 (with_doc doc12_renamed) (str "f") doc12_renamed (doc_of env8 doc12_renamed).
Proof.
  split; [split; [|split]; vm_compute; reflexivity|].
  split; [reflexivity|]. exists (match analyze env8 (str "f") doc12_renamed with Val (_, ds) => ds | Panic => [] end). vm_compute. reflexivity.
Qed.
Lemma opened12m : plain_document doc12_moved /\ opened env8 (with_doc doc12_moved) (str "f") doc12_moved (doc_of env8 doc12_moved).
Proof.
  split; [split; [|split]; vm_compute; reflexivity|].
  split; [reflexivity|]. exists (match analyze env8 (str "f") doc12_moved with Val (_, ds) => ds | Panic => [] end). vm_compute. reflexivity.
Qed.
Lemma opened10m : plain_document doc10_moved /\ opened env8 (with_doc doc10_moved) (str "f") doc10_moved (doc_of env8 doc10_moved).
Proof.
  split; [split; [|split]; vm_compute; reflexivity|].
  split; [reflexivity|]. exists (match analyze env8 (str "f") doc10_moved with Val (_, ds) => ds | Panic => [] end). vm_compute. reflexivity.
Qed.
Definition occs_of (src : text) : list occurrence := SpecIndex.recorded (pr_stmts (pr_of src)) (pr_tokens (pr_of src)).
Definition o12r : occurrence := mkOcc (mkSpan 48 52) Def KLabel (str "loop") (Some 0).
Lemma o12r_at : In o12r (occs_of doc12_renamed) /\ covers (o_span o12r) 48 /\ in_scope o12 o12r /\ o_name o12r = str "loop".
Proof. split; [vm_compute; tauto|]. split; [split; vm_compute; lia|]. split; [split; reflexivity|reflexivity]. Qed.
Definition o10m : occurrence := mkOcc (mkSpan 29 31) Def KLocalVar (str "%5") (Some 0).
Lemma o10m_at : In o10m (occs_of doc10_moved) /\ covers (o_span o10m) 30 /\ in_scope o10 o10m /\ has_number (o_name o10m) 5.
Proof.
  split; [vm_compute; tauto|]. split; [split; vm_compute; lia|]. split; [split; reflexivity|].
  exists (str "%"), (str "5"). split; [|discriminate]. apply (num_digit 53%N ltac:(lia) (str "%")). right. exists [], (ch "%"). split; [reflexivity|cbn; lia].
Qed.
Lemma clean10 : tokenize (e_u env8) doc10 = Val (Some (pr_tokens (pr_of doc10)), []).
Proof. vm_compute. reflexivity. Qed.
Lemma minus3 : asks_shift (str "-3") (- 3).
Proof.
  exists (str "3"), 3%Z. split; [|right; split; reflexivity]. exists (str "3"). split; [discriminate|]. split; [intros c [<-|[]]; vm_compute; split; discriminate|]. split; [lia|]. left. split; reflexivity.
Qed.

(** ** What goes wrong *)
(** the new name of a parameter may be anything, but a number is not accepted back *)
Lemma digits_not_back : exists e s uri src d p new edits s' d' p', plain_document src /\ opened e s uri src d /\ p <= length src /\
  tokenize (e_u e) src = Val (Some (pr_tokens (pr_of src)), []) /\
  (exists o, In o (recorded (pr_stmts (pr_of src)) (pr_tokens (pr_of src))) /\ covers (o_span o) p /\ o_kind o = KLocalVar /\ o_name o = str "%2" /\
     accepted (e_u e) KLocalVar new (str "%a_1") /\ unused (recorded (pr_stmts (pr_of src)) (pr_tokens (pr_of src))) o (str "%a_1")) /\
  rename e s uri (lsp_position src p) new = Val (Reply edits) /\ plain_document (patched src edits) /\ opened e s' uri (patched src edits) d' /\
  (exists o', In o' (recorded (pr_stmts (pr_of (patched src edits))) (pr_tokens (pr_of (patched src edits)))) /\ covers (o_span o') p' /\ o_name o' = str "%a_1") /\
  forall back, without_sigil KLocalVar back (str "2") -> exists m, rename e s' uri (lsp_position (patched src edits) p') back = Val (RpcError m).
Proof.
  exists env8, s10, (str "f"), doc10, d10, 30, (str "a_1"), (edits_of (rename env8 s10 (str "f") (lsp_position doc10 30) (str "a_1"))), (with_doc doc10_renamed), (doc_of env8 doc10_renamed), 30.
  split; [apply opened10|]. split; [apply opened10|]. split; [vm_compute; lia|]. split; [vm_compute; reflexivity|]. split.
  { exists o10. split; [vm_compute; tauto|]. split; [split; vm_compute; lia|]. split; [reflexivity|]. split; [reflexivity|]. split; [apply accepted10|exact unused10]. }
  split; [vm_compute; reflexivity|]. rewrite (proj1 patched10). split; [split; [|split]; vm_compute; reflexivity|]. split.
  { split; [reflexivity|]. exists (match analyze env8 (str "f") doc10_renamed with Val (_, ds) => ds | Panic => [] end). vm_compute. reflexivity. }
  split.
  { exists (mkOcc (mkSpan 29 33) Def KLocalVar (str "%a_1") (Some 0)). split; [vm_compute; tauto|]. split; [split; vm_compute; lia|reflexivity]. }
  intros back [->|[-> _]]; eexists; vm_compute; reflexivity.
Qed.
(** numbers moved down may meet others, and move up together with them *)
Lemma down_not_back : exists e s uri src d p edits s' d' p' edits', plain_document src /\ visits_all (e_ord e) /\ opened e s uri src d /\ p <= length src /\
  tokenize (e_u e) src = Val (Some (pr_tokens (pr_of src)), []) /\
  rename e s uri (lsp_position src p) (str "-1") = Val (Reply edits) /\ plain_document (patched src edits) /\ opened e s' uri (patched src edits) d' /\
  rename e s' uri (lsp_position (patched src edits) p') (str "+1") = Val (Reply edits') /\ map te_range edits <> [] /\ lsp_position (patched src edits) p' = lsp_position src p /\
  patched (patched src edits) edits' <> src.
Proof.
  exists env8, s10, (str "f"), doc10, d10, 43, (edits_of (rename env8 s10 (str "f") (lsp_position doc10 43) (str "-1"))).
  exists (with_doc (patched doc10 (edits_of (rename env8 s10 (str "f") (lsp_position doc10 43) (str "-1"))))), (doc_of env8 (patched doc10 (edits_of (rename env8 s10 (str "f") (lsp_position doc10 43) (str "-1"))))), 43.
  exists (edits_of (rename env8 (with_doc (patched doc10 (edits_of (rename env8 s10 (str "f") (lsp_position doc10 43) (str "-1"))))) (str "f") (lsp_position (patched doc10 (edits_of (rename env8 s10 (str "f") (lsp_position doc10 43) (str "-1")))) 43) (str "+1"))).
  split; [apply opened10|]. split; [apply opened10|]. split; [apply opened10|]. split; [vm_compute; lia|]. split; [vm_compute; reflexivity|]. split; [vm_compute; reflexivity|].
  split; [split; [|split]; vm_compute; reflexivity|]. split.
  { split; [reflexivity|]. exists (match analyze env8 (str "f") (patched doc10 (edits_of (rename env8 s10 (str "f") (lsp_position doc10 43) (str "-1")))) with Val (_, ds) => ds | Panic => [] end). vm_compute. reflexivity. }
  split; [vm_compute; reflexivity|]. split; [vm_compute; discriminate|]. split; [vm_compute; reflexivity|]. vm_compute. discriminate.
Qed.
(** text the lexer skipped does not come back *)
Lemma skipped_not_back : exists e s uri src d p edits s' d' p' edits', plain_document src /\ opened e s uri src d /\ p <= length src /\
  rename e s uri (lsp_position src p) (str "y") = Val (Reply edits) /\ plain_document (patched src edits) /\ opened e s' uri (patched src edits) d' /\
  rename e s' uri (lsp_position (patched src edits) p') (str "x") = Val (Reply edits') /\ src = str "$ @x = 5" ++ [LF] /\ patched (patched src edits) edits' = str "@x = 5" ++ [LF].
Proof.
  exists env8, s11, (str "f"), doc11, d11, 3, (edits_of (rename env8 s11 (str "f") (lsp_position doc11 3) (str "y"))).
  exists (with_doc (patched doc11 (edits_of (rename env8 s11 (str "f") (lsp_position doc11 3) (str "y"))))), (doc_of env8 (patched doc11 (edits_of (rename env8 s11 (str "f") (lsp_position doc11 3) (str "y"))))), 1.
  exists [mkEdit (mkRange (mkPos 0 0) (mkPos 0 2)) (str "@x")].
  split; [apply opened11|]. split; [apply opened11|]. split; [vm_compute; lia|]. split; [vm_compute; reflexivity|]. split; [split; [|split]; vm_compute; reflexivity|]. split.
  { split; [reflexivity|]. exists (match analyze env8 (str "f") (patched doc11 (edits_of (rename env8 s11 (str "f") (lsp_position doc11 3) (str "y")))) with Val (_, ds) => ds | Panic => [] end). vm_compute. reflexivity. }
  split; [vm_compute; reflexivity|]. split; vm_compute; reflexivity.
Qed.
