(** Documents for the examples of PropertiesPatch.v. *)
From Verif Require Import Text Rope Chumsky Tokenizer Parser Numbers Index SemTok Diag Rename Cfg Backtrace Server SpecText SpecIndex SpecDiag SpecBacktrace SpecNumbers SpecCfg SpecView SpecRename SpecPatch
  ExamplesIndex ExamplesCfg ExamplesView ExamplesRename.

(** doc10 with %2 renamed to %a_1 *)
Definition doc10_renamed : text := str "define void @g(int1 %1, int1 %a_1) {
  int1 %5 = add %1, %a_1
  int1 %x = add %5, @v
  int1 %y = add %4, @v
}
@v = 5".
(** doc10 with the numbers from 2 on moved by 3 *)
Definition doc10_moved : text := str "define void @g(int1 %1, int1 %5) {
  int1 %8 = add %1, %5
  int1 %x = add %8, @v
  int1 %y = add %7, @v
}
@v = 5".
Definition edits_of (r : res (reply (list text_edit))) : list text_edit := match r with Val (Reply l) => l | _ => [] end.
Lemma patched10 : patched doc10 (edits_of (rename env8 s10 (str "f") (lsp_position doc10 30) (str "a_1"))) = doc10_renamed /\
  patched doc10 (edits_of (rename env8 s10 (str "f") (lsp_position doc10 30) (str "+3"))) = doc10_moved.
Proof. split; vm_compute; reflexivity. Qed.
Lemma accepted10 : accepted (e_u env8) KLocalVar (str "a_1") (str "%a_1") /\ forall b, str "%a_1" <> b ++ [ch ":"].
Proof.
  split.
  - exists (ch "a"), (str "_1"). split; [right; split; [reflexivity|discriminate]|]. split; [reflexivity|].
    split; [|vm_compute; discriminate]. repeat (apply Forall_cons; [vm_compute; auto|]). apply Forall_nil.
  - intros b. change (str "%a_1") with (str "%a_" ++ str "1"). intros E. apply app_inj_tail in E as [_ E]. discriminate E.
Qed.

(** ** What goes wrong *)
Definition tokens_of (src : text) : list (token * span) := match tokenize u0 src with Val (Some l, _) => l | _ => [] end.
Lemma retold_length new l a b : retold new l a b -> length a = length b.
Proof. induction 1; cbn; congruence. Qed.
(** a colon at the end becomes a token of its own *)
Lemma colon_changes_tokens : exists e s uri src d p new final edits toks toks', plain_document src /\ opened e s uri src d /\ p <= length src /\
  (exists o, In o (recorded (doc_stmts d) toks) /\ covers (o_span o) p /\ o_kind o <> KLabel /\ accepted (e_u e) (o_kind o) new final) /\
  rename e s uri (lsp_position src p) new = Val (Reply edits) /\
  tokenize (e_u e) src = Val (Some toks, []) /\ tokenize (e_u e) (patched src edits) = Val (Some toks', []) /\ length toks' <> length toks.
Proof.
  exists env8, s10, (str "f"), doc10, d10, 30, (str "a:"), (str "%a:").
  exists [mkEdit (mkRange (mkPos 0 29) (mkPos 0 31)) (str "%a:"); mkEdit (mkRange (mkPos 1 20) (mkPos 1 22)) (str "%a:")], (tokens_of doc10).
  exists (tokens_of (patched doc10 [mkEdit (mkRange (mkPos 0 29) (mkPos 0 31)) (str "%a:"); mkEdit (mkRange (mkPos 1 20) (mkPos 1 22)) (str "%a:")])).
  split; [apply opened10|]. split; [apply opened10|]. split; [vm_compute; lia|]. split.
  { exists o10. split; [vm_compute; tauto|]. split; [split; vm_compute; lia|]. split; [discriminate|]. exists (ch "a"), (str ":"). split; [right; split; [reflexivity|discriminate]|]. split; [reflexivity|].
    split; [|vm_compute; discriminate]. repeat (apply Forall_cons; [vm_compute; auto|]). apply Forall_nil. }
  split; [vm_compute; reflexivity|]. split; [vm_compute; reflexivity|]. split; [vm_compute; reflexivity|]. vm_compute. discriminate.
Qed.
(** text the lexer skipped in front of a name goes away with it *)
Definition doc11 : text := str "$ @x = 5
".
Definition d11 : doc := doc_of env8 doc11.
Definition s11 : server := mkServer [root8] false [(str "f", d11)].
Lemma opened11 : plain_document doc11 /\ opened env8 s11 (str "f") doc11 d11.
Proof.
  split; [split; [|split]; vm_compute; reflexivity|].
  split; [reflexivity|]. exists (match analyze env8 (str "f") doc11 with Val (_, ds) => ds | Panic => [] end). vm_compute. reflexivity.
Qed.
Lemma garbage_goes : exists e s uri src d p edits errs, plain_document src /\ opened e s uri src d /\ p <= length src /\
  rename e s uri (lsp_position src p) (str "y") = Val (Reply edits) /\
  tokenize (e_u e) src = Val (Some (tokens_of src), errs) /\ src = str "$ @x = 5" ++ [LF] /\ patched src edits = str "@y = 5" ++ [LF].
Proof.
  exists env8, s11, (str "f"), doc11, d11, 3, [mkEdit (mkRange (mkPos 0 0) (mkPos 0 4)) (str "@y")].
  exists (match tokenize u0 doc11 with Val (_, l) => l | _ => [] end).
  split; [apply opened11|]. split; [apply opened11|]. split; [vm_compute; lia|]. split; [vm_compute; reflexivity|]. split; [vm_compute; reflexivity|]. split; vm_compute; reflexivity.
Qed.
