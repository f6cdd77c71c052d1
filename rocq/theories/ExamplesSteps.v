(** Examples for PropertiesSteps.v. *)
From Verif Require Import Text Rope Chumsky Tokenizer Parser Numbers Index SemTok Diag Rename Cfg Backtrace Server SpecText SpecLex SpecParse SpecIndex SpecDiag SpecBacktrace SpecNumbers SpecCfg SpecView SpecRename SpecPatch SpecSimilar SpecRebind SpecSteps
  ExamplesIndex ExamplesCfg ExamplesView ExamplesRename ExamplesPatch ExamplesRebind ExamplesLabel ExamplesUndo.

(** the parameter of the function of doc12, to be called %cond *)
Definition o12x : occurrence := mkOcc (mkSpan 20 22) Def KLocalVar (str "%x") (Some 0).
Lemma proper12 : proper (e_u env8) (pr_of doc12) o12 (str "loop") (str "loop") /\ proper (e_u env8) (pr_of doc12) o12x (str "cond") (str "%cond") /\ proper (e_u env8) (pr_of doc12) o12 (str "a_1") (o_name o12).
Proof.
  assert (forall w c b, str w = b ++ [ch ":"] -> last (str w) c = ch ":") as L by (intros w c b ->; apply last_last).
  destruct accepted12 as (A & B & C). split; [|split].
  - split; [exact A|]. split; [exact B|]. split; [intros _; exact C|]. intros [H|H]; discriminate H.
  - split.
    { exists (ch "c"), (str "ond"). split; [right; split; [reflexivity|intros r; discriminate]|]. split; [reflexivity|]. split; [|vm_compute; discriminate]. repeat (apply Forall_cons; [vm_compute; auto|]). apply Forall_nil. }
    split; [intros b E; apply (L _ 0%N) in E; discriminate E|]. split; [discriminate|]. intros [H|H]; discriminate H.
  - split; [exact accepted12_back|]. split; [intros b E; apply (L _ 0%N) in E; discriminate E|]. split; [|intros [H|H]; discriminate H]. intros _. split; [|tauto].
    split; [discriminate|]. intros t H. unfold reserved in H. cbn [In] in H. repeat (destruct H as [H|H]; [discriminate H|]). exact H.
Qed.
Lemma unused12x : unused occs12 o12x (str "%cond").
Proof.
  intros x Hx _ _. assert (forallb (fun x => negb (text_eqb (o_name x) (str "%cond"))) occs12 = true) as G by (vm_compute; reflexivity).
  rewrite forallb_forall in G. specialize (G x Hx). apply negb_true_iff in G. apply text_eqb_neq. exact G.
Qed.
Lemma o12x_at : In o12x occs12 /\ covers (o_span o12x) 21 /\ ~ same_symbol o12 o12x.
Proof. split; [vm_compute; tauto|]. split; [split; vm_compute; lia|]. intros [H _]. discriminate H. Qed.
Definition doc12_cond : text := str "define void @g(int1 %cond) {
  br int1 %cond,a_1,b_2
a_1: # comment
  br b_2
b_2:
  phi [a_1, %cond]
}
".
Definition doc12_both : text := str "define void @g(int1 %cond) {
  br int1 %cond,loop,b_2
loop: # comment
  br b_2
b_2:
  phi [loop, %cond]
}
".
Lemma opened12c : plain_document doc12_cond /\ opened env8 (with_doc doc12_cond) (str "f") doc12_cond (doc_of env8 doc12_cond).
Proof.
  split; [split; [|split]; vm_compute; reflexivity|].
  split; [reflexivity|]. exists (match analyze env8 (str "f") doc12_cond with Val (_, ds) => ds | Panic => [] end). vm_compute. reflexivity.
Qed.
Definition renamed_at (src : text) (p : nat) (new : text) : text := patched src (edits_of (rename env8 (with_doc src) (str "f") (lsp_position src p) new)).
(** the tokens at the same places *)
Lemma same_places12 : counterparts (pr_tokens (pr_of doc12)) (pr_tokens (pr_of doc12_renamed)) (occ_token o12x) (TLocalName (str "%x"), mkSpan 20 22) /\
  counterparts (pr_tokens (pr_of doc12)) (pr_tokens (pr_of doc12_cond)) (occ_token o12) (TIdent (str "a_1"), mkSpan 53 56).
Proof. split; [apply (nth_error_In _ 5)|apply (nth_error_In _ 17)]; vm_compute; reflexivity. Qed.
Lemma orders12 : renamed_at doc12 48 (str "loop") = doc12_renamed /\ renamed_at doc12_renamed 21 (str "cond") = doc12_both /\
  renamed_at doc12 21 (str "cond") = doc12_cond /\ renamed_at doc12_cond 54 (str "loop") = doc12_both.
Proof. repeat split; vm_compute; reflexivity. Qed.
(** a name that is used: the order matters *)
Lemma clash12 : renamed_at (renamed_at doc12 48 (str "b_2")) 69 (str "loop") = str "define void @g(int1 %x) {
  br int1 %x,loop,loop
loop: # comment
  br loop
loop:
  phi [loop, %x]
}
" /\ renamed_at (renamed_at doc12 71 (str "loop")) 48 (str "b_2") = str "define void @g(int1 %x) {
  br int1 %x,b_2,loop
b_2: # comment
  br loop
loop:
  phi [b_2, %x]
}
".
Proof. split; vm_compute; reflexivity. Qed.
