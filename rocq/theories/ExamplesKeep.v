(** Changes that keep a program a program. *)
From Verif Require Import Text Rope Chumsky Tokenizer Parser Numbers Index SemTok Diag Rename Cfg Backtrace Server SpecText SpecBytes SpecLex SpecParse SpecExact SpecIndex SpecDiag SpecBacktrace SpecNumbers SpecCfg SpecView SpecRename SpecPatch SpecSimilar SpecRebind SpecLayout SpecLines SpecSum SpecForeign SpecFault SpecViable
  PTokens PExact PLexProps PClean PKeep ExamplesIndex ExamplesCfg ExamplesView ExamplesRename ExamplesPatch ExamplesRebind ExamplesLabel ExamplesLayout ExamplesLines ExamplesSum ExamplesFault ExamplesClean.

Lemma program12 : program u0 doc12.
Proof. apply (program_check u0 doc12 (pr66 doc12)); vm_compute; reflexivity. Qed.
Lemma program14 : program u0 (head14 ++ tail14).
Proof. apply (program_check u0 _ (pr66 (head14 ++ tail14))); vm_compute; reflexivity. Qed.
Lemma program_plain : program u0 plain_.
Proof. apply (program_check u0 plain_ (pr66 plain_)); vm_compute; reflexivity. Qed.
Lemma lines12 : full_lines doc12.
Proof. right. exists (removelast doc12). vm_compute. reflexivity. Qed.
Lemma parsed_both : parse_from_str u0 doc12 = Val (pr_of doc12) /\ parse_from_str u0 plain_ = Val (pr_of plain_) /\ pr_errors (pr_of doc12) = [] /\ pr_errors (pr_of plain_) = [].
Proof. split; [vm_compute; reflexivity|]. split; [vm_compute; reflexivity|]. split; vm_compute; reflexivity. Qed.
Lemma strangers x y : In x (tree_occs 0 (pr_stmts (pr_of doc12))) -> In y (tree_occs 0 (pr_stmts (pr_of plain_))) -> o_ud x = Def -> o_ud y = Def -> o_body y = None -> ~ same_symbol y x.
Proof.
  intros Hx Hy _ _ _ (_ & _ & E). vm_compute in Hx, Hy. destruct Hy as [<-|[]]. vm_compute in E. repeat (destruct Hx as [<-|Hx]; [discriminate E|]). destruct Hx.
Qed.
Lemma pieces12 : Forall (good_piece u0) [piece_of doc12; piece_of plain_].
Proof.
  constructor; [split; [exact lines12|split; apply parsed_both]|]. constructor; [split; [exact lines_plain|split; apply parsed_both]|constructor].
Qed.
Lemma whole12 : plain_document (whole [piece_of doc12; piece_of plain_]) /\ program u0 (whole [piece_of doc12; piece_of plain_]).
Proof.
  split; [split; [|split]; vm_compute; reflexivity|].
  apply (program_check u0 _ (pr66 (whole [piece_of doc12; piece_of plain_]))); vm_compute; reflexivity.
Qed.

(** something is said about a document that is no program *)
Lemma program_no e uri src d x l : bmp_document src -> visits_all (e_ord e) -> analyze e uri src = Val (d, x :: l) -> ~ program (e_u e) src.
Proof. intros Hb Hv E G. pose proof (program_silent _ _ _ _ _ Hb Hv G E) as K. discriminate K. Qed.
Definition diag1 (t : text) : diagnostic := hd (mkDiag (mkRange (mkPos 0 0) (mkPos 0 0)) [] []) (diags_of t).
Lemma no_program t : bmp_document t -> analyze env8 (str "f") t = Val (doc_of env8 t, diag1 t :: tl (diags_of t)) -> ~ program u0 t.
Proof. intros Hb E. exact (program_no env8 _ _ _ _ _ Hb (proj1 (proj2 opened12)) E). Qed.
(** to the name of the other label *)
Lemma taken12 : exists e s uri src d p new edits, plain_document src /\ opened e s uri src d /\ p <= length src /\ program (e_u e) src /\
  (exists o, In o (recorded (doc_stmts d) (pr_tokens (pr_of src))) /\ covers (o_span o) p /\ o_kind o = KLabel /\ accepted (e_u e) KLabel new new /\ free_word new /\ plain_word (o_name o) /\ plain_word new) /\
  rename e s uri (lsp_position src p) new = Val (Reply edits) /\ ~ program (e_u e) (patched src edits).
Proof.
  exists env8, s12, (str "f"), doc12, d12, 48, (str "b_2"), (edits_of (rename env8 s12 (str "f") (lsp_position doc12 48) (str "b_2"))).
  split; [apply opened12|]. split; [apply opened12|]. split; [vm_compute; lia|]. split; [exact program12|]. split.
  { exists o12. split; [apply o12_at|]. split; [apply o12_at|]. split; [reflexivity|]. split.
    - exists (ch "b"), (str "_2"). split; [left; reflexivity|]. split; [reflexivity|]. split; [|vm_compute; discriminate]. repeat (apply Forall_cons; [vm_compute; auto|]). apply Forall_nil.
    - split; [split; [discriminate|]; intros t H; unfold reserved in H; cbn [In] in H; repeat (destruct H as [H|H]; [discriminate H|]); exact H|]. split; [apply accepted12|]. split.
      + unfold special_words; cbn [map In]; intros H; repeat (destruct H as [H|H]; [discriminate H|]); exact H.
      + intros (q & E). change (str "br") with ([ch "b"] ++ [ch "r"]) in E. rewrite app_assoc in E. apply (f_equal (fun l => last l 0%N)) in E. rewrite last_last in E. discriminate E. }
  split; [vm_compute; reflexivity|]. apply no_program; [split; vm_compute; reflexivity|vm_compute; reflexivity].
Qed.
(** to a word that means something else, which nobody uses *)
Lemma keyword12 : exists e s uri src d p new edits, plain_document src /\ opened e s uri src d /\ p <= length src /\ program (e_u e) src /\
  (exists o, In o (recorded (doc_stmts d) (pr_tokens (pr_of src))) /\ covers (o_span o) p /\ o_kind o = KLabel /\ accepted (e_u e) KLabel new new /\ forall x, In x (recorded (doc_stmts d) (pr_tokens (pr_of src))) -> o_name x <> new) /\
  rename e s uri (lsp_position src p) new = Val (Reply edits) /\ ~ program (e_u e) (patched src edits).
Proof.
  exists env8, s12, (str "f"), doc12, d12, 48, (str "define"), (edits_of (rename env8 s12 (str "f") (lsp_position doc12 48) (str "define"))).
  split; [apply opened12|]. split; [apply opened12|]. split; [vm_compute; lia|]. split; [exact program12|]. split.
  { exists o12. split; [apply o12_at|]. split; [apply o12_at|]. split; [reflexivity|]. split.
    - exists (ch "d"), (str "efine"). split; [left; reflexivity|]. split; [reflexivity|]. split; [|vm_compute; discriminate]. repeat (apply Forall_cons; [vm_compute; auto|]). apply Forall_nil.
    - intros x Hx E. assert (forallb (fun x => negb (text_eqb (o_name x) (str "define"))) occs12 = true) as G by (vm_compute; reflexivity).
      rewrite forallb_forall in G. specialize (G x Hx). rewrite E in G. discriminate G. }
  split; [vm_compute; reflexivity|]. apply no_program; [split; vm_compute; reflexivity|vm_compute; reflexivity].
Qed.
(** the same document twice *)
Lemma twice12 : exists u a, full_lines a /\ program u a /\ ~ program u (a ++ a).
Proof.
  exists u0, plain_. split; [exact lines_plain|]. split; [exact program_plain|]. apply no_program; [split; vm_compute; reflexivity|vm_compute; reflexivity].
Qed.
