(** Documents for the examples of PropertiesOptions.v. *)
From Verif Require Import Text Rope Chumsky Tokenizer Parser Numbers Index SemTok Diag Rename Cfg Backtrace Server SpecText SpecParse SpecIndex SpecDiag SpecBacktrace SpecCfg SpecView ExamplesIndex ExamplesCfg ExamplesView ExamplesSum Options SpecOptions.

Definition used85 : text := str "@q = 4
define void @f() {
  foo @q
}
".
Lemma opened85 : plain_document used85 /\ opened env8 (sv used85) (str "f") used85 (doc_of env8 used85).
Proof.
  split; [split; [|split]; vm_compute; reflexivity|]. split; [reflexivity|]. exists (match analyze env8 (str "f") used85 with Val (_, ds) => ds | Panic => [] end). vm_compute. reflexivity.
Qed.
(** the definition in the first line is not among the answers *)
Lemma asked85 : references_request env8 (sv used85) (str "f") (lsp_position used85 32) true = Val (Some [mkLocn (str "f") (mkRange (mkPos 2 6) (mkPos 2 8))]).
Proof. vm_compute. reflexivity. Qed.
Definition def85 : occurrence := mkOcc (mkSpan 0 2) Def KGlobalVar (str "@q") None.
Definition func85 : occurrence := mkOcc (mkSpan 19 21) Def KFunction (str "@f") None.
Definition use85 : occurrence := mkOcc (mkSpan 32 34) Use KGlobalVar (str "@q") None.
Lemma occs85 : recorded (pr_stmts (pr_of used85)) (pr_tokens (pr_of used85)) = [def85; func85; use85].
Proof. vm_compute. reflexivity. Qed.
Lemma place85 : location_of used85 (str "f") (mkSpan 0 2) = mkLocn (str "f") (mkRange (mkPos 0 0) (mkPos 0 2)).
Proof. vm_compute. reflexivity. Qed.
Lemma missing85 : exists e s uri src d p pr r, plain_document src /\ opened e s uri src d /\ p <= length src /\ parse_from_str (e_u e) src = Val pr /\
  references_request e s uri (lsp_position src p) true = Val r /\ ~ reference_answer uri src pr p true r.
Proof.
  exists env8, (sv used85), (str "f"), used85, (doc_of env8 used85), 32, (pr_of used85), (Some [mkLocn (str "f") (mkRange (mkPos 2 6) (mkPos 2 8))]).
  split; [apply opened85|]. split; [apply opened85|]. split; [vm_compute; lia|]. split; [vm_compute; reflexivity|]. split; [exact asked85|].
  intros (o & Ho & [C1 C2] & H). rewrite occs85 in Ho, H. assert (o = use85) as ->.
  { destruct Ho as [<-|[<-|[<-|[]]]]; [exfalso|exfalso|reflexivity]; cbn [def85 func85 o_span sp_end] in C2; lia. }
  assert (In (mkLocn (str "f") (mkRange (mkPos 0 0) (mkPos 0 2))) [mkLocn (str "f") (mkRange (mkPos 2 6) (mkPos 2 8))]) as K.
  { apply H. exists def85. split; [left; reflexivity|]. split; [repeat split|]. split; [right; reflexivity|]. symmetry. exact place85. }
  destruct K as [K|[]]. discriminate.
Qed.
(** hints for the first line of a document *)
Definition line85 : range_ := mkRange (mkPos 0 0) (mkPos 0 5).
Lemma unasked85 : exists e s uri src d r hs h, plain_document src /\ opened e s uri src d /\ inlay_hint_request e s uri r = Val (Some hs) /\ In h hs /\ ~ visible_hint r h.
Proof.
  exists env5, s5, (str "f"), src5, d5, line85, hints5, (nth 0 hints5 (mkHint (mkPos 0 0) [])). split; [apply opened5|]. split; [apply opened5|]. split; [vm_compute; reflexivity|]. split; [apply nth_In; vm_compute; lia|].
  intros [_ H]. assert (ih_pos (nth 0 hints5 (mkHint (mkPos 0 0) [])) = mkPos 1 2) as E by (vm_compute; reflexivity). rewrite E in H. destruct H as [H|[H _]]; cbn in H; lia.
Qed.
(** an annotation in line 2 *)
Lemma crash85 : exists e s uri src d r, plain_document src /\ opened e s uri src d /\ inlay_hint_request e s uri r = Panic /\
  forall i x, In i (all_instructions (doc_stmts d)) -> i_dbg i = Some x -> ~ pos_le (lsp_position src (sp_start (snd x))) (r_end r).
Proof.
  exists env6, s6, (str "f"), src5, d6, line85. split; [split; [|split]; vm_compute; reflexivity|]. split.
  { split; [reflexivity|]. exists (match analyze env6 (str "f") src5 with Val (_, ds) => ds | Panic => [] end). vm_compute. reflexivity. }
  split; [vm_compute; reflexivity|]. intros i x Hi Hx H.
  assert (E : flat_map (fun i => match i_dbg i with Some x => [p_line (lsp_position src5 (sp_start (snd x)))] | None => [] end) (all_instructions (doc_stmts d6)) = [2]) by (vm_compute; reflexivity).
  assert (In (p_line (lsp_position src5 (sp_start (snd x)))) [2]) as K.
  { rewrite <- E. apply in_flat_map. exists i. split; [exact Hi|]. rewrite Hx. left. reflexivity. }
  destruct K as [K|[]]. destruct H as [H|[H _]]; rewrite <- K in H; cbn in H; lia.
Qed.
