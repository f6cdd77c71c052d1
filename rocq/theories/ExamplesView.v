(** Documents for the examples of PropertiesView.v. *)
From Verif Require Import Text Rope Chumsky Tokenizer Parser Numbers Index SemTok Diag Rename Cfg Backtrace Server SpecText SpecIndex SpecDiag SpecBacktrace SpecCfg SpecView ExamplesIndex ExamplesCfg.

(** a root with all files, ordered back to front; external definition of @f *)
Definition root8 : url := mkUrl (str "file://") [str "w"] true.
Definition env8 : env := mkEnv u0 Debug (fun m => rev m) (fun _ => Some true) (fun x => url_base x) (fun _ => None) (fun _ => None) (fun l => l).
Definition doc_of (e : env) (src : text) : doc := match analyze e (str "f") src with Val (d, _) => d | Panic => mkDoc [] [] [] index_empty end.
Definition d8 : doc := doc_of env8 doc1.
Definition s8 : server := mkServer [root8] false [(str "f", d8)].
Lemma opened8 : plain_document doc1 /\ visits_all (e_ord env8) /\ opened env8 s8 (str "f") doc1 d8 /\ can_resolve (roots s8).
Proof.
  split; [split; [|split]; vm_compute; reflexivity|]. split; [intros m; apply Permutation_sym, Permutation_rev|].
  split; [|intros r [<-|[]]; reflexivity].
  split; [reflexivity|]. exists (match analyze env8 (str "f") doc1 with Val (_, ds) => ds | Panic => [] end). vm_compute. reflexivity.
Qed.
(** the lines of external definitions are those of all annotations *)
Definition all_lines (ss : list statement) : list N :=
  flat_map (fun s => match s with
    | SDbgAnnotation _ [(TStr v, _)] => match parse_file_line v with Some (_, n) => [n] | None => [] end
    | _ => [] end) ss.
Lemma ext_all_lines f x : forall ss pre, In x (ext_defs pre ss f) -> In (ext_line x) (all_lines ss).
Proof.
  induction ss as [|s ss IH]; intros pre H; [contradiction|]. cbn [ext_defs] in H. apply in_app_or in H as [H|H]; [|apply in_or_app; right; eapply IH; exact H].
  apply in_or_app. left. unfold stmt_ext in H. destruct s as [| | | |n [|[[] ?] [|? ?]]]; try contradiction.
  destruct (decl_for _ _); [|contradiction]. destruct (parse_file_line _) as [[? ?]|]; [|contradiction]. destruct (text_eqb _ _); [|contradiction].
  destruct H as [<-|[]]. left. reflexivity.
Qed.
Lemma lines8 : lines_from_1 (doc_stmts d8).
Proof.
  intros f x H. apply ext_all_lines in H. assert (all_lines (doc_stmts d8) = [7%N]) as E by (vm_compute; reflexivity). rewrite E in H.
  destruct H as [<-|[]]. discriminate.
Qed.
(** a link to line 0 *)
Definition doc9 : text := quoted (str "declare void @f() = 0x1f !d1
!d1 = 'foo.cpp:0'").
Definition d9 : doc := doc_of env8 doc9.
Definition s9 : server := mkServer [root8] false [(str "f", d9)].
Lemma line0_panic : exists e s uri src d p, plain_document src /\ opened e s uri src d /\ can_resolve (roots s) /\ p <= length src /\
  goto_definition e s uri (lsp_position src p) = Panic.
Proof.
  exists env8, s9, (str "f"), doc9, d9, 14. split; [split; [|split]; vm_compute; reflexivity|]. split.
  { split; [reflexivity|]. exists (match analyze env8 (str "f") doc9 with Val (_, ds) => ds | Panic => [] end). vm_compute. reflexivity. }
  split; [intros r [<-|[]]; reflexivity|]. split; [vm_compute; lia|]. vm_compute. reflexivity.
Qed.

(** counts of collapsed functions *)
Lemma labelled5 : exists f, nth_error (function_defs (doc_stmts d5)) 0 = Some f /\ well_labelled (snd f).
Proof.
  destruct (nth_error (function_defs (doc_stmts d5)) 0) as [f|] eqn:E; vm_compute in E; [|discriminate]. exists f. split; [reflexivity|].
  injection E as <-. exists [str "a"; str "b"]. cbn [snd fb_blocks]. split; [|split].
  - constructor; [eexists; split; reflexivity|]. constructor; [eexists; split; reflexivity|]. constructor.
  - constructor; [intros [H|[]]; discriminate H|]. constructor; [intros []|]. constructor.
  - intros n (b & Hb & H). destruct Hb as [<-|[<-|[]]]; destruct H as [(l & El & <-)|(i & r & Hi & Hr & <-)].
    + injection El as <-. left. reflexivity.
    + destruct Hi as [<-|[]]. destruct Hr as [<-|[]]. right. left. reflexivity.
    + injection El as <-. right. left. reflexivity.
    + destruct Hi as [<-|[]]. destruct Hr as [<-|[<-|[]]]; [left|right; left]; reflexivity.
Qed.
Definition src10 : text := str "define void @h() {
  br int1 %x, b, c
}".
Definition view_server (src : text) : server := mkServer [] false [(str "f", doc_of env8 src)].
Lemma unlabelled_count : exists e s uri src d f x, plain_document src /\ opened e s uri src d /\
  function_defs (doc_stmts d) = [f] /\ length (fb_blocks (snd f)) = 2 /\
  option_map (firstn 1) (folding_range s uri) = Some [x] /\ fo_text x = str "1 basic blocks".
Proof.
  exists env8, (view_server src7), (str "f"), src7, (doc_of env8 src7), (hd (mkSig [] ([], mkSpan 0 0) ([], mkSpan 0 0) [], mkBody (mkSpan 0 0) (mkSpan 0 0) []) (function_defs (doc_stmts (doc_of env8 src7)))).
  exists (mkFold 0 4 (str "1 basic blocks")). split; [split; [|split]; vm_compute; reflexivity|]. split.
  { split; [reflexivity|]. exists (match analyze env8 (str "f") src7 with Val (_, ds) => ds | Panic => [] end). vm_compute. reflexivity. }
  split; [vm_compute; reflexivity|]. split; [vm_compute; reflexivity|]. split; vm_compute; reflexivity.
Qed.
Lemma undefined_count : exists e s uri src d f x, plain_document src /\ opened e s uri src d /\
  function_defs (doc_stmts d) = [f] /\ length (fb_blocks (snd f)) = 1 /\
  option_map (firstn 1) (folding_range s uri) = Some [x] /\ fo_text x = str "2 basic blocks".
Proof.
  exists env8, (view_server src10), (str "f"), src10, (doc_of env8 src10), (hd (mkSig [] ([], mkSpan 0 0) ([], mkSpan 0 0) [], mkBody (mkSpan 0 0) (mkSpan 0 0) []) (function_defs (doc_stmts (doc_of env8 src10)))).
  exists (mkFold 0 2 (str "2 basic blocks")). split; [split; [|split]; vm_compute; reflexivity|]. split.
  { split; [reflexivity|]. exists (match analyze env8 (str "f") src10 with Val (_, ds) => ds | Panic => [] end). vm_compute. reflexivity. }
  split; [vm_compute; reflexivity|]. split; [vm_compute; reflexivity|]. split; vm_compute; reflexivity.
Qed.
