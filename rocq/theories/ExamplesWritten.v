(** A document with a name that is written in a broken statement too. *)
From Verif Require Import Text Rope Chumsky Tokenizer Parser Numbers Index SemTok Diag Rename Cfg Backtrace Server SpecText SpecLex SpecParse SpecIndex SpecDiag SpecBacktrace SpecCfg SpecView SpecSum SpecWritten
  ExamplesIndex ExamplesCfg ExamplesView ExamplesSum.

Definition doc92 : text := str "@f = 1
define void @f(int8 %x) {
entry:
  int8 %y = add %x, @f
  br entry
}
define void @g(int8 %x) {
entry:
  br entry
}
declare @f %x
@z = 2
".
Definition pr92 : parser_result := pr_of doc92.
Definition token92 (n : nat) : stoken := nth n (pr_tokens pr92) (TGlobalName [], mkSpan 0 0).
Definition def92 : func_sig * func_body := match function_defs (pr_stmts pr92) with f :: _ => f | [] => (mkSig [] ([], mkSpan 0 0) ([], mkSpan 0 0) [], mkBody (mkSpan 0 0) (mkSpan 0 0) []) end.
Definition lines92 (l : list span) : list position_ := map (fun sp => lsp_position doc92 (sp_start sp)) l.
Lemma plain92 : plain_document doc92.
Proof. split; [|split]; vm_compute; reflexivity. Qed.
Lemma open92 : opened env8 (sv doc92) (str "f") doc92 (doc_of env8 doc92).
Proof. split; [reflexivity|]. exists (diags_of doc92). vm_compute. reflexivity. Qed.
Lemma parse92 : parse_from_str (e_u env8) doc92 = Val pr92.
Proof. vm_compute. reflexivity. Qed.
Lemma broken92 : length (pr_errors pr92) = 1.
Proof. vm_compute. reflexivity. Qed.
(** the function [@f], used as a variable, redefined and in the broken line *)
Lemma name92 : In (token92 0) (pr_tokens pr92) /\ names_symbol (pr_stmts pr92) (token92 0) /\ covers (snd (token92 0)) 1.
Proof. split; [apply (nth_error_In _ 0); vm_compute; reflexivity|]. split; [|unfold covers; vm_compute; lia]. unfold names_symbol. assert (fst (token92 0) = TGlobalName (str "@f")) as -> by (vm_compute; reflexivity). exact I. Qed.
Lemma here92 : lines92 (written (pr_stmts pr92) (pr_tokens pr92) (token92 0)) = [mkPos 0 0; mkPos 1 12; mkPos 3 20; mkPos 10 8].
Proof. vm_compute. reflexivity. Qed.
(** [%x] of the first function *)
Definition range92 : span := nth 0 (flat_map func_ranges (pr_stmts pr92)) (mkSpan 0 0).
Lemma local92 : In (token92 9) (pr_tokens pr92) /\ names_symbol (pr_stmts pr92) (token92 9) /\ covers (snd (token92 9)) (sp_start (snd (token92 9))).
Proof. split; [apply (nth_error_In _ 9); vm_compute; reflexivity|]. split; [|unfold covers; vm_compute; lia]. unfold names_symbol. assert (fst (token92 9) = TLocalName (str "%x")) as -> by (vm_compute; reflexivity). exists range92. split; [apply (nth_error_In _ 0); vm_compute; reflexivity|]. unfold inside. vm_compute. lia. Qed.
Lemma locals92 : lines92 (written (pr_stmts pr92) (pr_tokens pr92) (token92 9)) = [mkPos 1 20; mkPos 3 16].
Proof. vm_compute. reflexivity. Qed.
Lemma asked92 : references env8 (sv doc92) (str "f") (lsp_position doc92 1) = Val (Some (map (fun p => mkLocn (str "f") (mkRange p (mkPos (p_line p) (p_char p + 2)))) [mkPos 0 0; mkPos 3 20; mkPos 10 8])).
Proof. vm_compute. reflexivity. Qed.
(** the label of the first function *)
Definition label92 : spanned := nth 0 (label_names (fb_blocks (snd def92))) ([], mkSpan 0 0).
Lemma labels92 : In def92 (function_defs (pr_stmts pr92)) /\ In label92 (label_names (fb_blocks (snd def92))) /\ covers (snd label92) (sp_start (snd label92)).
Proof. split; [apply (nth_error_In _ 0); vm_compute; reflexivity|]. split; [apply (nth_error_In _ 0); vm_compute; reflexivity|unfold covers; vm_compute; lia]. Qed.
Lemma label_here92 : lines92 (label_written (fb_blocks (snd def92)) (fst label92)) = [mkPos 2 0; mkPos 4 5].
Proof. vm_compute. reflexivity. Qed.
(** [%x] in the broken line, and the keyword [define], are no names of symbols *)
Definition nothing_at (pr : parser_result) (p : nat) : bool :=
  forallb (fun t => negb (sp_start (snd t) <=? p) || negb (p <? sp_end (snd t)) || match fst t with TGlobalName _ | TDebugRef _ => false | TLocalName _ => negb (existsb (around (snd t)) (flat_map func_ranges (pr_stmts pr))) | _ => true end) (pr_tokens pr) &&
  forallb (fun f => forallb (fun x => negb (sp_start (snd x) <=? p) || negb (p <? sp_end (snd x))) (label_names (fb_blocks (snd f)))) (function_defs (pr_stmts pr)).
Lemma nothing_at_ok pr p : nothing_at pr p = true -> (forall t, In t (pr_tokens pr) -> covers (snd t) p -> ~ names_symbol (pr_stmts pr) t) /\
  (forall f x, In f (function_defs (pr_stmts pr)) -> In x (label_names (fb_blocks (snd f))) -> ~ covers (snd x) p).
Proof.
  unfold nothing_at. rewrite andb_true_iff, !forallb_forall. intros [H1 H2]. split.
  - intros t Ht [C1 C2] Hn. specialize (H1 t Ht). rewrite !orb_true_iff, !negb_true_iff, !Nat.leb_nle, Nat.ltb_nlt in H1. destruct H1 as [[H1|H1]|H1]; [lia|lia|]. unfold names_symbol in Hn. destruct (fst t); try discriminate; try contradiction.
    rewrite negb_true_iff in H1. destruct Hn as (r & R1 & R2). enough (existsb (around (snd t)) (flat_map func_ranges (pr_stmts pr)) = true) by congruence. apply existsb_exists. exists r. split; [exact R1|]. unfold around. rewrite andb_true_iff, !Nat.leb_le. exact R2.
  - intros f x Hf Hx [C1 C2]. specialize (H2 f Hf). rewrite forallb_forall in H2. specialize (H2 x Hx). rewrite orb_true_iff, !negb_true_iff, !Nat.leb_nle, Nat.ltb_nlt in H2. lia.
Qed.
Definition broken_at92 : nat := sp_start (snd (token92 48)) + 1.
Lemma nothing92 : (fst (token92 48) = TLocalName (str "%x") /\ broken_at92 <= length doc92) /\ (forall t, In t (pr_tokens pr92) -> covers (snd t) broken_at92 -> ~ names_symbol (pr_stmts pr92) t) /\
  (forall f x, In f (function_defs (pr_stmts pr92)) -> In x (label_names (fb_blocks (snd f))) -> ~ covers (snd x) broken_at92).
Proof. split; [split; [vm_compute; reflexivity|vm_compute; lia]|]. apply nothing_at_ok. vm_compute. reflexivity. Qed.
