(** A document with numbered names. *)
From Verif Require Import Text Rope Chumsky Tokenizer Parser Numbers Index SemTok Diag Rename Cfg Backtrace Server SpecText SpecLex SpecParse SpecIndex SpecDiag SpecBacktrace SpecCfg SpecView SpecNumbers SpecRename SpecSum SpecWritten SpecRenumber
  PNumbers PRename ExamplesIndex ExamplesCfg ExamplesView ExamplesSum ExamplesRename ExamplesUndo.

(** [@f1] is a variable and a function; the last lines have errors *)
Definition doc98 : text := str "@f1 = 1
@v1 = 2
@v3 = 3
define void @f1(int8 %1) {
bb1:
  int8 %2 = add %1, @v3
  br bb2
bb2:
  br bb1
}
define void @g(int8 %2) {
bb2:
  br bb2
}
declare @v3 %2
@v5 = $ 4
@w = 0
".
Definition pr98 : parser_result := pr_of doc98.
Definition token98 (n : nat) : stoken := nth n (pr_tokens pr98) (TGlobalName [], mkSpan 0 0).
Definition def98 : func_sig * func_body := match function_defs (pr_stmts pr98) with f :: _ => f | [] => (mkSig [] ([], mkSpan 0 0) ([], mkSpan 0 0) [], mkBody (mkSpan 0 0) (mkSpan 0 0) []) end.
Definition label98 : spanned := nth 0 (label_names (fb_blocks (snd def98))) ([], mkSpan 0 0).
Definition at98 (l : list spanned) : list (text * position_) := map (fun x => (fst x, lsp_position doc98 (sp_start (snd x)))) l.
Lemma plain98 : plain_document doc98.
Proof. split; [|split]; vm_compute; reflexivity. Qed.
Lemma visits98 : visits_all (e_ord env8).
Proof. apply opened8. Qed.
Lemma open98 : opened env8 (sv doc98) (str "f") doc98 (doc_of env8 doc98).
Proof. split; [reflexivity|]. exists (diags_of doc98). vm_compute. reflexivity. Qed.
Lemma parse98 : parse_from_str (e_u env8) doc98 = Val pr98.
Proof. vm_compute. reflexivity. Qed.
Lemma broken98 : length (pr_errors pr98) = 2.
Proof. vm_compute. reflexivity. Qed.
Lemma plus98 : asks_shift (str "+1") 1.
Proof. exists (str "1"), 1%Z. split; [|left; split; reflexivity]. exists (str "1"). split; [discriminate|]. split; [intros c [<-|[]]; cbn; lia|]. split; [lia|]. left. split; reflexivity. Qed.
Lemma number98 w n : ascii_text w = true -> (exists p, extract_number_from_identifier u0 w = Val (Some (p, Z.of_N n))) -> has_number w n.
Proof. intros Ha H. exact (proj2 (has_number_extract u0 w n Ha) H). Qed.
Definition roomyb (words : list text) : bool :=
  forallb (fun w => ascii_text w && match extract_number_from_identifier u0 w with Val (Some (_, z)) => (z <=? 100)%Z | _ => true end) words.
Lemma roomy words n0 : roomyb words = true -> room words n0 1.
Proof.
  intros H. unfold roomyb in H. rewrite forallb_forall in H. split; [unfold fits_i64; lia|]. intros w n Hw Hn _. specialize (H w Hw). apply andb_true_iff in H as [Ha H].
  apply (has_number_extract u0 w n Ha) in Hn as (p & E). rewrite E in H. apply Z.leb_le in H. unfold fits_i64. lia.
Qed.
Definition shifted98 (p : position_) : list (position_ * text) := match rename env8 (sv doc98) (str "f") p (str "+1") with Val (Reply l) => map (fun x => (r_start (te_range x), te_text x)) l | _ => [] end.
(** asked at [@v1]: the names of the other variables move, also in the lines with errors, and so does the definition of the variable [@f1], not the function *)
Lemma global98 : (In (token98 4) (pr_tokens pr98) /\ names_symbol (pr_stmts pr98) (token98 4) /\ covers (snd (token98 4)) (sp_start (snd (token98 4)))) /\ has_number (word (token98 4)) 1 /\ room (map fst (space_of (pr_stmts pr98) (pr_tokens pr98) (token98 4))) 1 1.
Proof.
  split; [split; [apply (nth_error_In _ 4); vm_compute; reflexivity|]; split; [|unfold covers; vm_compute; lia]; unfold names_symbol; assert (fst (token98 4) = TGlobalName (str "@v1")) as -> by (vm_compute; reflexivity); exact I|].
  split; [apply number98; [vm_compute; reflexivity|exists (str "@v"); vm_compute; reflexivity]|]. apply roomy. vm_compute. reflexivity.
Qed.
Lemma space98 : at98 (space_of (pr_stmts pr98) (pr_tokens pr98) (token98 4)) =
  [(str "@f1", mkPos 0 0); (str "@v1", mkPos 1 0); (str "@v3", mkPos 2 0); (str "@v3", mkPos 5 20); (str "@v3", mkPos 14 8); (str "@v5", mkPos 15 0); (str "@w", mkPos 16 0)].
Proof. vm_compute. reflexivity. Qed.
(** asked at [%1] *)
Definition range98 : span := nth 0 (flat_map func_ranges (pr_stmts pr98)) (mkSpan 0 0).
Lemma local98 : (In (token98 17) (pr_tokens pr98) /\ names_symbol (pr_stmts pr98) (token98 17) /\ covers (snd (token98 17)) (sp_start (snd (token98 17)))) /\ has_number (word (token98 17)) 1 /\ room (map fst (space_of (pr_stmts pr98) (pr_tokens pr98) (token98 17))) 1 1.
Proof.
  split; [split; [apply (nth_error_In _ 17); vm_compute; reflexivity|]; split; [|unfold covers; vm_compute; lia]; unfold names_symbol; assert (fst (token98 17) = TLocalName (str "%1")) as -> by (vm_compute; reflexivity); exists range98; split; [apply (nth_error_In _ 0); vm_compute; reflexivity|unfold inside; vm_compute; lia]|].
  split; [apply number98; [vm_compute; reflexivity|exists (str "%"); vm_compute; reflexivity]|]. apply roomy. vm_compute. reflexivity.
Qed.
Lemma local_space98 : at98 (space_of (pr_stmts pr98) (pr_tokens pr98) (token98 17)) = [(str "%1", mkPos 3 21); (str "%2", mkPos 5 7); (str "%1", mkPos 5 16)].
Proof. vm_compute. reflexivity. Qed.
(** asked at the label [bb1] *)
Lemma labels98 : (In def98 (function_defs (pr_stmts pr98)) /\ In label98 (label_names (fb_blocks (snd def98))) /\ covers (snd label98) (sp_start (snd label98))) /\ has_number (fst label98) 1 /\ room (map fst (label_names (fb_blocks (snd def98)))) 1 1.
Proof.
  split; [split; [apply (nth_error_In _ 0); vm_compute; reflexivity|]; split; [apply (nth_error_In _ 0); vm_compute; reflexivity|unfold covers; vm_compute; lia]|].
  split; [apply number98; [vm_compute; reflexivity|exists (str "bb"); vm_compute; reflexivity]|]. apply roomy. vm_compute. reflexivity.
Qed.
Lemma label_space98 : at98 (label_names (fb_blocks (snd def98))) = [(str "bb1", mkPos 4 0); (str "bb2", mkPos 6 5); (str "bb2", mkPos 7 0); (str "bb1", mkPos 8 5)].
Proof. vm_compute. reflexivity. Qed.
Lemma shown98 : shifted98 (mkPos 1 0) = [(mkPos 15 0, str "@v6"); (mkPos 2 0, str "@v4"); (mkPos 5 20, str "@v4"); (mkPos 14 8, str "@v4"); (mkPos 1 0, str "@v2"); (mkPos 0 0, str "@f2")].
Proof. vm_compute. reflexivity. Qed.
