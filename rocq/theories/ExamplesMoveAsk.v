(** Names in a document made of parts. *)
From Verif Require Import Text Rope Chumsky Tokenizer Parser Numbers Index SemTok Diag Rename Cfg Backtrace Server SpecText SpecLex SpecParse SpecIndex SpecDiag SpecBacktrace SpecCfg SpecView SpecSemTok SpecSum SpecSumView SpecMove SpecWritten SpecMoveAsk
  PMove ExamplesIndex ExamplesCfg ExamplesView ExamplesSum ExamplesSumView ExamplesMove.

(** the second part of [parts91], between the first and the third *)
Definition above97 : list piece := [piece_of one91].
Definition mid97 : piece := piece_of two91.
Definition below97 : list piece := [piece_of three91].
Definition token97 (n : nat) : stoken := nth n (pr_tokens (pc_result mid97)) (TGlobalName [], mkSpan 0 0).
Lemma parts97 : above97 ++ mid97 :: below97 = parts91. Proof. reflexivity. Qed.
(** [@g], called in the first part *)
Lemma name97 : In (token97 2) (pr_tokens (pc_result mid97)) /\ names_symbol (pr_stmts (pc_result mid97)) (token97 2) /\ covers (snd (token97 2)) (sp_start (snd (token97 2))) /\ fst (token97 2) = TGlobalName (str "@g").
Proof. split; [apply (nth_error_In _ 2); vm_compute; reflexivity|]. split; [|split; [unfold covers; vm_compute; lia|vm_compute; reflexivity]]. unfold names_symbol. assert (fst (token97 2) = TGlobalName (str "@g")) as -> by (vm_compute; reflexivity). exact I. Qed.
Lemma places97 : map r_start (places_all (token97 2) above97 mid97 below97) = [mkPos 2 7; mkPos 5 12].
Proof. vm_compute. reflexivity. Qed.
(** [%x], three times in the second part *)
Definition range97 : span := nth 0 (flat_map func_ranges (pr_stmts (pc_result mid97))) (mkSpan 0 0).
Lemma local97 : In (token97 5) (pr_tokens (pc_result mid97)) /\ names_symbol (pr_stmts (pc_result mid97)) (token97 5) /\ covers (snd (token97 5)) (sp_start (snd (token97 5))) /\ fst (token97 5) = TLocalName (str "%x").
Proof. split; [apply (nth_error_In _ 5); vm_compute; reflexivity|]. split; [|split; [unfold covers; vm_compute; lia|vm_compute; reflexivity]]. unfold names_symbol. assert (fst (token97 5) = TLocalName (str "%x")) as -> by (vm_compute; reflexivity). exists range97. split; [apply (nth_error_In _ 0); vm_compute; reflexivity|]. unfold inside. vm_compute. lia. Qed.
Lemma locals97 : map r_start (places_all (token97 5) above97 mid97 below97) = [mkPos 5 20; mkPos 7 7; mkPos 7 16].
Proof. vm_compute. reflexivity. Qed.
(** the label [b] *)
Definition def97 : func_sig * func_body := match function_defs (pr_stmts (pc_result mid97)) with f :: _ => f | [] => (mkSig [] ([], mkSpan 0 0) ([], mkSpan 0 0) [], mkBody (mkSpan 0 0) (mkSpan 0 0) []) end.
Definition label97 : spanned := nth 0 (label_names (fb_blocks (snd def97))) ([], mkSpan 0 0).
Lemma labels97 : In def97 (function_defs (pr_stmts (pc_result mid97))) /\ In label97 (label_names (fb_blocks (snd def97))) /\ covers (snd label97) (sp_start (snd label97)).
Proof. split; [apply (nth_error_In _ 0); vm_compute; reflexivity|]. split; [apply (nth_error_In _ 0); vm_compute; reflexivity|unfold covers; vm_compute; lia]. Qed.
Lemma label_places97 : map r_start (label_places def97 (fst label97) above97 mid97) = [mkPos 6 0; mkPos 8 5].
Proof. vm_compute. reflexivity. Qed.
Lemma asked97 : references env13 (sv13 (whole parts91)) (str "f") (mkPos 5 12) = Val (Some [mkLocn (str "f") (mkRange (mkPos 2 7) (mkPos 2 9))]).
Proof. vm_compute. reflexivity. Qed.
(** ** A lower part with errors: a character that is no token, an unfinished declaration *)
Definition open97 : text := str "declare @g %x
@w = $ 1
define void @h(int8 %x) {
  call @g, %x
}
@q = 4
".
Definition doc97 : text := two91 ++ open97.
Lemma plain_open97 : plain_document doc97.
Proof. split; [|split]; vm_compute; reflexivity. Qed.
Lemma lines97 : full_lines two91.
Proof. right. exists (removelast two91). vm_compute. reflexivity. Qed.
Lemma parsed97 : parse_from_str (e_u env13) two91 = Val (pr_of two91) /\ parse_from_str (e_u env13) open97 = Val (pr_of open97).
Proof. split; vm_compute; reflexivity. Qed.
Lemma errors97 : pr_errors (pr_of two91) = [] /\ length (pr_errors (pr_of open97)) = 2 /\ read (pr_of open97).
Proof. split; [vm_compute; reflexivity|]. split; [vm_compute; reflexivity|]. left. vm_compute. discriminate. Qed.
Lemma opened97 : opened env13 (sv13 doc97) (str "f") doc97 (doc_of env13 doc97).
Proof. split; [reflexivity|]. exists (diags13 doc97). vm_compute. reflexivity. Qed.
Definition below_token97 (n : nat) : stoken := nth n (pr_tokens (pr_of open97)) (TGlobalName [], mkSpan 0 0).
(** [@g] in the unfinished declaration *)
Lemma below97_name : In (below_token97 1) (pr_tokens (pr_of open97)) /\ names_symbol (pr_stmts (pr_of open97)) (below_token97 1) /\ covers (snd (below_token97 1)) (sp_start (snd (below_token97 1))) /\ fst (below_token97 1) = TGlobalName (str "@g").
Proof. split; [apply (nth_error_In _ 1); vm_compute; reflexivity|]. split; [|split; [unfold covers; vm_compute; lia|vm_compute; reflexivity]]. unfold names_symbol. assert (fst (below_token97 1) = TGlobalName (str "@g")) as -> by (vm_compute; reflexivity). exact I. Qed.
Lemma open_places97 : map r_start (places_in (token97 2) (piece_of two91)) = [mkPos 0 12] /\ map r_start (places_in (token97 2) (piece_of open97)) = [mkPos 0 8; mkPos 3 7] /\ lsp_line_ends two91 = 6.
Proof. split; [|split]; vm_compute; reflexivity. Qed.
Lemma open_asked97 : references env13 (sv13 doc97) (str "f") (mkPos 0 12) = Val (Some (map (fun p => mkLocn (str "f") (mkRange p (mkPos (p_line p) (p_char p + 2)))) [mkPos 6 8; mkPos 9 7])).
Proof. vm_compute. reflexivity. Qed.
