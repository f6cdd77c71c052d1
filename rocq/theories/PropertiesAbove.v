(** Property theorems C82: complete lines without errors in front of a text do not change what is wrong with it. *)
From Verif Require Import Text Rope Chumsky Tokenizer Parser Numbers Index SemTok Diag Rename Cfg Backtrace Server SpecText SpecLex SpecParse SpecIndex SpecDiag SpecBacktrace SpecCfg SpecView SpecSum SpecEdit SpecAbove
  PAbove PAboveDoc ExamplesIndex ExamplesCfg ExamplesView ExamplesSum ExamplesEdit ExamplesAbove.

(** C82: the same tokens, statements and errors, further down *)
Theorem C82_errors : forall u a b ta sa tb sb eb, full_lines a -> parse_from_str u a = Val (mkPR ta sa []) -> parse_from_str u b = Val (mkPR tb sb eb) ->
  sb <> [] \/ eb = [] -> exists es,
  parse_from_str u (a ++ b) = Val (mkPR (ta ++ map (shift_tok (length a)) tb) (sa ++ map (move_stmt (length a)) sb) es) /\ Forall2 (further a b) eb es.
Proof. exact parse_above. Qed.
Print Assumptions C82_errors.
(** the error at the end of the text moves by 15 bytes, not by 14 characters *)
Example C82_errors_ex : (full_lines accent_ /\ parse_from_str u0 accent_ = Val (mkPR (pr_tokens (pr_of accent_)) (pr_stmts (pr_of accent_)) [])) /\ length accent_ = 14 /\ byte_len accent_ = 15 /\
  length (pr_stmts (pr_of open_end)) = 1 /\ error_spans open_end = [(33, 34)] /\ byte_len open_end = 33 /\ error_spans (accent_ ++ open_end) = [(48, 49)].
Proof. split; [exact part_accent|]. repeat split; vm_compute; reflexivity. Qed.
(** C82: in front of anything, if the lines are ASCII *)
Theorem C82_ascii : forall u a b ta sa tb sb eb, full_lines a -> byte_len a = length a -> parse_from_str u a = Val (mkPR ta sa []) -> parse_from_str u b = Val (mkPR tb sb eb) ->
  sb <> [] \/ eb = [] ->
  parse_from_str u (a ++ b) = Val (mkPR (ta ++ map (shift_tok (length a)) tb) (sa ++ map (move_stmt (length a)) sb) (map (move_error (length a)) eb)).
Proof. exact parse_above_ascii. Qed.
Print Assumptions C82_ascii.
(** C82: the reports about the syntax are those of [b] in their order, lowered; the others are about names and branches *)
Theorem C82_reports : forall e uri a b pa pb, plain_document (a ++ b) -> full_lines a -> visits_all (e_ord e) ->
  parse_from_str (e_u e) a = Val pa -> parse_from_str (e_u e) b = Val pb -> pr_errors pa = [] -> read pb ->
  exists d l d' l' syn rest rest', analyze e uri (a ++ b) = Val (d, l) /\ analyze e uri b = Val (d', l') /\
    syn = map (syntax_diagnostic (e_xord e) b) (filter (fun x => negb (at_end b x)) (pr_errors pb)) /\
    Permutation l' (syn ++ rest') /\ Permutation l (map (lower_diagnostic (lsp_line_ends a)) syn ++ rest) /\ Forall named rest /\ Forall named rest'.
Proof. exact reports_above. Qed.
Print Assumptions C82_reports.
Example C82_ex : plain_document (plain_ ++ broken_) /\ full_lines plain_ /\ visits_all (e_ord env8) /\ (parse_from_str u0 plain_ = Val (pr_of plain_) /\ pr_errors (pr_of plain_) = []) /\ parse_from_str u0 broken_ = Val (pr_of broken_) /\
  read (pr_of broken_) /\ apart (pr_of plain_) (pr_of broken_) /\
  length (pr_stmts (pr_of broken_)) = 3 /\ error_spans broken_ = [(5, 6); (17, 19)] /\ error_spans (plain_ ++ broken_) = [(12, 13); (24, 26)] /\
  map fst (show broken_) = [0; 1; 3; 1] /\ map fst (show (plain_ ++ broken_)) = [1; 2; 4; 2].
Proof.
  split; [split; [|split]; vm_compute; reflexivity|]. split; [exact lines_plain|]. split; [apply opened8|]. split; [exact parsed_plain|]. split; [exact parsed_broken|]. split; [exact read_broken|].
  split; [exact apart_broken|]. exact shown_broken.
Qed.
(** the condition: an error in the last line may take the lines above with it, but a line without statements need not *)
Example C82_lost_ex : length (pr_stmts (pr_of plain_)) = 1 /\ pr_stmts (pr_of lost_) = [] /\ pr_stmts (pr_of (plain_ ++ lost_)) = [] /\
  pr_stmts (pr_of stray_) = [] /\ length (pr_stmts (pr_of (plain_ ++ stray_))) = 1.
Proof. repeat split; vm_compute; reflexivity. Qed.
