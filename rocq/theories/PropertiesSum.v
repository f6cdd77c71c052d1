(** Property theorems C69: a document is the sum of its parts. *)
From Verif Require Import Text Rope Chumsky Tokenizer Parser Numbers Index SemTok Diag Rename Cfg Backtrace Server SpecText SpecLex SpecParse SpecIndex SpecDiag SpecBacktrace SpecCfg SpecView SpecSum
  PSum PSumDoc PSumNav PSumOrder ExamplesIndex ExamplesCfg ExamplesView ExamplesSum.

(** C69: statements and tokens *)
Theorem C69_statements : forall u a b ta tb sa sb, full_lines a ->
  parse_from_str u a = Val (mkPR ta sa []) -> parse_from_str u b = Val (mkPR tb sb []) ->
  parse_from_str u (a ++ b) = Val (mkPR (ta ++ map (shift_tok (length a)) tb) (sa ++ map (move_stmt (length a)) sb) []).
Proof. exact parse_sum. Qed.
Print Assumptions C69_statements.
Example C69_statements_ex : full_lines above_ /\ parse_from_str u0 above_ = Val (mkPR (pr_tokens (pr_of above_)) (pr_stmts (pr_of above_)) []) /\
  parse_from_str u0 below_ = Val (mkPR (pr_tokens (pr_of below_)) (pr_stmts (pr_of below_)) []) /\
  length (pr_stmts (pr_of above_)) = 2 /\ length (pr_stmts (pr_of below_)) = 3 /\ length (pr_stmts (pr_of (above_ ++ below_))) = 5.
Proof. split; [exact lines_above|]. repeat split; vm_compute; reflexivity. Qed.

(** C69: uses without definition *)
Theorem C69_undefined : forall u a b ta tb sa sb, full_lines a ->
  parse_from_str u a = Val (mkPR ta sa []) -> parse_from_str u b = Val (mkPR tb sb []) ->
  Permutation (undefined_uses (recorded (sa ++ map (move_stmt (length a)) sb) (ta ++ map (shift_tok (length a)) tb)))
    (filter (fun o => negb (supplies sb o)) (undefined_uses (recorded sa ta)) ++
     map (move_occ (length a) (length (function_defs sa))) (filter (fun o => negb (supplies sa o)) (undefined_uses (recorded sb tb)))).
Proof. exact undefined_sum_perm. Qed.
Print Assumptions C69_undefined.
(** [@g] of the first and [@f] of the second part are introduced by the other one, [@none] is not *)
Example C69_undefined_ex :
  map o_name (undefined_uses (recorded (pr_stmts (pr_of above_)) (pr_tokens (pr_of above_)))) = [str "@g"] /\
  map o_name (undefined_uses (recorded (pr_stmts (pr_of below_)) (pr_tokens (pr_of below_)))) = [str "@none"; str "@f"] /\
  map o_name (undefined_uses (recorded (pr_stmts (pr_of (above_ ++ below_))) (pr_tokens (pr_of (above_ ++ below_))))) = [str "@none"].
Proof. repeat split; vm_compute; reflexivity. Qed.

(** C69: second definitions *)
Theorem C69_redefinitions : forall u a b ta tb sa sb, full_lines a ->
  parse_from_str u a = Val (mkPR ta sa []) -> parse_from_str u b = Val (mkPR tb sb []) ->
  forall o f, let move := move_occ (length a) (length (function_defs sa)) in
  In (o, f) (redefinitions (recorded (sa ++ map (move_stmt (length a)) sb) (ta ++ map (shift_tok (length a)) tb))) <->
  In (o, f) (redefinitions (recorded sa ta)) \/
  exists x, o = move x /\
    ((In x (tree_occs 0 sb) /\ o_ud x = Def /\ o_body x = None /\ first_defined sa x f) \/
     (~ (o_body x = None /\ exists g, first_defined sa x g) /\ exists y, In (x, y) (redefinitions (recorded sb tb)) /\ f = move y)).
Proof. exact redefinitions_sum. Qed.
Print Assumptions C69_redefinitions.
(** [@v] is defined in both parts, [%x] twice in the second one *)
Example C69_redefinitions_ex :
  redefinitions (recorded (pr_stmts (pr_of above_)) (pr_tokens (pr_of above_))) = [] /\
  map (fun x => o_name (fst x)) (redefinitions (recorded (pr_stmts (pr_of below_)) (pr_tokens (pr_of below_)))) = [str "%x"] /\
  map (fun x => o_name (fst x)) (redefinitions (recorded (pr_stmts (pr_of (above_ ++ below_))) (pr_tokens (pr_of (above_ ++ below_))))) = [str "%x"; str "@v"].
Proof. repeat split; vm_compute; reflexivity. Qed.

(** C69: parts that have nothing to do with each other *)
Theorem C69_diagnostics : forall e uri a b pa pb da db la lb, plain_document (a ++ b) -> full_lines a -> visits_all (e_ord e) ->
  parse_from_str (e_u e) a = Val pa -> parse_from_str (e_u e) b = Val pb -> pr_errors pa = [] -> read pb -> apart pa pb ->
  analyze e uri a = Val (da, la) -> analyze e uri b = Val (db, lb) ->
  exists d l, analyze e uri (a ++ b) = Val (d, l) /\ Permutation l (la ++ map (lower_diagnostic (lsp_line_ends a)) lb).
Proof. exact diagnostics_apart. Qed.
Print Assumptions C69_diagnostics.
Example C69_diagnostics_ex : plain_document (plain_ ++ below_) /\ full_lines plain_ /\ visits_all (e_ord env8) /\
  parse_from_str u0 plain_ = Val (pr_of plain_) /\ parse_from_str u0 below_ = Val (pr_of below_) /\
  pr_errors (pr_of plain_) = [] /\ pr_errors (pr_of below_) = [] /\ apart (pr_of plain_) (pr_of below_) /\
  length (diags_of below_) = 4 /\ diags_of (plain_ ++ below_) = map (lower_diagnostic 1) (diags_of below_).
Proof.
  split; [split; [|split]; vm_compute; reflexivity|]. split; [exact lines_plain|]. split; [apply opened8|]. split; [apply parsed_plain|]. split; [apply parsed_below|].
  split; [apply parsed_plain|]. split; [apply parsed_below|]. split; [exact apart_ex|]. split; vm_compute; reflexivity.
Qed.

(** C69: the order of the parts *)
Theorem C69_any_order : forall e uri ps qs, Forall (good_piece (e_u e)) ps -> Permutation ps qs -> plain_document (whole ps) -> visits_all (e_ord e) ->
  exists d l d' l', analyze e uri (whole ps) = Val (d, l) /\ analyze e uri (whole qs) = Val (d', l') /\
    Permutation (map d_message l) (map d_message l').
Proof. exact any_order. Qed.
Print Assumptions C69_any_order.
Example C69_any_order_ex : Forall (good_piece u0) [piece_of above_; piece_of below_; piece_of plain_] /\
  plain_document (whole [piece_of above_; piece_of below_; piece_of plain_]) /\ visits_all (e_ord env8) /\
  length (diags_of (whole [piece_of above_; piece_of below_; piece_of plain_])) = 4 /\
  length (diags_of (whole [piece_of plain_; piece_of below_; piece_of above_])) = 4.
Proof. split; [exact good_pieces|]. split; [split; [|split]; vm_compute; reflexivity|]. split; [apply opened8|]. split; vm_compute; reflexivity. Qed.

(** C69: the outline *)
Theorem C69_outline : forall e s s1 s2 uri a b D Da Db pa pb, plain_document (a ++ b) -> full_lines a -> visits_all (e_ord e) ->
  parse_from_str (e_u e) a = Val pa -> parse_from_str (e_u e) b = Val pb -> pr_errors pa = [] -> read pb ->
  opened e s uri (a ++ b) D -> opened e s1 uri a Da -> opened e s2 uri b Db ->
  exists l la lb, document_symbol e s uri = Some l /\ document_symbol e s1 uri = Some la /\ document_symbol e s2 uri = Some lb /\
    Permutation l (la ++ map (lower_symbol (lsp_line_ends a)) lb).
Proof. exact outline_sum. Qed.
Print Assumptions C69_outline.
Example C69_outline_ex : option_map (map ds_name) (document_symbol env8 (sv above_) (str "f")) = Some [str "@v"; str "@f"] /\
  option_map (map ds_name) (document_symbol env8 (sv below_) (str "f")) = Some [str "@v"; str "@h"] /\
  option_map (map ds_name) (document_symbol env8 (sv (above_ ++ below_)) (str "f")) = Some [str "@v"; str "@v"; str "@f"; str "@h"].
Proof. repeat split; vm_compute; reflexivity. Qed.

(** C69: names of a function, asked for in a part and in the whole *)
Theorem C69_local_below : forall e s s' uri a b D D' pa pb o p, plain_document (a ++ b) -> full_lines a ->
  parse_from_str (e_u e) a = Val pa -> parse_from_str (e_u e) b = Val pb -> pr_errors pa = [] -> read pb ->
  opened e s uri (a ++ b) D -> opened e s' uri b D' ->
  In o (recorded (pr_stmts pb) (pr_tokens pb)) -> o_body o <> None -> covers (o_span o) p ->
  let n := lsp_line_ends a in let pos := lsp_position b p in
  exists x y z, goto_definition e s' uri pos = Val (Some x) /\ goto_definition e s uri (lower n pos) = Val (Some (lower_answer n x)) /\
    goto_declaration e s' uri pos = Val (Some y) /\ goto_declaration e s uri (lower n pos) = Val (Some (lower_answer n y)) /\
    references e s' uri pos = Val (Some z) /\ references e s uri (lower n pos) = Val (Some (map (lower_location n) z)).
Proof. exact local_below. Qed.
Print Assumptions C69_local_below.
Theorem C69_local_above : forall e s s' uri a b D D' pa pb o p, plain_document (a ++ b) -> full_lines a ->
  parse_from_str (e_u e) a = Val pa -> parse_from_str (e_u e) b = Val pb -> pr_errors pa = [] -> read pb ->
  opened e s uri (a ++ b) D -> opened e s' uri a D' ->
  In o (recorded (pr_stmts pa) (pr_tokens pa)) -> o_body o <> None -> covers (o_span o) p ->
  let pos := lsp_position a p in
  exists x y z, goto_definition e s' uri pos = Val (Some x) /\ goto_definition e s uri pos = Val (Some x) /\
    goto_declaration e s' uri pos = Val (Some y) /\ goto_declaration e s uri pos = Val (Some y) /\
    references e s' uri pos = Val (Some z) /\ references e s uri pos = Val (Some z).
Proof. exact local_above. Qed.
Print Assumptions C69_local_above.
(** [%x] of the second part; both parts have a [%x] and a block [entry] *)
Example C69_local_ex : plain_document (above_ ++ below_) /\
  opened env8 (sv (above_ ++ below_)) (str "f") (above_ ++ below_) (doc_of env8 (above_ ++ below_)) /\
  opened env8 (sv above_) (str "f") above_ (doc_of env8 above_) /\ opened env8 (sv below_) (str "f") below_ (doc_of env8 below_) /\
  In use_x (recorded (pr_stmts (pr_of below_)) (pr_tokens (pr_of below_))) /\ o_body use_x <> None /\ covers (o_span use_x) 75 /\
  lsp_position below_ 75 = mkPos 3 17 /\ lsp_line_ends above_ = 6 /\
  references env8 (sv below_) (str "f") (mkPos 3 17) = Val (Some [mkLocn (str "f") (mkRange (mkPos 3 16) (mkPos 3 18))]) /\
  references env8 (sv (above_ ++ below_)) (str "f") (mkPos 9 17) = Val (Some [mkLocn (str "f") (mkRange (mkPos 9 16) (mkPos 9 18))]).
Proof.
  split; [split; [|split]; vm_compute; reflexivity|]. split; [apply open_whole|]. split; [apply open_above|]. split; [apply open_below|].
  split; [vm_compute; tauto|]. split; [discriminate|]. split; [split; vm_compute; lia|]. repeat split; vm_compute; reflexivity.
Qed.
