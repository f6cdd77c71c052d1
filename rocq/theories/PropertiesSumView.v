(** Property theorems C74: what the server shows about a part does not depend on the other parts. *)
From Verif Require Import Text Rope Chumsky Tokenizer Parser Numbers Index SemTok Diag Rename Cfg Backtrace Server SpecText SpecLex SpecParse SpecIndex SpecDiag SpecBacktrace SpecCfg SpecView SpecSemTok SpecSum SpecSumView
  PSumView ExamplesIndex ExamplesCfg ExamplesView ExamplesSumView.

(** C74: folding ranges *)
Theorem C74_folds : forall e s s1 s2 uri a b D Da Db pa pb, plain_document (a ++ b) -> full_lines a ->
  parse_from_str (e_u e) a = Val pa -> parse_from_str (e_u e) b = Val pb -> pr_errors pa = [] -> read pb ->
  opened e s uri (a ++ b) D -> opened e s1 uri a Da -> opened e s2 uri b Db ->
  exists l la lb, folding_range s uri = Some l /\ folding_range s1 uri = Some la /\ folding_range s2 uri = Some lb /\
    Permutation l (la ++ map (lower_fold (lsp_line_ends a)) lb).
Proof. exact folds_sum. Qed.
Print Assumptions C74_folds.
(** C74: highlighting; absolute positions, also the order is that of the parts *)
Theorem C74_tokens : forall e s s1 s2 uri a b D Da Db pa pb, plain_document (a ++ b) -> full_lines a ->
  parse_from_str (e_u e) a = Val pa -> parse_from_str (e_u e) b = Val pb -> pr_errors pa = [] -> read pb ->
  opened e s uri (a ++ b) D -> opened e s1 uri a Da -> opened e s2 uri b Db ->
  exists l la lb, semantic_tokens_full s uri = Val (Some l) /\ semantic_tokens_full s1 uri = Val (Some la) /\ semantic_tokens_full s2 uri = Val (Some lb) /\
    decode l = decode la ++ map (lower_token (lsp_line_ends a)) (decode lb).
Proof. exact tokens_sum. Qed.
Print Assumptions C74_tokens.
(** C74: the graph of a function is that of the first part that defines it *)
Theorem C74_graph : forall e s s1 s2 uri a b D Da Db pa pb f, full_lines a ->
  parse_from_str (e_u e) a = Val pa -> parse_from_str (e_u e) b = Val pb -> pr_errors pa = [] -> read pb ->
  opened e s uri (a ++ b) D -> opened e s1 uri a Da -> opened e s2 uri b Db ->
  let ask t := execute_command t (str "visualize-cfg") [JStr uri; JStr f] in
  ask s = match ask s1 with Reply g => Reply g | RpcError _ => ask s2 end.
Proof. exact graph_sum. Qed.
Print Assumptions C74_graph.
(** C74: lenses of parts that do not define the same functions *)
Theorem C74_lenses : forall e s s1 s2 uri a b D Da Db pa pb, plain_document (a ++ b) -> full_lines a -> visits_all (e_ord e) ->
  parse_from_str (e_u e) a = Val pa -> parse_from_str (e_u e) b = Val pb -> pr_errors pa = [] -> read pb -> own_functions (pr_stmts pa) (pr_stmts pb) ->
  opened e s uri (a ++ b) D -> opened e s1 uri a Da -> opened e s2 uri b Db ->
  exists l la lb, code_lens e s uri = Some l /\ code_lens e s1 uri = Some la /\ code_lens e s2 uri = Some lb /\
    Permutation l (la ++ map (lower_lens (lsp_line_ends a)) lb).
Proof. exact lenses_sum. Qed.
Print Assumptions C74_lenses.
(** C74: inlay hints of parts whose instructions do not name annotations of the other one; the whole is answered if both parts are *)
Theorem C74_hints : forall e s s1 s2 uri a b D Da Db pa pb, plain_document (a ++ b) -> full_lines a ->
  parse_from_str (e_u e) a = Val pa -> parse_from_str (e_u e) b = Val pb -> pr_errors pa = [] -> read pb ->
  own_annotations (pr_stmts pa) (pr_stmts pb) -> own_annotations (pr_stmts pb) (pr_stmts pa) ->
  opened e s uri (a ++ b) D -> opened e s1 uri a Da -> opened e s2 uri b Db -> roots s1 = roots s -> roots s2 = roots s ->
  match inlay_hint_handler e s1 uri, inlay_hint_handler e s2 uri with
  | Val (Some la), Val (Some lb) => exists l, inlay_hint_handler e s uri = Val (Some l) /\ Permutation l (la ++ map (lower_hint (lsp_line_ends a)) lb)
  | _, _ => inlay_hint_handler e s uri = Panic
  end.
Proof. exact hints_sum. Qed.
Print Assumptions C74_hints.

Example C74_ex : plain_document (top_ ++ low_) /\ part13 top_ /\ part13 low_ /\ part13 (top_ ++ low_) /\ visits_all (e_ord env13) /\
  own_functions (pr_stmts (pr_of top_)) (pr_stmts (pr_of low_)) /\ own_annotations (pr_stmts (pr_of top_)) (pr_stmts (pr_of low_)) /\ own_annotations (pr_stmts (pr_of low_)) (pr_stmts (pr_of top_)) /\
  lsp_line_ends top_ = 5 /\ map (fun x => (fo_start x, fo_end x)) (folds13 low_) = [(0, 4); (1, 3)] /\ map (fun x => (fo_start x, fo_end x)) (folds13 (top_ ++ low_)) = [(0, 3); (5, 9); (1, 2); (6, 8)] /\
  map ih_pos (hints13 top_) = [mkPos 1 2; mkPos 2 9; mkPos 3 1] /\ map ih_pos (hints13 low_) = [mkPos 1 2; mkPos 3 9; mkPos 4 1] /\
  map ih_pos (hints13 (top_ ++ low_)) = [mkPos 1 2; mkPos 6 2; mkPos 2 9; mkPos 8 9; mkPos 3 1; mkPos 9 1] /\
  length (lenses13 top_) = 1 /\ length (lenses13 low_) = 1 /\ length (lenses13 (top_ ++ low_)) = 2 /\
  length (tokens13 low_) = 9 /\ (exists g, graph13 (top_ ++ low_) (str "@g") = Reply g) /\ exists m, graph13 top_ (str "@g") = RpcError m.
Proof.
  split; [exact plain_both|]. split; [exact part_top|]. split; [exact part_low|]. split; [exact part_both|]. split; [exact visits13|]. split; [exact own_f|]. split; [exact own_top|]. split; [exact own_low|].
  split; [vm_compute; reflexivity|]. split; [vm_compute; reflexivity|]. split; [vm_compute; reflexivity|]. split; [vm_compute; reflexivity|]. split; [vm_compute; reflexivity|]. split; [vm_compute; reflexivity|].
  split; [vm_compute; reflexivity|]. split; [vm_compute; reflexivity|]. split; [vm_compute; reflexivity|]. split; [vm_compute; reflexivity|]. split; eexists; vm_compute; reflexivity.
Qed.
(** the conditions are needed: a second [@f] takes the lens away, a second [!1] the hint *)
Example C74_shared_ex : length (lenses13 top_) = 1 /\ lenses13 (top_ ++ clash_) = [] /\
  map ih_pos (hints13 top_) = [mkPos 1 2; mkPos 2 9; mkPos 3 1] /\ map ih_pos (hints13 (top_ ++ clash_)) = [mkPos 1 2; mkPos 3 1; mkPos 7 1].
Proof. split; [vm_compute; reflexivity|]. split; [vm_compute; reflexivity|]. split; vm_compute; reflexivity. Qed.
