(** C78: shifting the numbering makes room for new numbers. *)
From Verif Require Import Text Rope Chumsky Tokenizer Parser Numbers Index SemTok Diag Rename Cfg Backtrace Server SpecText SpecLex SpecParse SpecIndex SpecDiag SpecBacktrace SpecNumbers SpecCfg SpecView SpecRename SpecPatch SpecSimilar SpecRebind SpecServer SpecRoom
  PRoom ExamplesIndex ExamplesCfg ExamplesView ExamplesRename ExamplesPatch ExamplesServer ExamplesRebind ExamplesRoom.

(** C78: after a shift by [z] every name of the scope numbered from [n] on is [z] higher, all others are as they were, and no name has one of the numbers left *)
Theorem C78_room : forall e s uri src d p, plain_document src -> visits_all (e_ord e) -> opened e s uri src d -> p <= length src ->
  exists pr, parse_from_str (e_u e) src = Val pr /\ pr_stmts pr = doc_stmts d /\
  ((forall o, In o (recorded (pr_stmts pr) (pr_tokens pr)) -> ~ covers (o_span o) p) \/
   exists o errs, In o (recorded (pr_stmts pr) (pr_tokens pr)) /\ covers (o_span o) p /\ tokenize (e_u e) src = Val (Some (pr_tokens pr), errs) /\
     (forall new z n, asks_shift new z -> has_number (o_name o) n -> no_overflow (recorded (pr_stmts pr) (pr_tokens pr)) o n z ->
       (o_kind o = KLabel -> errs = [] /\ forall x y, In x (recorded (pr_stmts pr) (pr_tokens pr)) -> moved o n z x y -> free_word y) ->
       (0 <= z)%Z -> ~ global (o_kind o) ->
       (forall x, In x (recorded (pr_stmts pr) (pr_tokens pr)) -> in_scope o x -> no_leading_zeros (o_name x) /\ forall m, has_number (o_name x) m -> fits_i64 (Z.of_N m + z)) ->
       exists edits pr', rename e s uri (lsp_position src p) new = Val (Reply edits) /\ parse_from_str (e_u e) (patched src edits) = Val pr' /\
         Forall2 (fun x x' => o_kind x = o_kind x' /\ o_body x = o_body x' /\ (in_scope o x -> renumbered n z x x'))
           (recorded (pr_stmts pr) (pr_tokens pr)) (recorded (pr_stmts pr') (pr_tokens pr')) /\
         room (recorded (pr_stmts pr') (pr_tokens pr')) o n z)).
Proof. exact shift_room. Qed.
Print Assumptions C78_room.
Example C78_ex : plain_document doc10 /\ visits_all (e_ord env8) /\ opened env8 s10 (str "f") doc10 d10 /\ 30 <= length doc10 /\
  (In o10 occs10 /\ covers (o_span o10) 30 /\ has_number (o_name o10) 2 /\ asks_shift (str "+3") 3 /\ no_overflow occs10 o10 2 3) /\ o_kind o10 <> KLabel /\
  (~ global (o_kind o10) /\ forall x, In x occs10 -> in_scope o10 x -> no_leading_zeros (o_name x) /\ forall m, has_number (o_name x) m -> fits_i64 (Z.of_N m + 3)) /\
  patched doc10 (edits_of (rename env8 s10 (str "f") (lsp_position doc10 30) (str "+3"))) = doc10_moved.
Proof.
  split; [apply opened10|]. split; [apply opened10|]. split; [apply opened10|]. split; [vm_compute; lia|]. split; [exact o10_ok|]. split; [discriminate|]. split; [exact zeros10|apply patched10].
Qed.
(** the code action is the rename by one: in any state, at any position and for any document *)
Theorem C78_action : forall e s uri pos, e_url_parse e uri = Some uri ->
  (forall edits, rename e s uri pos (str "+1") = Val (Reply edits) <->
     exists t j, code_action e (with_lazy false s) uri (mkRange pos pos) = Val (Reply (Some [mkCA t j (Some (uri, edits))]))) /\
  (rename e s uri pos (str "+1") = Panic <-> code_action e (with_lazy false s) uri (mkRange pos pos) = Panic).
Proof. exact action_is_rename. Qed.
Print Assumptions C78_action.
Example C78_action_ex : e_url_parse env11 (str "f") = Some (str "f") /\
  edits_of (rename env11 s11' (str "f") (mkPos 1 7) (str "+1")) = [mkEdit (mkRange (mkPos 1 7) (mkPos 1 9)) (str "%6"); mkEdit (mkRange (mkPos 2 16) (mkPos 2 18)) (str "%6")] /\
  code_action env11 (with_lazy false s11') (str "f") (mkRange (mkPos 1 7) (mkPos 1 7)) =
    Val (Reply (Some [mkCA (str "Shift variable numbering") (ca_data old_action) (Some (str "f", edits_of (rename env11 s11' (str "f") (mkPos 1 7) (str "+1"))))])).
Proof. exact action10. Qed.
(** the numbers of global variables: one can be given the name of a function, and a use of the variable is then a use of the function *)
Theorem C78_global_refuted : exists e s uri src d p o edits pr pr', plain_document src /\ visits_all (e_ord e) /\ opened e s uri src d /\ parse_from_str (e_u e) src = Val pr /\
  In o (recorded (pr_stmts pr) (pr_tokens pr)) /\ covers (o_span o) p /\ o_kind o = KGlobalVar /\ asks_shift (str "+1") 1 /\ has_number (o_name o) 1 /\
  rename e s uri (lsp_position src p) (str "+1") = Val (Reply edits) /\ parse_from_str (e_u e) (patched src edits) = Val pr' /\
  (exists x x', In x (recorded (pr_stmts pr') (pr_tokens pr')) /\ In x' (recorded (pr_stmts pr') (pr_tokens pr')) /\ o_kind x = KGlobalVar /\ o_kind x' = KFunction /\ o_span x = o_span x') /\
  ~ bound_alike pr pr'.
Proof. exact captured78. Qed.
Print Assumptions C78_global_refuted.
