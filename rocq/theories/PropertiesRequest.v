(** Property theorems C57-C59: crashes, asking for a rename, first contact. *)
From Verif Require Import Text Rope Chumsky Tokenizer Parser Numbers Index SemTok Diag Rename Cfg Backtrace Server Dispatch SpecText SpecParse SpecIndex SpecDiag SpecBacktrace SpecNumbers SpecCfg SpecView SpecRename SpecServer SpecRequest
  PRequest ExamplesIndex ExamplesCfg ExamplesView ExamplesRename ExamplesServer.

(** C57: after any history of plain texts a request crashes the server only for one of the listed causes *)
Theorem C57_survives : forall e s0 ns, docs s0 = [] -> can_resolve (roots s0) -> visits_all (e_ord e) -> Forall single ns -> Forall note_plain ns ->
  (forall n, In n ns -> e_url_parse e (note_uri n) = Some (note_uri n)) ->
  exists s ps, receive e s0 ns = Val (s, ps) /\ length ps = length ns /\
    forall q, handle e s q = Panic -> crash_cause e (roots s0) (fun u => last_text u ns) q.
Proof. exact survives. Qed.
Print Assumptions C57_survives.
(** changes do not crash it under any schedule *)
Theorem C57_schedule : forall e ss s evs w, wrun e ss (world_init s) evs = Some w -> Forall (fun c => ascii_text (snd (fst c)) = true) (changes evs) ->
  w_health w <> Crashed.
Proof. exact schedule_survives. Qed.
Print Assumptions C57_schedule.
Example C57_ex : docs s11 = [] /\ can_resolve (roots s11) /\ visits_all (e_ord env11) /\ Forall single hist11 /\ Forall note_plain hist11 /\
  (forall n, In n hist11 -> e_url_parse env11 (note_uri n) = Some (note_uri n)) /\
  handle env11 s11' (QRename (str "f") (mkPos 1 7) []) = Panic /\
  handle env11 s11' (QRename (str "f") (mkPos 1 7) (str "?")) = Val (RError (str "Name contains invalid character")) /\
  wrun env11 no_share (world_init s11) sched11 = Some (world_after env11 no_share s11 sched11) /\ Forall (fun c => ascii_text (snd (fst c)) = true) (changes sched11).
Proof.
  split; [reflexivity|]. split; [intros r [<-|[]]; reflexivity|]. split; [apply opened10|]. split; [repeat constructor|]. split.
  { repeat (apply Forall_cons; [eexists; split; [reflexivity|split; [|split]; vm_compute; reflexivity]|]). apply Forall_nil. }
  split; [reflexivity|]. split; [vm_compute; reflexivity|]. split; [vm_compute; reflexivity|]. split; [vm_compute; reflexivity|]. repeat constructor.
Qed.

(** C58: a rename can be asked for exactly at the symbols, and all renames edit the range shown *)
Theorem C58_range : forall e s uri src d p, plain_document src -> visits_all (e_ord e) -> opened e s uri src d -> p <= length src ->
  exists pr, parse_from_str (e_u e) src = Val pr /\ pr_stmts pr = doc_stmts d /\
  ((forall o, In o (recorded (pr_stmts pr) (pr_tokens pr)) -> ~ covers (o_span o) p) /\ prepare_rename s uri (lsp_position src p) = None \/
   exists o, In o (recorded (pr_stmts pr) (pr_tokens pr)) /\ covers (o_span o) p /\ prepare_rename s uri (lsp_position src p) = Some (lsp_range src (o_span o)) /\
     forall new edits, rename e s uri (lsp_position src p) new = Val (Reply edits) -> exists ed, In ed edits /\ te_range ed = lsp_range src (o_span o)).
Proof. exact prepare_range. Qed.
Print Assumptions C58_range.
(** for positions of any form: no range, no rename; with a range some name is accepted *)
Theorem C58_agrees : forall e s uri src d pos, plain_document src -> visits_all (e_ord e) -> opened e s uri src d ->
  (prepare_rename s uri pos = None -> forall new, exists m, rename e s uri pos new = Val (RpcError m)) /\
  (forall r, prepare_rename s uri pos = Some r -> (exists new edits, rename e s uri pos new = Val (Reply edits)) /\
    forall new edits, rename e s uri pos new = Val (Reply edits) -> exists ed, In ed edits /\ te_range ed = r).
Proof. exact prepare_agrees. Qed.
Print Assumptions C58_agrees.
Example C58_ex : plain_document doc10 /\ visits_all (e_ord env8) /\ opened env8 s10 (str "f") doc10 d10 /\ 30 <= length doc10 /\
  prepare_rename s10 (str "f") (lsp_position doc10 30) = Some (mkRange (mkPos 0 29) (mkPos 0 31)) /\ prepare_rename s10 (str "f") (mkPos 0 2) = None.
Proof. split; [apply opened10|]. split; [apply opened10|]. split; [apply opened10|]. split; [vm_compute; lia|]. split; vm_compute; reflexivity. Qed.

(** C59: actions come without their edits exactly if the client can wait for them, and then the server has said that it resolves them *)
Theorem C59_actions : forall e folders root caps s a ns s' ps uri rng l,
  initialize server_init folders root caps = (s, a) -> Forall single ns -> receive e s ns = Val (s', ps) -> code_action e s' uri rng = Val (Reply (Some l)) ->
  (an_resolve a = true <-> can_wait caps) /\ Forall (fun x => (ca_edit x = None -> an_resolve a = true) /\ (can_wait caps -> ca_edit x = None)) l.
Proof. exact told_actions. Qed.
Print Assumptions C59_actions.
(** the commands of lenses are announced, others are refused *)
Theorem C59_commands : forall e folders root caps s a s' uri ls x,
  initialize server_init folders root caps = (s, a) -> code_lens e s' uri = Some ls -> In x ls -> In (cl_command x) (an_commands a).
Proof. exact told_commands. Qed.
Print Assumptions C59_commands.
Theorem C59_others : forall folders root caps s a s' c args,
  initialize server_init folders root caps = (s, a) -> ~ In c (an_commands a) -> exists m, execute_command s' c args = RpcError m.
Proof. exact other_commands. Qed.
Print Assumptions C59_others.
(** files are looked for below the workspace folders, or the root if there are none *)
Theorem C59_roots : forall e folders root caps s a ns s' ps, initialize server_init folders root caps = (s, a) -> Forall single ns -> receive e s ns = Val (s', ps) ->
  roots s' = match folders, root with Some fs, _ => fs | None, Some r => [r] | None, None => [] end.
Proof. exact told_roots. Qed.
Print Assumptions C59_roots.
Example C59_ex :
  let caps := Some (mkCaps (Some [str "kind"; str "edit"]) (Some true)) in
  let '(s, a) := initialize server_init None (Some root8) caps in
  can_wait caps /\ an_resolve a = true /\ roots s = [root8] /\ Forall single hist11 /\
  exists s' ps x, receive env11 s hist11 = Val (s', ps) /\ code_action env11 s' (str "f") (mkRange (mkPos 1 7) (mkPos 1 7)) = Val (Reply (Some [x])) /\ ca_edit x = None /\
    option_map (map cl_command) (code_lens env11 s' (str "g")) = Some [str "visualize-cfg"].
Proof.
  cbn -[receive code_action code_lens]. split; [eexists _, _; split; [reflexivity|]; split; [reflexivity|]; split; [right; left; reflexivity|reflexivity]|].
  split; [reflexivity|]. split; [reflexivity|]. split; [repeat constructor|].
  exists (after env11 (mkServer [root8] true []) hist11), (publishes env11 (mkServer [root8] true []) hist11), old_action.
  split; [vm_compute; reflexivity|]. split; [vm_compute; reflexivity|]. split; vm_compute; reflexivity.
Qed.

(** C64: an action is offered for a cursor, not for a selection *)
Theorem C64_selection : forall e s uri src d rng, opened e s uri src d -> (code_action e s uri rng = Val (Reply None) <-> r_start rng <> r_end rng).
Proof. exact offer_selection. Qed.
Print Assumptions C64_selection.
(** exactly one, exactly at the names that end in a number, with the title of their kind *)
Theorem C64_cursor : forall e s uri src d p l, plain_document src -> opened e s uri src d -> p <= length src ->
  code_action e s uri (mkRange (lsp_position src p) (lsp_position src p)) = Val (Reply (Some l)) ->
  exists pr, parse_from_str (e_u e) src = Val pr /\ pr_stmts pr = doc_stmts d /\ offers (recorded (pr_stmts pr) (pr_tokens pr)) p (map ca_title l).
Proof. exact offer_cursor. Qed.
Print Assumptions C64_cursor.
(** every cursor is answered, unless a number is the last one *)
Theorem C64_answered : forall e s uri src d pos, plain_document src -> visits_all (e_ord e) -> opened e s uri src d -> e_url_parse e uri = Some uri ->
  (exists l, code_action e s uri (mkRange pos pos) = Val (Reply (Some l))) \/
  (code_action e s uri (mkRange pos pos) = Panic /\ e_pf e = Debug /\ exists pr, parse_from_str (e_u e) src = Val pr /\ last_number pr).
Proof. exact offer_always. Qed.
Print Assumptions C64_answered.
(** positions of any form: nothing where no rename is possible *)
Theorem C64_nowhere : forall e s uri src d pos, plain_document src -> opened e s uri src d -> prepare_rename s uri pos = None -> code_action e s uri (mkRange pos pos) = Val (Reply (Some [])).
Proof. exact offer_nowhere. Qed.
Print Assumptions C64_nowhere.
Example C64_ex : plain_document doc10 /\ visits_all (e_ord env11) /\ opened env11 s10 (str "f") doc10 d10 /\ 30 <= length doc10 /\ e_url_parse env11 (str "f") = Some (str "f") /\
  option_map (map ca_title) (match code_action env11 s10 (str "f") (mkRange (lsp_position doc10 30) (lsp_position doc10 30)) with Val (Reply x) => x | _ => None end) = Some [str "Shift variable numbering"] /\
  code_action env11 s10 (str "f") (mkRange (mkPos 0 29) (mkPos 0 31)) = Val (Reply None) /\
  prepare_rename s10 (str "f") (mkPos 0 2) = None.
Proof.
  split; [apply opened10|]. split; [intros m; apply Permutation_sym, Permutation_rev|]. split; [split; [reflexivity|]; exists (diags_of env11 (str "f") doc10); vm_compute; reflexivity|].
  split; [vm_compute; lia|]. split; [reflexivity|]. split; [vm_compute; reflexivity|]. split; vm_compute; reflexivity.
Qed.
