(** Property theorems C42-C48: histories, schedules, code actions. *)
From Verif Require Import Text Rope Chumsky Tokenizer Parser Numbers Index SemTok Diag Rename Cfg Backtrace Server Dispatch SpecText SpecParse SpecIndex SpecDiag SpecBacktrace SpecNumbers SpecCfg SpecView SpecRename SpecServer
  PServer ExamplesIndex ExamplesCfg ExamplesView ExamplesRename ExamplesServer.

(** C42: after any history every answer about a document is that of a server that only received the last text *)
Theorem C42_last_text : forall e s ns s' ps uri t q, Forall single ns -> receive e s ns = Val (s', ps) -> last_text uri ns = Some t ->
  e_url_parse e uri = Some uri -> about e q uri ->
  exists s0 p0, did_open e (mkServer (roots s) (lazy_resolve s) []) uri t 0 = Val (s0, p0) /\ handle e s' q = handle e s0 q.
Proof. exact last_text_wins. Qed.
Print Assumptions C42_last_text.
Theorem C42_independent : forall e s ns s' ps uri q, Forall single ns -> receive e s ns = Val (s', ps) -> Forall (fun n => note_uri n <> uri) ns ->
  e_url_parse e uri = Some uri -> about e q uri -> handle e s' q = handle e s q.
Proof. exact other_documents. Qed.
Print Assumptions C42_independent.
Example C42_ex : Forall single hist11 /\ receive env11 s11 hist11 = Val (s11', publishes env11 s11 hist11) /\ last_text (str "f") hist11 = Some doc10 /\
  e_url_parse env11 (str "f") = Some (str "f") /\ about env11 (QRename (str "f") (mkPos 1 7) (str "+1")) (str "f") /\
  handle env11 s11' (QRename (str "f") (mkPos 1 7) (str "+1")) = Val (REdits [mkEdit (mkRange (mkPos 1 7) (mkPos 1 9)) (str "%6"); mkEdit (mkRange (mkPos 2 16) (mkPos 2 18)) (str "%6")]).
Proof. split; [repeat constructor|]. split; [vm_compute; reflexivity|]. split; [reflexivity|]. split; [reflexivity|]. split; [reflexivity|]. vm_compute. reflexivity. Qed.

(** C43: after every schedule the messages (delivered or waiting) are one per change, each with the diagnostics of that change *)
Theorem C43_one_per_change : forall e ss s evs w, wrun e ss (world_init s) evs = Some w ->
  let past := match w_health w with Alive => evs | _ => removelast evs end in
  exists ps, Forall2 (fun c p => let '(u, t, v) := c in published e u t v p) (changes past) ps /\ Permutation (w_sent w ++ w_waiting w) ps.
Proof. exact versions_match. Qed.
Print Assumptions C43_one_per_change.
Theorem C43_delivered : forall e ss s evs w p, wrun e ss (world_init s) evs = Some w -> In p (w_sent w) ->
  exists u t v, In (EChange u t v) evs /\ published e u t v p.
Proof. exact sent_match. Qed.
Print Assumptions C43_delivered.
Theorem C43_in_order : forall e ss s evs w, wrun e ss (world_init s) evs = Some w -> in_order evs -> w_health w = Alive ->
  Forall2 (fun c p => let '(u, t, v) := c in published e u t v p) (changes evs) (w_sent w ++ w_waiting w).
Proof. exact in_order_match. Qed.
Print Assumptions C43_in_order.
Theorem C43_same_documents : forall e ss s evs w, wrun e ss (world_init s) evs = Some w -> w_health w = Alive ->
  exists ps, receive e s (notes_of evs) = Val (w_server w, ps).
Proof. exact schedule_server. Qed.
Print Assumptions C43_same_documents.
Example C43_ex : wrun env11 no_share (world_init s11) sched11 = Some (world_after env11 no_share s11 sched11) /\
  w_health (world_after env11 no_share s11 sched11) = Alive /\
  map (fun p => (pub_uri p, pub_version p, length (pub_diags p))) (w_sent (world_after env11 no_share s11 sched11)) = [(str "f", 2%Z, 1); (str "f", 1%Z, 0); (str "g", 1%Z, 1)] /\
  length (w_waiting (world_after env11 no_share s11 sched11)) = 1.
Proof. split; [|split; [|split]]; vm_compute; reflexivity. Qed.
(** without further assumptions the last message can be that of an older version *)
Theorem C43_last_message_refuted : exists e ss s evs w u t1 t2 p1 p2, wrun e ss (world_init s) evs = Some w /\ w_health w = Alive /\ w_waiting w = [] /\
  changes evs = [(u, t1, 1%Z); (u, t2, 2%Z)] /\ w_sent w = [p2; p1] /\ published e u t1 1 p1 /\ published e u t2 2 p2 /\ pub_diags p1 <> pub_diags p2.
Proof. exact late_message. Qed.
Print Assumptions C43_last_message_refuted.

(** C44 *)
Theorem C44_lazy_is_eager : forall e s uri rng l l', e_url_parse e uri = Some uri -> code_action e (with_lazy true s) uri rng = Val (Reply (Some l)) ->
  (code_action e (with_lazy false s) uri rng = Val (Reply (Some l')) <-> Forall2 (fun a a' => code_action_resolve e s a = Val (Reply a')) l l').
Proof. exact lazy_eager. Qed.
Print Assumptions C44_lazy_is_eager.
Theorem C44_other_answers : forall e s uri rng, e_url_parse e uri = Some uri ->
  (forall m, code_action e (with_lazy true s) uri rng = Val (RpcError m) <-> code_action e (with_lazy false s) uri rng = Val (RpcError m)) /\
  (code_action e (with_lazy true s) uri rng = Val (Reply None) <-> code_action e (with_lazy false s) uri rng = Val (Reply None)) /\
  (code_action e (with_lazy false s) uri rng = Panic <->
    code_action e (with_lazy true s) uri rng = Panic \/ exists l a, code_action e (with_lazy true s) uri rng = Val (Reply (Some l)) /\ In a l /\ code_action_resolve e s a = Panic).
Proof. exact lazy_same_cases. Qed.
Print Assumptions C44_other_answers.
(** what is offered and which edits it stands for *)
Theorem C44_edits : forall e s uri src d p, plain_document src -> visits_all (e_ord e) -> opened e s uri src d -> e_url_parse e uri = Some uri -> p <= length src ->
  exists pr, parse_from_str (e_u e) src = Val pr /\ pr_stmts pr = doc_stmts d /\
  let rng := mkRange (lsp_position src p) (lsp_position src p) in
  (((forall o, In o (recorded (pr_stmts pr) (pr_tokens pr)) -> ~ covers (o_span o) p) /\ code_action e s uri rng = Val (Reply (Some []))) \/
   exists o, In o (recorded (pr_stmts pr) (pr_tokens pr)) /\ covers (o_span o) p /\
     ((forall n, ~ has_number (o_name o) n) -> code_action e s uri rng = Val (Reply (Some []))) /\
     (forall n, has_number (o_name o) n -> no_overflow (recorded (pr_stmts pr) (pr_tokens pr)) o n 1 ->
        exists a edits, code_action e (with_lazy true s) uri rng = Val (Reply (Some [a])) /\ ca_edit a = None /\
          replaces src (moved o n 1) (recorded (pr_stmts pr) (pr_tokens pr)) edits /\
          code_action_resolve e s a = Val (Reply (mkCA (ca_title a) (ca_data a) (Some (uri, edits)))) /\
          code_action e (with_lazy false s) uri rng = Val (Reply (Some [mkCA (ca_title a) (ca_data a) (Some (uri, edits))])))).
Proof. exact shifted_action. Qed.
Print Assumptions C44_edits.
Example C44_ex : plain_document doc10 /\ e_url_parse env11 (str "f") = Some (str "f") /\
  code_action env11 (with_lazy true s11') (str "f") (mkRange (mkPos 1 7) (mkPos 1 7)) = Val (Reply (Some [old_action])) /\
  option_map snd (ca_edit old_action) = None /\
  code_action_resolve env11 s11' old_action = Val (Reply (mkCA (str "Shift variable numbering") (ca_data old_action)
    (Some (str "f", [mkEdit (mkRange (mkPos 1 7) (mkPos 1 9)) (str "%6"); mkEdit (mkRange (mkPos 2 16) (mkPos 2 18)) (str "%6")])))).
Proof. split; [apply opened10|]. split; [reflexivity|]. split; [|split]; vm_compute; reflexivity. Qed.

(** C45 *)
Theorem C45_only_these_panics : forall e s a j ad src d, ca_data a = Some j -> action_data_of_json e j = Some ad ->
  plain_document src -> visits_all (e_ord e) -> opened e s (ad_uri ad) src d -> code_action_resolve e s a = Panic ->
  ~ scope_exists (length (function_defs (doc_stmts d))) (ad_kind ad) (ad_body ad) \/
  (e_pf e = Debug /\ exists pr x, parse_from_str (e_u e) src = Val pr /\ In x (recorded (pr_stmts pr) (pr_tokens pr)) /\ has_number (o_name x) max_i64).
Proof. exact resolve_panics. Qed.
Print Assumptions C45_only_these_panics.
Theorem C45_present_offer : forall e s uri src d rng l a, plain_document src -> visits_all (e_ord e) -> opened e s uri src d -> e_url_parse e uri = Some uri ->
  code_action e (with_lazy true s) uri rng = Val (Reply (Some l)) -> In a l -> code_action_resolve e s a = Panic ->
  e_pf e = Debug /\ exists pr x, parse_from_str (e_u e) src = Val pr /\ In x (recorded (pr_stmts pr) (pr_tokens pr)) /\ has_number (o_name x) max_i64.
Proof. exact offered_resolve. Qed.
Print Assumptions C45_present_offer.
Theorem C45_stale_refuted : exists e s uri t1 t2 s1 p1 s2 p2 rng a, plain_document t1 /\ plain_document t2 /\
  did_open e s uri t1 1 = Val (s1, p1) /\ code_action e (with_lazy true s1) uri rng = Val (Reply (Some [a])) /\
  did_change e s1 uri [t2] 2 = Val (s2, p2) /\ code_action_resolve e s2 a = Panic.
Proof. exact stale_action_panics. Qed.
Print Assumptions C45_stale_refuted.

(** C46 *)
Theorem C46_single_partial : forall e s uri c v s' p, did_change e s uri [c] v = Val (s', p) ->
  exists d, analyze e uri c = Val (d, pub_diags p) /\ get_doc s' uri = Some d.
Proof. exact single_change. Qed.
Print Assumptions C46_single_partial.
Theorem C46_several_refuted : exists e s uri c1 c2 s' p d1 d2, did_change e s uri [c1; c2] 2 = Val (s', p) /\ doc_of e c1 = d1 /\ doc_of e c2 = d2 /\
  get_doc s' uri = Some d1 /\ doc_rope d1 = c1 /\ c1 <> c2 /\ pub_diags p <> diags_of e uri c2.
Proof. exact changes_ignored. Qed.
Print Assumptions C46_several_refuted.
Theorem C46_empty_refuted : exists e s uri v, did_change e s uri [] v = Panic.
Proof. exact no_changes_panic. Qed.
Print Assumptions C46_empty_refuted.
Example C46_ex : exists s' p, did_change env11 s11' (str "f") [sb] 4 = Val (s', p) /\ length (pub_diags p) = 1.
Proof.
  exists (after env11 s11' [NChange (str "f") [sb] 4]), (mkPub (str "f") 4 (diags_of env11 (str "f") sb)). split; vm_compute; reflexivity.
Qed.

(** C47 *)
Theorem C47_harmless : forall e s q uri, get_doc s uri = None -> about e q uri -> exists r, handle e s q = Val r /\ nothing r.
Proof. exact unknown_harmless. Qed.
Print Assumptions C47_harmless.
Example C47_ex : get_doc s11' (str "h") = None /\ about env11 (QHints (str "h")) (str "h") /\ about env11 (QCommand (str "visualize-cfg") [JStr (str "h"); JStr (str "@g")]) (str "h").
Proof. split; [vm_compute; reflexivity|]. split; [reflexivity|]. intros u f H. inversion H. reflexivity. Qed.

(** C48: the server blocks only at a change while a graph of a document of the same shard is unanswered *)
Theorem C48_cause : forall e ss s evs w, wrun e ss (world_init s) evs = Some w -> w_health w = Blocked ->
  exists pre u t v g f, evs = pre ++ [EChange u t v] /\ In (EVisualize g f) pre /\ ss u g = true /\ answers_no pre < graphs_no pre.
Proof. exact blocked_cause. Qed.
Print Assumptions C48_cause.
Theorem C48_answered : forall e ss s evs w, wrun e ss (world_init s) evs = Some w -> answered_before_changes evs -> w_health w <> Blocked.
Proof. exact never_blocked. Qed.
Print Assumptions C48_answered.
Theorem C48_can_finish : forall e ss w, w_health w = Alive -> exists evs w', wrun e ss w evs = Some w' /\ w_health w' = Alive /\ w_waiting w' = [] /\ w_guards w' = [] /\
  w_sent w' = w_sent w ++ w_waiting w /\ w_server w' = w_server w /\ Forall (fun ev => is_publish ev \/ is_graph_answer ev) evs.
Proof. exact all_can_finish. Qed.
Print Assumptions C48_can_finish.
Example C48_ex : answered_before_changes sched11 /\ graphs_no sched11 = 1.
Proof. split; [exact answered11|reflexivity]. Qed.
Theorem C48_blocks_refuted : exists e ss s u f t1 t2 w, wrun e ss (world_init s) [EChange u t1 1; EPublish 0; EVisualize u f; EChange u t2 2] = Some w /\
  w_health w = Blocked /\ forall evs w', wrun e ss w evs = Some w' -> evs = [].
Proof. exact blocks_forever. Qed.
Print Assumptions C48_blocks_refuted.
