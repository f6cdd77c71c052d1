(** Histories and schedules for the examples of PropertiesServer.v. *)
From Verif Require Import Text Rope Chumsky Tokenizer Parser Numbers Index SemTok Diag Rename Cfg Backtrace Server Dispatch SpecText SpecLex SpecIndex SpecDiag SpecBacktrace SpecNumbers SpecCfg SpecView SpecRename SpecServer
  ExamplesIndex ExamplesCfg ExamplesView ExamplesRename.

Definition env11 : env := mkEnv u0 Debug (fun m => rev m) (fun _ => Some true) (fun x => url_base x) (fun t => Some t) (fun _ => None) (fun l => l).
Definition sa : text := str "@v = 5".
Definition sb : text := str "@w = 6 @".
Definition hist11 : list note := [NOpen (str "f") sa 1; NOpen (str "g") doc10 1; NChange (str "f") [sb] 2; NChange (str "f") [doc10] 3].
Definition after (e : env) (s : server) (ns : list note) : server := match receive e s ns with Val (s', _) => s' | Panic => s end.
Definition s11 : server := mkServer [root8] false [].
Definition s11' : server := after env11 s11 hist11.
Definition publishes (e : env) (s : server) (ns : list note) : list publish := match receive e s ns with Val (_, ps) => ps | Panic => [] end.
Definition diags_of (e : env) (uri src : text) : list diagnostic := match analyze e uri src with Val (_, ds) => ds | Panic => [] end.

(** a schedule: two changes of f, one of g; the messages out of order; a graph *)
Definition sched11 : list event :=
  [EChange (str "f") sa 1; EChange (str "f") sb 2; EPublish 1; EChange (str "g") doc10 1; EPublish 0; EVisualize (str "g") (str "@g"); EPublish 0; EAnswer 0; EChange (str "g") sa 2].
Definition no_share : shards := text_eqb.
Definition world_after (e : env) (ss : shards) (s : server) (evs : list event) : world := match wrun e ss (world_init s) evs with Some w => w | None => world_init s end.
Lemma answered11 : answered_before_changes sched11.
Proof.
  intros pre u t v post H. unfold sched11 in H.
  repeat (destruct pre as [|x pre]; [first [discriminate H | vm_compute; lia] | cbn [app] in H; first [discriminate H | injection H as E H; subst x]]).
Qed.

(** ** What goes wrong *)
Lemma late_message : exists e ss s evs w u t1 t2 p1 p2, wrun e ss (world_init s) evs = Some w /\ w_health w = Alive /\ w_waiting w = [] /\
  changes evs = [(u, t1, 1%Z); (u, t2, 2%Z)] /\ w_sent w = [p2; p1] /\ published e u t1 1 p1 /\ published e u t2 2 p2 /\ pub_diags p1 <> pub_diags p2.
Proof.
  exists env11, no_share, s11, [EChange (str "f") sa 1; EChange (str "f") sb 2; EPublish 1; EPublish 0].
  exists (world_after env11 no_share s11 [EChange (str "f") sa 1; EChange (str "f") sb 2; EPublish 1; EPublish 0]), (str "f"), sa, sb, (mkPub (str "f") 1 (diags_of env11 (str "f") sa)), (mkPub (str "f") 2 (diags_of env11 (str "f") sb)).
  split; [vm_compute; reflexivity|]. split; [vm_compute; reflexivity|]. split; [vm_compute; reflexivity|]. split; [reflexivity|]. split; [vm_compute; reflexivity|].
  split; [split; [reflexivity|]; split; [reflexivity|]; exists (doc_of env11 sa); vm_compute; reflexivity|].
  split; [split; [reflexivity|]; split; [reflexivity|]; exists (doc_of env11 sb); vm_compute; reflexivity|]. vm_compute. discriminate.
Qed.
(** an action offered for an old text *)
Definition old_action : code_action_ :=
  match code_action env11 (with_lazy true (after env11 s11 [NOpen (str "f") doc10 1])) (str "f") (mkRange (lsp_position doc10 43) (lsp_position doc10 43)) with
  | Val (Reply (Some [a])) => a
  | _ => mkCA [] None None
  end.
Lemma stale_action_panics : exists e s uri t1 t2 s1 p1 s2 p2 rng a, plain_document t1 /\ plain_document t2 /\
  did_open e s uri t1 1 = Val (s1, p1) /\ code_action e (with_lazy true s1) uri rng = Val (Reply (Some [a])) /\
  did_change e s1 uri [t2] 2 = Val (s2, p2) /\ code_action_resolve e s2 a = Panic.
Proof.
  exists env11, s11, (str "f"), doc10, sa, (after env11 s11 [NOpen (str "f") doc10 1]), (mkPub (str "f") 1 (diags_of env11 (str "f") doc10)).
  exists (after env11 s11 [NOpen (str "f") doc10 1; NChange (str "f") [sa] 2]), (mkPub (str "f") 2 (diags_of env11 (str "f") sa)).
  exists (mkRange (lsp_position doc10 43) (lsp_position doc10 43)), old_action.
  split; [split; [|split]; vm_compute; reflexivity|]. split; [split; [|split]; vm_compute; reflexivity|]. split; [vm_compute; reflexivity|]. split; [vm_compute; reflexivity|]. split; vm_compute; reflexivity.
Qed.
Lemma changes_ignored : exists e s uri c1 c2 s' p d1 d2, did_change e s uri [c1; c2] 2 = Val (s', p) /\ doc_of e c1 = d1 /\ doc_of e c2 = d2 /\
  get_doc s' uri = Some d1 /\ doc_rope d1 = c1 /\ c1 <> c2 /\ pub_diags p <> diags_of e uri c2.
Proof.
  exists env11, s11, (str "f"), sa, sb, (after env11 s11 [NOpen (str "f") sa 2]), (mkPub (str "f") 2 (diags_of env11 (str "f") sa)), (doc_of env11 sa), (doc_of env11 sb).
  split; [vm_compute; reflexivity|]. split; [reflexivity|]. split; [reflexivity|]. split; [vm_compute; reflexivity|]. split; [vm_compute; reflexivity|]. split; vm_compute; discriminate.
Qed.
Lemma no_changes_panic : exists e s uri v, did_change e s uri [] v = Panic.
Proof. exists env11, s11, (str "f"), 2%Z. reflexivity. Qed.
(** a change while the client shows a graph *)
Lemma blocks_forever : exists e ss s u f t1 t2 w, wrun e ss (world_init s) [EChange u t1 1; EPublish 0; EVisualize u f; EChange u t2 2] = Some w /\
  w_health w = Blocked /\ forall evs w', wrun e ss w evs = Some w' -> evs = [].
Proof.
  exists env11, no_share, s11, (str "f"), (str "@g"), doc10, sa, (world_after env11 no_share s11 [EChange (str "f") doc10 1; EPublish 0; EVisualize (str "f") (str "@g"); EChange (str "f") sa 2]).
  split; [vm_compute; reflexivity|]. assert (w_health (world_after env11 no_share s11 [EChange (str "f") doc10 1; EPublish 0; EVisualize (str "f") (str "@g"); EChange (str "f") sa 2]) = Blocked) as E by (vm_compute; reflexivity).
  split; [exact E|]. intros [|ev evs] w' H; [reflexivity|]. cbn [wrun] in H. unfold wstep in H. rewrite E in H. discriminate.
Qed.
