(** What the server should do with messages. *)
From Verif Require Import Text Rope Chumsky Tokenizer Parser Numbers Index SemTok Diag Rename Cfg Backtrace Server Dispatch.

(** ** Histories *)
Definition note_uri (n : note) : text := match n with NOpen u _ _ => u | NChange u _ _ => u end.
(** The text of a document after a notification: that of the last change. *)
Definition note_text (n : note) : option text := match n with NOpen _ t _ => Some t | NChange _ cs _ => last (map Some cs) None end.
Definition note_version (n : note) : Z := match n with NOpen _ _ v => v | NChange _ _ v => v end.
(** Clients of a server with full synchronisation send one text. *)
Definition single (n : note) : Prop := match n with NOpen _ _ _ => True | NChange _ cs _ => length cs = 1 end.
Definition last_text (uri : text) (ns : list note) : option text :=
  fold_left (fun acc n => if text_eqb uri (note_uri n) then note_text n else acc) ns None.

(** Is the request about this document? *)
Definition about (e : env) (q : request) (uri : text) : Prop :=
  match q with
  | QDefinition u _ | QDeclaration u _ | QReferences u _ | QTokens u | QSymbols u | QPrepareRename u _ | QRename u _ _
  | QAction u _ | QFolding u | QHints u | QLenses u => u = uri
  | QResolve a => forall j ad, ca_data a = Some j -> action_data_of_json e j = Some ad -> ad_uri ad = uri
  | QCommand _ args => forall u f, args = [JStr u; JStr f] -> u = uri
  end.
(** Answers without content. *)
Definition nothing (r : response) : Prop :=
  match r with
  | RPlaces x => x = None | RLocations x => x = None | RTokens x => x = None | RSymbols x => x = None | RRange x => x = None
  | RActions x => x = None | RFolds x => x = None | RHints x => x = None | RLenses x => x = None
  | RError _ => True
  | REdits _ | RAction _ | RShown _ => False
  end.

(** ** Schedules *)
(** The message that is right for a text. *)
Definition published (e : env) (uri src : text) (v : Z) (p : publish) : Prop :=
  pub_uri p = uri /\ pub_version p = v /\ exists d, analyze e uri src = Val (d, pub_diags p).
Definition changes (evs : list event) : list (text * text * Z) :=
  flat_map (fun ev => match ev with EChange u t v => [(u, t, v)] | _ => [] end) evs.
(** Requests for graphs not answered yet.  (Each answer belongs to a request.) *)
Definition answers_no (evs : list event) : nat := length (filter (fun ev => match ev with EAnswer _ => true | _ => false end) evs).
Definition graphs_no (evs : list event) : nat := length (filter (fun ev => match ev with EVisualize _ _ => true | _ => false end) evs).
(** All requests for graphs are answered before the next change. *)
Definition answered_before_changes (evs : list event) : Prop :=
  forall pre u t v post, evs = pre ++ EChange u t v :: post -> graphs_no pre <= answers_no pre.
(** Every change seen as the notification it came from. *)
Definition notes_of (evs : list event) : list note := map (fun '(u, t, v) => NOpen u t v) (changes evs).
Definition is_graph_answer (ev : event) : Prop := match ev with EAnswer _ => True | _ => False end.
Definition is_publish (ev : event) : Prop := match ev with EPublish _ => True | _ => False end.
(** Messages go out in the order of the changes. *)
Definition in_order (evs : list event) : Prop := forall n, In (EPublish n) evs -> n = 0.

(** ** Code actions *)
Definition with_lazy (b : bool) (s : server) : server := mkServer (roots s) b (docs s).
(** Is there such a scope? *)
Definition scope_exists (functions_no : nat) (k : symbol_kind) (b : option nat) : Prop :=
  match b with Some i => i < functions_no | None => k <> KLabel /\ k <> KLocalVar end.
