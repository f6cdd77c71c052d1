(** Property theorems C89: sessions in which documents are opened, changed, saved and closed. *)
From Verif Require Import Text Rope Chumsky Tokenizer Parser Numbers Index SemTok Diag Rename Cfg Backtrace Server Dispatch Session SpecText SpecServer SpecSession
  PSession ExamplesIndex ExamplesCfg ExamplesView ExamplesRename ExamplesServer ExamplesSession.

(** C89: whatever was opened, changed, saved and closed before, an open document is shown as in a session that has only this document with its present text *)
Theorem C89_open : forall e f r c ms s ps uri t v, Forall one_text ms -> session e f r c ms = Val (s, ps) -> open_now uri ms = Some (t, v) -> e_url_parse e uri = Some uri ->
  exists s0 p0, session e f r c [MNote (NOpen uri t v)] = Val (s0, [p0]) /\ on_screen uri ps = pub_diags p0 /\ forall q, about e q uri -> handle e s q = handle e s0 q.
Proof. exact session_open. Qed.
Print Assumptions C89_open.
(** C89: nothing is shown of a document that was never opened *)
Theorem C89_never : forall e f r c ms s ps uri q, Forall one_text ms -> session e f r c ms = Val (s, ps) -> Forall (fun m => ~ carries uri m) ms -> about e q uri ->
  on_screen uri ps = [] /\ exists x, handle e s q = Val x /\ nothing x.
Proof. exact session_never. Qed.
Print Assumptions C89_never.
Example C89_ex : Forall one_text hist89 /\ session env11 (Some [root8]) None None hist89 = Val (after_all hist89, sent_all hist89) /\ open_now (str "f") hist89 = Some (doc10, 1%Z) /\
  open_now (str "g") hist89 = None /\ e_url_parse env11 (str "f") = Some (str "f").
Proof. exact hist89_ok. Qed.
(** C89: a closed document is still shown: this is what should not be, *)
Theorem C89_closed_refuted : exists e f r c ms s ps uri q, Forall one_text ms /\ session e f r c ms = Val (s, ps) /\ In (MClose uri) ms /\ open_now uri ms = None /\ about e q uri /\
  on_screen uri ps <> [] /\ forall x, handle e s q = Val x -> ~ nothing x.
Proof. exact closed_stays. Qed.
Print Assumptions C89_closed_refuted.
(** and this is what happens: it stays on the screen with its last text until it is opened again *)
Theorem C89_closed : forall e f r c pre post s ps uri t v, Forall one_text (pre ++ MClose uri :: post) -> session e f r c (pre ++ MClose uri :: post) = Val (s, ps) ->
  open_now uri pre = Some (t, v) -> Forall (fun m => ~ carries uri m) post -> e_url_parse e uri = Some uri ->
  exists s0 p0, session e f r c [MNote (NOpen uri t v)] = Val (s0, [p0]) /\ on_screen uri ps = pub_diags p0 /\ forall q, about e q uri -> handle e s q = handle e s0 q.
Proof. exact session_closed. Qed.
Print Assumptions C89_closed.
(** C89: the folders searched for other files are those of the beginning, even if the client reports others *)
Theorem C89_folders : forall e f r c ms s ps, Forall one_text ms -> session e f r c ms = Val (s, ps) ->
  roots s = match f with Some fs => fs | None => match r with Some x => [x] | None => [] end end.
Proof. exact session_folders. Qed.
Print Assumptions C89_folders.
Theorem C89_folders_refuted : exists e u ms ms' s ps s' ps' q x x', session e None None None ms = Val (s, ps) /\ session e (Some [u]) None None ms' = Val (s', ps') /\
  ms = MInitialized :: MFolders [u] [] :: ms' /\ handle e s q = Val x /\ handle e s' q = Val x' /\ x <> x'.
Proof. exact folders_late. Qed.
Print Assumptions C89_folders_refuted.
Example C89_folders_ex : answer89 None late89 = RPlaces (Some (mkRange (mkPos 1 13) (mkPos 1 15), [])) /\
  answer89 (Some [root8]) (tl early89) = RPlaces (Some (mkRange (mkPos 1 13) (mkPos 1 15), [mkLocn (str "file://") (mkRange (mkPos 6 0) (mkPos 6 0))])).
Proof. exact answers89. Qed.
