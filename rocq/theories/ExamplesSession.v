(** Examples for PropertiesSession.v. *)
From Verif Require Import Text Rope Chumsky Tokenizer Parser Numbers Index SemTok Diag Rename Cfg Backtrace Server Dispatch Session SpecText SpecServer SpecSession
  ExamplesIndex ExamplesCfg ExamplesView ExamplesRename ExamplesServer.

Definition after_all (ms : list message) : server := match session env11 (Some [root8]) None None ms with Val (s, _) => s | Panic => server_init end.
Definition sent_all (ms : list message) : list publish := match session env11 (Some [root8]) None None ms with Val (_, ps) => ps | Panic => [] end.
(** a document is opened, changed, closed and opened again, another one in between *)
Definition hist89 : list message :=
  [MInitialized; MNote (NOpen (str "f") sa 1); MNote (NOpen (str "g") sb 1); MNote (NChange (str "f") [sb] 2); MClose (str "f"); MSave (str "g"); MNote (NOpen (str "f") doc10 1); MClose (str "g")].
Lemma hist89_ok : Forall one_text hist89 /\ session env11 (Some [root8]) None None hist89 = Val (after_all hist89, sent_all hist89) /\ open_now (str "f") hist89 = Some (doc10, 1%Z) /\
  open_now (str "g") hist89 = None /\ e_url_parse env11 (str "f") = Some (str "f").
Proof. split; [repeat constructor|]. split; [vm_compute; reflexivity|]. split; [vm_compute; reflexivity|]. split; vm_compute; reflexivity. Qed.
(** closed, but the reports stay and requests are answered *)
Lemma closed_stays : exists e f r c ms s ps uri q, Forall one_text ms /\ session e f r c ms = Val (s, ps) /\ In (MClose uri) ms /\ open_now uri ms = None /\ about e q uri /\
  on_screen uri ps <> [] /\ forall x, handle e s q = Val x -> ~ nothing x.
Proof.
  exists env11, (Some [root8]), None, None, hist89, (after_all hist89), (sent_all hist89), (str "g"), (QSymbols (str "g")). split; [exact (proj1 hist89_ok)|]. split; [exact (proj1 (proj2 hist89_ok))|].
  split; [apply (nth_error_In _ 7); reflexivity|]. split; [vm_compute; reflexivity|]. split; [reflexivity|]. split; [vm_compute; discriminate|].
  assert (match handle env11 (after_all hist89) (QSymbols (str "g")) with Val (RSymbols (Some _)) => True | _ => False end) as G by (vm_compute; exact I).
  intros x H. rewrite H in G. clear H. destruct x as [| | |[l|]| | | | | | | | |]; try contradiction. intros N. discriminate N.
Qed.
(** a folder that is added later is not searched *)
Definition late89 : list message := [MInitialized; MFolders [root8] []; MNote (NOpen (str "f") doc1 1)].
Definition early89 : list message := [MInitialized; MNote (NOpen (str "f") doc1 1)].
Definition asked89 : request := QDefinition (str "f") (lsp_position doc1 21).
Definition run89 (f : option (list url)) (ms : list message) : server * list publish := match session env11 f None None ms with Val x => x | Panic => (server_init, []) end.
Definition answer89 (f : option (list url)) (ms : list message) : response := match handle env11 (fst (run89 f ms)) asked89 with Val x => x | Panic => RError [] end.
Lemma folders_late : exists e u ms ms' s ps s' ps' q x x', session e None None None ms = Val (s, ps) /\ session e (Some [u]) None None ms' = Val (s', ps') /\
  ms = MInitialized :: MFolders [u] [] :: ms' /\ handle e s q = Val x /\ handle e s' q = Val x' /\ x <> x'.
Proof.
  exists env11, root8, late89, (tl early89), (fst (run89 None late89)), (snd (run89 None late89)), (fst (run89 (Some [root8]) (tl early89))), (snd (run89 (Some [root8]) (tl early89))), asked89.
  exists (answer89 None late89), (answer89 (Some [root8]) (tl early89)).
  split; [vm_compute; reflexivity|]. split; [vm_compute; reflexivity|]. split; [reflexivity|]. split; [vm_compute; reflexivity|]. split; [vm_compute; reflexivity|]. vm_compute. discriminate.
Qed.
Lemma answers89 : answer89 None late89 = RPlaces (Some (mkRange (mkPos 1 13) (mkPos 1 15), [])) /\
  answer89 (Some [root8]) (tl early89) = RPlaces (Some (mkRange (mkPos 1 13) (mkPos 1 15), [mkLocn (str "file://") (mkRange (mkPos 6 0) (mkPos 6 0))])).
Proof. split; vm_compute; reflexivity. Qed.
