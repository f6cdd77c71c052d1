(** The messages of a client and the handler of each (src/main.rs:56-704, the
    LanguageServer trait; tower-lsp selects the handler by the method name). *)
From Verif Require Import Text Rope Chumsky Tokenizer Parser Numbers Index SemTok Diag Rename Cfg Backtrace Server.

(** Notifications that carry document texts.  (There is no didClose handler:
    documents stay in the map.) *)
Inductive note :=
| NOpen (uri src : text) (version : Z)                    (* src/main.rs:163-170 *)
| NChange (uri : text) (changes : list text) (version : Z). (* src/main.rs:172-179 *)
Definition notify (e : env) (s : server) (n : note) : res (server * publish) :=
  match n with
  | NOpen uri src v => did_open e s uri src v
  | NChange uri cs v => did_change e s uri cs v
  end.
(** One after the other; a panic ends the process. *)
Fixpoint receive (e : env) (s : server) (ns : list note) : res (server * list publish) :=
  match ns with
  | [] => Val (s, [])
  | n :: r => rbind (notify e s n) (fun '(s', p) => rmap (fun '(s'', ps) => (s'', p :: ps)) (receive e s' r))
  end.

Inductive request :=
| QDefinition (uri : text) (pos : position_)
| QDeclaration (uri : text) (pos : position_)
| QReferences (uri : text) (pos : position_)
| QTokens (uri : text)
| QSymbols (uri : text)
| QPrepareRename (uri : text) (pos : position_)
| QRename (uri : text) (pos : position_) (new : text)
| QAction (uri : text) (rng : range_)
| QResolve (a : code_action_)
| QFolding (uri : text)
| QHints (uri : text)
| QLenses (uri : text)
| QCommand (command : text) (args : list json).

Inductive response :=
| RPlaces (x : option (range_ * list location))
| RLocations (x : option (list location))
| RTokens (x : option (list lsp_token))
| RSymbols (x : option (list doc_symbol))
| RRange (x : option range_)
| REdits (x : list text_edit)
| RActions (x : option (list code_action_))
| RAction (x : code_action_)
| RFolds (x : option (list folding))
| RHints (x : option (list inlay_hint))
| RLenses (x : option (list lens))
| RShown (x : show_graph)       (* the graph sent to the client; the answer itself is null *)
| RError (msg : text).

Definition of_reply {A} (f : A -> response) (r : reply A) : response :=
  match r with Reply a => f a | RpcError m => RError m end.

(** No request changes the stored documents. *)
Definition handle (e : env) (s : server) (q : request) : res response :=
  match q with
  | QDefinition uri pos => rmap RPlaces (goto_definition e s uri pos)
  | QDeclaration uri pos => rmap RPlaces (goto_declaration e s uri pos)
  | QReferences uri pos => rmap RLocations (references e s uri pos)
  | QTokens uri => rmap RTokens (semantic_tokens_full s uri)
  | QSymbols uri => Val (RSymbols (document_symbol e s uri))
  | QPrepareRename uri pos => Val (RRange (prepare_rename s uri pos))
  | QRename uri pos new => rmap (of_reply REdits) (rename e s uri pos new)
  | QAction uri rng => rmap (of_reply RActions) (code_action e s uri rng)
  | QResolve a => rmap (of_reply RAction) (code_action_resolve e s a)
  | QFolding uri => Val (RFolds (folding_range s uri))
  | QHints uri => rmap RHints (inlay_hint_handler e s uri)
  | QLenses uri => Val (RLenses (code_lens e s uri))
  | QCommand c args => Val (of_reply RShown (execute_command s c args))
  end.
