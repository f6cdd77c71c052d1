(** A session: src/main.rs:56-179 and the default methods of the LanguageServer
    trait for what Backend does not define.  tower-lsp calls [initialize] once,
    before everything else; it is not part of the model that it refuses other
    messages before [initialize] and after [shutdown]. *)
From Verif Require Import Text Rope Chumsky Tokenizer Parser Numbers Index SemTok Diag Rename Cfg Backtrace Server Dispatch.

(** Messages that get no answer with contents. *)
Inductive message :=
| MInitialized                 (* src/main.rs:156-161: writes to the log *)
| MNote (n : note)             (* src/main.rs:163-179 *)
| MClose (uri : text)          (* no handler: the default of did_close writes to the log *)
| MSave (uri : text)           (* no handler: the default of did_save writes to the log *)
| MFolders (added removed : list url). (* no handler: the default of did_change_workspace_folders writes to the log *)

Definition take_message (e : env) (s : server) (m : message) : res (server * list publish) :=
  match m with
  | MNote n => rmap (fun '(s', p) => (s', [p])) (notify e s n)
  | MInitialized | MClose _ | MSave _ | MFolders _ _ => Val (s, [])
  end.
Fixpoint take_all (e : env) (s : server) (ms : list message) : res (server * list publish) :=
  match ms with
  | [] => Val (s, [])
  | m :: r => rbind (take_message e s m) (fun '(s', p) => rmap (fun '(s'', ps) => (s'', p ++ ps)) (take_all e s' r))
  end.
(** from the start of the process *)
Definition session (e : env) (folders : option (list url)) (root : option url) (caps : option action_caps) (ms : list message)
  : res (server * list publish) :=
  take_all e (fst (initialize server_init folders root caps)) ms.
