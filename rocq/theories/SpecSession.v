(** What a client relies on during a session. *)
From Verif Require Import Text Rope Chumsky Tokenizer Parser Numbers Index SemTok Diag Rename Cfg Backtrace Server Dispatch Session SpecServer.

(** The text and the version of a document the client has open. *)
Definition open_now (uri : text) (ms : list message) : option (text * Z) :=
  fold_left (fun acc m => match m with
                          | MNote n => if text_eqb uri (note_uri n) then option_map (fun t => (t, note_version n)) (note_text n) else acc
                          | MClose u => if text_eqb uri u then None else acc
                          | _ => acc
                          end) ms None.
(** The diagnostics on the screen: those of the last message about the document. *)
Definition on_screen (uri : text) (ps : list publish) : list diagnostic :=
  fold_left (fun acc p => if text_eqb uri (pub_uri p) then pub_diags p else acc) ps [].
Definition one_text (m : message) : Prop := match m with MNote n => single n | _ => True end.
(** The message opens or changes the document. *)
Definition carries (uri : text) (m : message) : Prop := match m with MNote n => note_uri n = uri | _ => False end.
