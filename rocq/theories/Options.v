(** Requests with the options that a client can set. *)
From Verif Require Import Text Rope Chumsky Tokenizer Parser Index Diag Cfg Backtrace Server.

(** src/main.rs:223-228: [params.context.include_declaration] is not read *)
Definition references_request (e : env) (s : server) (uri : text) (pos : position_) (include_declaration : bool)
  : res (option (list location)) :=
  references e s uri pos.
(** src/main.rs:514-622: [params.range] is not read *)
Definition inlay_hint_request (e : env) (s : server) (uri : text) (visible : range_) : res (option (list inlay_hint)) :=
  inlay_hint_handler e s uri.
