(** What a client is told when a request is refused. *)
From Verif Require Import Text Rope Chumsky Tokenizer Parser Numbers Index SemTok Diag Rename Cfg Backtrace Server Dispatch SpecText SpecParse SpecIndex SpecDiag SpecBacktrace SpecNumbers SpecCfg SpecView SpecRename SpecServer.

(** A new name for the symbol [o] is refused with the message [m]. *)
Inductive refused (e : env) (o : occurrence) (new : text) : text -> Prop :=
| rf_character : forall body c, ~ signed new -> without_sigil (o_kind o) new body -> In c body -> ~ name_char (e_u e) c ->
    refused e o new (str "Name contains invalid character")
| rf_digit : forall c body, ~ signed new -> without_sigil (o_kind o) new (c :: body) -> Forall (name_char (e_u e)) (c :: body) ->
    is_numeric (e_u e) c = true -> o_kind o <> KDbgAnnotation -> refused e o new (str "Name must not start with a digit")
| rf_shift : signed new -> (forall z, ~ asks_shift new z) -> refused e o new (str "Invalid relative rename `" ++ new ++ str "`")
| rf_unnumbered : forall z, asks_shift new z -> (e_pf e = Debug -> fits_i64 z) -> (forall n, ~ has_number (o_name o) n) ->
    refused e o new (str "Relative rename can only be applied to a numbered identifier").

(** A command [c] is refused with the message [m]; [texts] are the documents. *)
Definition defines (ss : list statement) (name : text) : Prop := exists f, In f (function_defs ss) /\ fst (fs_name (fst f)) = name.
Inductive command_refused (e : env) (texts : text -> option text) (c : text) (args : list json) : text -> Prop :=
| cr_unknown : c <> str "visualize-cfg" \/ (forall u f, args <> [JStr u; JStr f]) -> command_refused e texts c args (str "Invalid command `" ++ c ++ str "`")
| cr_document : forall u f, c = str "visualize-cfg" -> args = [JStr u; JStr f] -> texts u = None -> command_refused e texts c args (str "document `" ++ u ++ str "` not found")
| cr_function : forall u f t pr, c = str "visualize-cfg" -> args = [JStr u; JStr f] -> texts u = Some t -> parse_from_str (e_u e) t = Val pr ->
    ~ defines (pr_stmts pr) f -> command_refused e texts c args (str "function `" ++ f ++ str "` not found").
