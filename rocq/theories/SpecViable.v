(** Beginnings: what is in front of the first syntax error, and documents
    about which the server does not complain. *)
From Verif Require Import Text Chumsky Tokenizer Parser Index SpecLex SpecParse SpecExact SpecIndex SpecDiag.

(** Tokens with which a statement can begin; the whole statement may count too. *)
Definition begins_statement (toks : list stoken) : Prop := exists more s n, stmt_seg any_form s n (toks ++ more) [].
(** Complete statements, and the beginning of another one. *)
Definition viable (toks : list stoken) : Prop :=
  exists ss done nls last, toks = done ++ nls ++ last /\ module_at ss done /\ newlines nls /\ begins_statement last.

(** Every name that is used is introduced. *)
Definition all_introduced (ss : list statement) (toks : list stoken) : Prop :=
  forall o, o_ud o = Use -> In o (tree_occs 0 ss) \/ (exists t, In t toks /\ In o (token_occs ss t)) -> introduced ss o.
(** No symbol is defined at two places. *)
Definition defined_once (ss : list statement) : Prop :=
  forall o f, In o (tree_occs 0 ss) -> In f (tree_occs 0 ss) -> o_ud o = Def -> o_ud f = Def -> same_symbol o f -> o = f.
(** Every branch says where to. *)
Definition branches_lead (ss : list statement) : Prop :=
  forall i, In i (instructions ss) -> needs_targets i -> i_refs i <> [].

(** Statements, or none at all. *)
Definition contents (ss : list statement) (toks : list stoken) : Prop := module_at ss toks \/ (ss = [] /\ newlines toks).
(** A program: tokens, statements, names and branches are all in order. *)
Definition program (u : uclass) (src : text) : Prop :=
  exists toks ss, lexes u 0 src toks 0 /\ contents ss (without_comments toks) /\
    all_introduced ss toks /\ defined_once ss /\ branches_lead ss.
(** The text breaks off inside a token. *)
Definition unfinished_token (u : uclass) (src : text) : Prop :=
  ~ (exists toks, lexes u 0 src toks 0) /\ exists more toks, lexes u 0 (src ++ more) toks 0.
(** The text breaks off inside a statement. *)
Definition unfinished_statement (u : uclass) (src : text) : Prop :=
  exists toks, lexes u 0 src toks 0 /\ viable (without_comments toks) /\ ~ exists ss, contents ss (without_comments toks).
