(** Which words the offered code action replaces. *)
From Verif Require Import Text Rope Chumsky Tokenizer Parser Numbers Index SemTok Diag Rename Cfg Backtrace Server SpecText SpecLex SpecParse SpecIndex SpecDiag SpecView SpecNumbers SpecRename SpecWritten SpecServer SpecRenumber.

(** With the cursor at [p] exactly one action is offered.  It moves the numbers of
    [places] from [n] on by one, whether its edits are asked for later or not. *)
Definition action_renumbers (e : env) (s : server) (uri src : text) (p : nat) (places : list spanned) (n : N) : Prop :=
  let cursor := mkRange (lsp_position src p) (lsp_position src p) in
  exists a edits, code_action e (with_lazy true s) uri cursor = Val (Reply (Some [a])) /\ ca_edit a = None /\
    code_action_resolve e s a = Val (Reply (mkCA (ca_title a) (ca_data a) (Some (uri, edits)))) /\
    code_action e (with_lazy false s) uri cursor = Val (Reply (Some [mkCA (ca_title a) (ca_data a) (Some (uri, edits))])) /\
    renumbers src places n 1 edits.
