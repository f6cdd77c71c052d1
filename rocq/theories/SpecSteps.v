(** What a rename has to look like to give a text in which the names are read again. *)
From Verif Require Import Text Chumsky Tokenizer Parser Numbers Index Rename SpecText SpecLex SpecParse SpecIndex SpecDiag SpecRename SpecPatch SpecSimilar SpecRebind.

(** [new] stands for the name [final] of the symbol of [o]; labels keep away from the words the grammar knows, and the name is not one of both a function and a global variable. *)
Definition proper (u : uclass) (pr : parser_result) (o : occurrence) (new final : text) : Prop :=
  accepted u (o_kind o) new final /\ (forall b, final <> b ++ [ch ":"]) /\
  (o_kind o = KLabel -> free_word final /\ plain_word (o_name o) /\ plain_word final) /\
  (global (o_kind o) -> ~ dual (pr_stmts pr) (o_name o)).
