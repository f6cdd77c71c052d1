(** Tokens that differ in the value of a literal at most. *)
From Verif Require Import Text Chumsky Tokenizer Parser SpecParse SpecSimilar.

(** The same token, two names of one kind, or two literals or modifiers of one kind, or two
    types other than [int1], which conditional branches are told by. *)
Definition resembles (t t' : token) : Prop :=
  t = t' \/
  match t, t' with
  | TGlobalName _, TGlobalName _ | TLocalName _, TLocalName _ | TDebugRef _, TDebugRef _ => True
  | TIdent a, TIdent b => plain_word a /\ plain_word b
  | TNum _, TNum _ | THexNum _, THexNum _ | TStr _, TStr _ | TFuncModifier _, TFuncModifier _ => True
  | TType a, TType b => a <> str "int1" /\ b <> str "int1"
  | _, _ => False
  end.
(** The same token, or two literals or modifiers of one kind, or two
    types other than [int1], which conditional branches are told by. *)
Definition revalued (t t' : token) : Prop :=
  t = t' \/
  match t, t' with
  | TNum _, TNum _ | THexNum _, THexNum _ | TStr _, TStr _ | TFuncModifier _, TFuncModifier _ => True
  | TType a, TType b => a <> str "int1" /\ b <> str "int1"
  | _, _ => False
  end.
