(** What a syntax error asks for: it would be right there. *)
From Verif Require Import Text Chumsky Tokenizer Parser Rope Numbers Index Diag SpecLex SpecParse SpecExact SpecFault SpecViable.

(** A token that can follow: whatever its place, it continues the statements. *)
Definition fits (a : list stoken) (t : token) : Prop := forall sp, viable (a ++ [(t, sp)]).
(** Nothing is missing: complete statements, the last one perhaps without the end of its line. *)
Definition finished (a : list stoken) : Prop :=
  exists ss done nls last, a = done ++ nls ++ last /\ module_at ss done /\ newlines nls /\ (last = [] \/ exists s n, stmt_seg any_form s n last []).
(** One of the things that a message names. *)
Definition offer (a : list stoken) (x : text) : Prop :=
  (x = str "end of input" /\ finished a) \/ exists t, x = token_display t /\ fits a t.
(** A message: what it names would be right behind [a]. *)
Inductive advice (a : list stoken) (m : text) : Prop :=
| ad_list l : l <> [] -> Forall (offer a) l -> m = str "Unexpected token in input, expected " ++ join (str ", ") l -> advice a m
| ad_else : m = str "Unexpected token in input, expected something else" -> advice a m
| ad_kind good : demand m good -> (forall t, good t -> fits a t) -> advice a m.
