(** Documents that differ in blanks, comments and line ends only. *)
From Verif Require Import Text Rope Chumsky Tokenizer Parser Index Diag Server SpecText SpecLex SpecIndex SpecDiag SpecView SpecSimilar SpecRebind.

(** Characters that no name goes on with, and tokens that do not go on. *)
Definition separators : text := str "[]{}()<>=,;*.#@%!" ++ [DQUOTE; LF; CR; SPACE; TAB].
Definition apart (before : token) (next : text) : Prop :=
  (exists c, before = TPunct c /\ c <> ch ":") \/ (exists b, before = TStr b) \/
  next = [] \/ exists c r, next = c :: r /\ In c separators.
(** Blanks between two tokens may be changed; they may be removed in front of the
    first token of a line and where the tokens stay apart; what is put behind a
    comment belongs to the comment. *)
Definition may_change (before : option token) (bl bl' next : text) : Prop :=
  match before with
  | None | Some TNewline => True
  | Some TComment => bl' = []
  | Some t => bl' = [] -> bl = [] \/ apart t next
  end.
(** Comments may say something else; a line may end in another way, unless with a comment. *)
Definition may_vary (before : option token) (t : token) (w w' : text) : Prop :=
  t = TComment \/ (t = TNewline /\ before <> Some TComment) \/ w' = w.
(** Two texts with the same tokens, the second one laid out in another way. *)
Inductive respaced (u : uclass) : option token -> text -> text -> Prop :=
| rs_end b bl bl' : Forall blank bl -> Forall blank bl' -> may_change b bl bl' [] -> respaced u b bl bl'
| rs_token b bl bl' t w w' r r' : Forall blank bl -> Forall blank bl' -> may_change b bl bl' w' ->
    longest u t w r -> lexeme u t w' -> may_vary b t w w' ->
    respaced u (Some t) r r' -> respaced u b (bl ++ w ++ r) (bl' ++ w' ++ r').

(** Answers that name corresponding places. *)
Definition told_alike (T : stoken -> stoken -> Prop) (src uri src' uri' : text) (o o' : occurrence) (r r' : option (range_ * list location)) : Prop :=
  exists os os' ls, Forall2 (same_occ T) os os' /\
    r = Some (lsp_range src (o_span o), map (location_of src uri) (map o_span os) ++ ls) /\
    r' = Some (lsp_range src' (o_span o'), map (location_of src' uri') (map o_span os') ++ ls).
