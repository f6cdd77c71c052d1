(** Every syntax error: where the reading of a statement began, how far it came,
    and that nothing behind the marked token could have helped. *)
From Verif Require Import Text Chumsky Tokenizer Parser SpecParse SpecExact SpecFault SpecDiag SpecViable SpecSalvage.

(** The error [e] is about the first token of [y]. *)
Definition about (eoi : span) (y : list stoken) (e : simple token) : Prop :=
  match y with
  | t :: _ => e_span e = snd t /\ faults (fst t) e
  | [] => faults_end eoi e
  end.
(** Blank lines and the beginning of a statement. *)
Definition begun (a : list stoken) : Prop := exists nls last, a = nls ++ last /\ newlines nls /\ begins_statement last.
(** Whatever comes behind the first token of [y]: if [a] is in front of it, no
    statement can be read. *)
Definition hopeless_at (a y : list stoken) : Prop :=
  forall t w, y = t :: w -> tidy (a ++ [t]) -> forall w', unreadable (a ++ t :: w').

(** The reading of [st] stops at the token that [e] marks. *)
Definition stuck (eoi : span) (st : list stoken) (e : simple token) : Prop :=
  exists a y, st = a ++ y /\ about eoi y e /\ begun a /\ hopeless_at a y.
(** The last error of a document that is lost: [st] cannot be read, and the
    error marks the furthest token to which the reading of any statement of the
    document came; [starts] are the places where statements begin. *)
Definition stuck_last (eoi : span) (starts : list (list stoken)) (st : list stoken) (e : simple token) : Prop :=
  exists a y, st = a ++ y /\ about eoi y e /\ hopeless_at a y /\ exists q b, In q starts /\ q = b ++ y /\ begun b.

(** One complaint for each of some instructions, at its name. *)
Inductive blames : list instruction -> list (simple token) -> Prop :=
| bl_nil : blames [] []
| bl_pass i l es : blames l es -> blames (i :: l) es
| bl_one i l e es : e_span e = snd (i_instr i) -> faults_name (fst (i_instr i)) e -> blames l es -> blames (i :: l) (e :: es).

(** [faulty eoi starts toks o errs]: as [salvage], with the errors. *)
Inductive faulty (eoi : span) : list (list stoken) -> list stoken -> option (list statement) -> list (simple token) -> Prop :=
| fy_end starts : faulty eoi starts [] (Some []) []
| fy_next starts st s n rest es o more : next st s n rest -> blames (instructions [s]) es -> length es = n ->
    faulty eoi (st :: starts) rest o more -> faulty eoi starts st (option_map (cons s) o) (es ++ more)
| fy_skip starts g st s n rest e es o more : g <> [] ->
    (forall g1 g2, g = g1 ++ g2 -> g2 <> [] -> unreadable (g2 ++ st)) -> stuck eoi (g ++ st) e ->
    next st s n rest -> blames (instructions [s]) es -> length es = n ->
    faulty eoi (st :: (g ++ st) :: starts) rest o more -> faulty eoi starts (g ++ st) (option_map (cons s) o) (es ++ e :: more)
| fy_lost starts st e : st <> [] -> (forall g r, st = g ++ r -> unreadable r) -> stuck_last eoi (st :: starts) st e ->
    faulty eoi starts st None [e].
