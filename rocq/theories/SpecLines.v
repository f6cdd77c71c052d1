(** Documents that differ in blank lines and comments only. *)
From Verif Require Import Text Chumsky Tokenizer Parser Index SpecLex SpecParse SpecIndex SpecDiag SpecSimilar SpecRebind.

(** Where a reader is: at the start of a line, behind a comma or a type (where
    the next token belongs to them, whatever it is), or elsewhere in a line. *)
Inductive place := LineStart | Open | Within.
Definition next_place (p : place) (t : token) : place :=
  match t with
  | TNewline => match p with Open => Within | _ => LineStart end
  | TPunct c => if N.eqb c (ch ",") then Open else Within
  | TType _ => Open
  | _ => Within
  end.
(** The same tokens; more or fewer newlines at line starts and at the end. *)
Inductive relined : place -> list stoken -> list stoken -> Prop :=
| rl_end p x x' : newlines x -> newlines x' -> relined p x x'
| rl_token p a a' x x' : fst a = fst a' -> relined (next_place p (fst a)) x x' -> relined p (a :: x) (a' :: x')
| rl_more a' x x' : fst a' = TNewline -> relined LineStart x x' -> relined LineStart x (a' :: x')
| rl_less a x x' : fst a = TNewline -> relined LineStart x x' -> relined LineStart (a :: x) x'.

(** The tokens other than newlines and comments. *)
Definition solid (toks : list stoken) : list stoken :=
  filter (fun t => match fst t with TNewline | TComment => false | _ => true end) toks.

(** A line with nothing but blanks and perhaps a comment. *)
Inductive idle_line : text -> Prop :=
| il_blank bl e : Forall blank bl -> (e = [LF] \/ e = [CR; LF]) -> idle_line (bl ++ e)
| il_comment bl c : Forall blank bl -> ~ In LF c -> idle_line (bl ++ ch "#" :: c ++ [LF]).

(** The place behind some tokens. *)
Definition place_after (toks : list stoken) : place := fold_left next_place (map fst toks) LineStart.
(** The names of two parsed documents are bound in the same way, given which
    tokens correspond; the same uses are undefined, the same names are defined again. *)
Definition bound_over (T : stoken -> stoken -> Prop) (pr pr' : parser_result) : Prop :=
  same_bindings T (recorded (pr_stmts pr) (pr_tokens pr)) (recorded (pr_stmts pr') (pr_tokens pr')) /\
  Forall2 (same_occ T) (undefined_uses (recorded (pr_stmts pr) (pr_tokens pr))) (undefined_uses (recorded (pr_stmts pr') (pr_tokens pr'))) /\
  Forall2 (fun a b => same_occ T (fst a) (fst b) /\ same_occ T (snd a) (snd b))
    (redefinitions (recorded (pr_stmts pr) (pr_tokens pr))) (redefinitions (recorded (pr_stmts pr') (pr_tokens pr'))).
(** Two documents without errors that say the same, apart from lines without a meaning. *)
Definition say_alike (pr pr' : parser_result) : Prop :=
  let T := counterparts (solid (pr_tokens pr)) (solid (pr_tokens pr')) in
  map fst (solid (pr_tokens pr')) = map fst (solid (pr_tokens pr)) /\ pr_errors pr = [] /\ pr_errors pr' = [] /\
  Forall2 (same_stmt T) (pr_stmts pr) (pr_stmts pr') /\ bound_over T pr pr'.
