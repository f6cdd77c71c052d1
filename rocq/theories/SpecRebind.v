(** Two documents whose names are bound in the same way. *)
From Verif Require Import Text Chumsky Tokenizer Parser Index SpecParse SpecIndex SpecDiag SpecSimilar.

Definition same_occ (T : stoken -> stoken -> Prop) (x x' : occurrence) : Prop :=
  o_ud x = o_ud x' /\ o_kind x = o_kind x' /\ o_body x = o_body x' /\ T (occ_token x) (occ_token x').
(** The occurrences correspond one by one, and two of them belong to the same symbol in both documents or in none. *)
Definition same_bindings (T : stoken -> stoken -> Prop) (l l' : list occurrence) : Prop :=
  Forall2 (same_occ T) l l' /\
  forall x x' y y', In (x, x') (combine l l') -> In (y, y') (combine l l') -> (same_symbol x y <-> same_symbol x' y').
(** Functions and global variables share their names. *)
Definition namespace (k : symbol_kind) : symbol_kind := match k with KGlobalVar => KFunction | _ => k end.
(** No name that can be seen where [o] can be seen is [final]. *)
Definition unused (l : list occurrence) (o : occurrence) (final : text) : Prop :=
  forall x, In x l -> namespace (o_kind x) = namespace (o_kind o) -> o_body x = o_body o -> o_name x <> final.
Definition global (k : symbol_kind) : Prop := k = KGlobalVar \/ k = KFunction.

(** The same error at another place. *)
Definition same_complaint (a b : simple text) : Prop := e_reason a = e_reason b /\ e_expected a = e_expected b.
(** The names of two parsed documents are bound in the same way; the same uses are undefined, the same names are defined again. *)
Definition bound_alike (pr pr' : parser_result) : Prop :=
  same_bindings (counterparts (pr_tokens pr) (pr_tokens pr')) (recorded (pr_stmts pr) (pr_tokens pr)) (recorded (pr_stmts pr') (pr_tokens pr')) /\
  Forall2 (same_occ (counterparts (pr_tokens pr) (pr_tokens pr')))
    (undefined_uses (recorded (pr_stmts pr) (pr_tokens pr))) (undefined_uses (recorded (pr_stmts pr') (pr_tokens pr'))) /\
  Forall2 (fun a b => same_occ (counterparts (pr_tokens pr) (pr_tokens pr')) (fst a) (fst b) /\ same_occ (counterparts (pr_tokens pr) (pr_tokens pr')) (snd a) (snd b))
    (redefinitions (recorded (pr_stmts pr) (pr_tokens pr))) (redefinitions (recorded (pr_stmts pr') (pr_tokens pr'))).
