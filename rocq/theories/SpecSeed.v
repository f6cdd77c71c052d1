(** Two runs of the server that differ in the iteration order of hash maps and hash sets only. *)
From Verif Require Import Text Rope Chumsky Tokenizer Parser Numbers Index SemTok Diag Rename Cfg Backtrace Server Dispatch SpecText SpecDiag.

Definition lists_all (ord : set_order) : Prop := forall l, Permutation (ord l) l.
(** The same file system, Unicode tables, build and libraries. *)
Definition same_apart_from_order (e e' : env) : Prop :=
  e_u e = e_u e' /\ e_pf e = e_pf e' /\ e_fs e = e_fs e' /\ e_url_display e = e_url_display e' /\ e_url_parse e = e_url_parse e' /\ e_json_parse e = e_json_parse e' /\
  visits_all (e_ord e) /\ visits_all (e_ord e') /\ lists_all (e_xord e) /\ lists_all (e_xord e').

(** Both crash or both give related results. *)
Definition res_alike {A} (R : A -> A -> Prop) (x y : res A) : Prop :=
  match x, y with Val a, Val b => R a b | Panic, Panic => True | _, _ => False end.
Definition opt_alike {A} (R : A -> A -> Prop) (x y : option A) : Prop :=
  match x, y with Some a, Some b => R a b | None, None => True | _, _ => False end.

(** Messages: a syntax error may list what it expects in another order. *)
Definition same_message (m m' : text) : Prop :=
  m = m' \/
  exists b l l', (b = str "Unexpected token in input, expected " \/ b = str "Unexpected end of input, expected ") /\
    Permutation l l' /\ m = b ++ join (str ", ") l /\ m' = b ++ join (str ", ") l'.
Definition same_diagnostic (d d' : diagnostic) : Prop :=
  d_range d = d_range d' /\ same_message (d_message d) (d_message d') /\ d_related d = d_related d'.
Definition same_publish (p p' : publish) : Prop :=
  pub_uri p = pub_uri p' /\ pub_version p = pub_version p' /\ exists m, Permutation (pub_diags p) m /\ Forall2 same_diagnostic m (pub_diags p').
Definition same_action (a a' : code_action_) : Prop :=
  ca_title a = ca_title a' /\ ca_data a = ca_data a' /\
  opt_alike (fun x y => fst x = fst y /\ Permutation (snd x) (snd y)) (ca_edit a) (ca_edit a').
(** Answers: the entries of the outline, the lenses and the edits of a rename may come in another order. *)
Definition same_response (r r' : response) : Prop :=
  match r, r' with
  | RSymbols x, RSymbols y => opt_alike (@Permutation _) x y
  | RLenses x, RLenses y => opt_alike (@Permutation _) x y
  | REdits x, REdits y => Permutation x y
  | RActions x, RActions y => opt_alike (Forall2 same_action) x y
  | RAction x, RAction y => same_action x y
  | _, _ => r = r'
  end.
(** Worlds of the schedules. *)
Definition same_world (w w' : world) : Prop :=
  w_server w = w_server w' /\ Forall2 same_publish (w_waiting w) (w_waiting w') /\ Forall2 same_publish (w_sent w) (w_sent w') /\
  w_guards w = w_guards w' /\ w_health w = w_health w'.
