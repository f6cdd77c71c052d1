(** What an editor shows for documents that are laid out in different ways: the
    same things at corresponding tokens. *)
From Verif Require Import Text Rope Chumsky Tokenizer Parser Numbers Index SemTok Diag Rename Cfg Backtrace Server SpecText SpecParse SpecIndex SpecDiag SpecCfg SpecView SpecSemTok SpecRename SpecPatch SpecSimilar SpecRebind SpecSteps SpecLines.

Section Alike.
(** [T a b]: the token [a] of [src] is the token [b] of [src']. *)
Variables (T : stoken -> stoken -> Prop) (uri src src' : text).
(** Places where corresponding tokens start or end. *)
Definition starts_alike (p p' : position_) : Prop := exists a b, T a b /\ p = lsp_position src (sp_start (snd a)) /\ p' = lsp_position src' (sp_start (snd b)).
Definition ends_alike (p p' : position_) : Prop := exists a b, T a b /\ p = lsp_position src (sp_end (snd a)) /\ p' = lsp_position src' (sp_end (snd b)).
(** Ranges from the start of a token to the end of the same or another one. *)
Definition range_alike (r r' : range_) : Prop := starts_alike (r_start r) (r_start r') /\ ends_alike (r_end r) (r_end r').
Definition location_alike (x y : location) : Prop := loc_uri x = uri /\ loc_uri y = uri /\ range_alike (loc_range x) (loc_range y).
Definition diagnostic_alike (x y : diagnostic) : Prop :=
  d_message y = d_message x /\ range_alike (d_range x) (d_range y) /\ Forall2 (fun a b => snd b = snd a /\ location_alike (fst a) (fst b)) (d_related x) (d_related y).
Definition symbol_alike (x y : doc_symbol) : Prop :=
  ds_name y = ds_name x /\ ds_kind y = ds_kind x /\ range_alike (ds_range x) (ds_range y) /\ range_alike (ds_selection x) (ds_selection y).
(** Folds reach from line to line. *)
Definition fold_alike (x y : folding) : Prop :=
  fo_text y = fo_text x /\ exists r r', range_alike r r' /\ fo_start x = p_line (r_start r) /\ fo_end x = p_line (r_end r) /\ fo_start y = p_line (r_start r') /\ fo_end y = p_line (r_end r').
Definition lens_alike (x y : lens) : Prop := cl_command y = cl_command x /\ cl_args y = cl_args x /\ range_alike (cl_range x) (cl_range y).
Definition part_alike (x y : label_part) : Prop := lp_value y = lp_value x /\ lp_tooltip y = lp_tooltip x /\ both location_alike (lp_location x) (lp_location y).
Definition hint_alike (x y : inlay_hint) : Prop := ends_alike (ih_pos x) (ih_pos y) /\ Forall2 part_alike (ih_parts x) (ih_parts y).
Definition hints_alike (r r' : res (option (list inlay_hint))) : Prop :=
  match r, r' with
  | Val (Some a), Val (Some b) => Forall2 hint_alike a b
  | Panic, Panic => True
  | _, _ => False
  end.
(** Highlighted tokens: place, length and type. Comments may have another length. *)
Definition token_alike (x y : position_ * nat * nat) : Prop :=
  let '(p, n, t) := x in let '(p', n', t') := y in
  t' = t /\ exists a b, T a b /\ p = lsp_position src (sp_start (snd a)) /\ p' = lsp_position src' (sp_start (snd b)) /\
    n = sp_end (snd a) - sp_start (snd a) /\ n' = sp_end (snd b) - sp_start (snd b) /\ (fst a <> TComment -> n' = n).
(** Everything that is shown without being asked for at a place. *)
Definition shown_alike (e : env) (s s' : server) : Prop :=
  (exists a b k, document_symbol e s uri = Some a /\ document_symbol e s' uri = Some b /\ Permutation k b /\ Forall2 symbol_alike a k) /\
  (exists a b, folding_range s uri = Some a /\ folding_range s' uri = Some b /\ Forall2 fold_alike a b) /\
  (exists a b k, code_lens e s uri = Some a /\ code_lens e s' uri = Some b /\ Permutation k b /\ Forall2 lens_alike a k) /\
  hints_alike (inlay_hint_handler e s uri) (inlay_hint_handler e s' uri).
End Alike.
(** The JSON reader finds the same in the values of the debug annotations. *)
Definition values_alike (e : env) (src src' : text) (ss ss' : list statement) : Prop :=
  forall n, obind (ann_value src ss n) (e_json_parse e) = obind (ann_value src' ss' n) (e_json_parse e).
(** Highlighting apart from comments. *)
Definition comment_type (t : nat) : bool := match nth_error LEGEND_TYPE t with Some STComment => true | _ => false end.
Definition besides_comments (l : list (position_ * nat * nat)) : list (position_ * nat * nat) := filter (fun x => negb (comment_type (snd x))) l.
