(** Where a name is written. *)
From Verif Require Import Text Rope Chumsky Tokenizer Parser Numbers Index SpecText SpecLex SpecParse SpecIndex SpecDiag SpecView.

(** [r] goes around [sp] *)
Definition around (sp r : span) : bool := (sp_start r <=? sp_start sp) && (sp_end sp <=? sp_end r).
(** A token that is the same name as [t]: global names and annotations
    everywhere in the document, local names in the function definition (from
    [define] to the closing brace) that [t] is in. *)
Definition names_the_same (ss : list statement) (t t' : stoken) : bool :=
  match fst t, fst t' with
  | TGlobalName n, TGlobalName m | TDebugRef n, TDebugRef m => text_eqb n m
  | TLocalName n, TLocalName m => text_eqb n m && existsb (fun r => around (snd t) r && around (snd t') r) (flat_map func_ranges ss)
  | _, _ => false
  end.
Definition written (ss : list statement) (toks : list stoken) (t : stoken) : list span :=
  map snd (filter (names_the_same ss t) toks).
(** The names of labels in a function: in front of its blocks, and as targets. *)
Definition label_names (body : list basic_block) : list spanned :=
  flat_map (fun b => match bb_label b with Some l => [l] | None => [] end ++ flat_map i_refs (bb_instrs b)) body.
Definition label_written (body : list basic_block) (n : text) : list span :=
  map snd (filter (fun x => text_eqb (fst x) n) (label_names body)).
