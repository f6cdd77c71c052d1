(** Which words a relative rename replaces. *)
From Verif Require Import Text Rope Chumsky Tokenizer Parser Numbers Index SemTok Diag Rename Cfg Backtrace Server SpecText SpecLex SpecParse SpecIndex SpecDiag SpecView SpecNumbers SpecRename SpecWritten.

Definition word (t : stoken) : text := match fst t with TGlobalName n | TDebugRef n | TLocalName n => n | _ => [] end.
Definition variable_at (sp : span) (s : statement) : bool := match s with SGlobalVar x _ => span_eqb (snd x) sp | _ => false end.
(** Names that are numbered together: functions, other global names (and the
    definitions of variables that are called like a function), annotations, local names of
    one function definition. *)
Definition same_space (ss : list statement) (t t' : stoken) : bool :=
  match fst t, fst t' with
  | TGlobalName n, TGlobalName m => if is_function ss n then is_function ss m else negb (is_function ss m) || existsb (variable_at (snd t')) ss
  | TDebugRef _, TDebugRef _ => true
  | TLocalName _, TLocalName _ => existsb (fun r => around (snd t) r && around (snd t') r) (flat_map func_ranges ss)
  | _, _ => false
  end.
(** The numbers of [words] from [n0] on can be moved by [z] within 64 bits. *)
Definition room (words : list text) (n0 : N) (z : Z) : Prop :=
  fits_i64 z /\ forall w n, In w words -> has_number w n -> (n0 <= n)%N -> fits_i64 (Z.abs (Z.of_N n + z)).
(** The edits replace every one of [places] (a word and where it is) that is
    numbered from [n0] on, each once, and nothing else. *)
Definition renumbers (src : text) (places : list spanned) (n0 : N) (z : Z) (edits : list text_edit) : Prop :=
  (forall ed, In ed edits <-> exists x y, In x places /\ moves n0 z (fst x) y /\ ed = mkEdit (lsp_range src (snd x)) y) /\
  ForallOrdPairs (fun a b => separate (te_range a) (te_range b)) edits /\ Forall (fun a => nonempty (te_range a)) edits.
Definition space_of (ss : list statement) (toks : list stoken) (t : stoken) : list spanned :=
  map (fun x => (word x, snd x)) (filter (same_space ss t) toks).
