(** Two documents whose tokens differ in the values of literals at most. *)
From Verif Require Import Text Rope Chumsky Tokenizer Parser Numbers Index SemTok Diag Rename Cfg Backtrace Server SpecText SpecParse SpecIndex SpecDiag SpecCfg SpecView SpecSemTok SpecRename SpecPatch SpecSimilar SpecValues SpecReformat.

(** Token for token the same or another literal; both texts are read without lexical errors. *)
Definition revalued_text (u : uclass) (src src' : text) : Prop :=
  exists toks toks', tokenize u src = Val (Some toks, []) /\ tokenize u src' = Val (Some toks', []) /\ Forall2 (fun a b => revalued (fst a) (fst b)) toks toks'.

Section Valued.
Variables (T : stoken -> stoken -> Prop) (uri src src' : text).
(** Highlighting of the same kind, as wide as the token. *)
Definition token_kept (x y : position_ * nat * nat) : Prop :=
  let '(p, n, t) := x in let '(p', n', t') := y in
  t' = t /\ exists a b, T a b /\ p = lsp_position src (sp_start (snd a)) /\ p' = lsp_position src' (sp_start (snd b)) /\
    n = sp_end (snd a) - sp_start (snd a) /\ n' = sp_end (snd b) - sp_start (snd b).
Definition edit_alike (x y : text_edit) : Prop := te_text y = te_text x /\ range_alike T src src' (te_range x) (te_range y).
(** Definitions: those in the document correspond; those elsewhere are said
    by the values of the debug annotations. *)
Definition defined_at (r : res (option (range_ * list location))) (origin : range_) (own : list location) : Prop :=
  r = Panic \/ exists elsewhere, r = Val (Some (origin, own ++ elsewhere)).
(** Renaming: the same edits, or refused in the same words. *)
Definition rename_alike (r r' : res (reply (list text_edit))) : Prop :=
  match r, r' with
  | Val (Reply x), Val (Reply y) => Forall2 edit_alike x y
  | Val (RpcError m), Val (RpcError m') => m' = m
  | Panic, Panic => True
  | _, _ => False
  end.
(** The requests at [pos], which is in the token [a], and at [pos'], which is in its counterpart [b]. *)
Definition requests_alike (e : env) (s s' : server) (a b : stoken) (pos pos' : position_) : Prop :=
  let nothing s pos := goto_definition e s uri pos = Val None /\ goto_declaration e s uri pos = Val None /\ references e s uri pos = Val None /\ prepare_rename s uri pos = None in
  ((nothing s pos /\ nothing s' pos') \/
   exists own own' decls decls' refs refs',
     defined_at (goto_definition e s uri pos) (lsp_range src (snd a)) own /\ defined_at (goto_definition e s' uri pos') (lsp_range src' (snd b)) own' /\
     goto_declaration e s uri pos = Val (Some (lsp_range src (snd a), decls)) /\ goto_declaration e s' uri pos' = Val (Some (lsp_range src' (snd b), decls')) /\
     references e s uri pos = Val (Some refs) /\ references e s' uri pos' = Val (Some refs') /\
     prepare_rename s uri pos = Some (lsp_range src (snd a)) /\ prepare_rename s' uri pos' = Some (lsp_range src' (snd b)) /\
     Forall2 (location_alike T uri src src') own own' /\ Forall2 (location_alike T uri src src') decls decls' /\ Forall2 (location_alike T uri src src') refs refs') /\
  forall new, ~ signed new -> rename_alike (rename e s uri pos new) (rename e s' uri pos' new).
End Valued.
