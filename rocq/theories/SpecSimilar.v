(** Two token lists of the same shape, and two syntax trees over them. *)
From Verif Require Import Text Chumsky Tokenizer Parser SpecParse.

(** Words the grammar looks at. *)
Definition special_words : list text :=
  map str ["br"; "cont"; "overflow"; "label"; "default"; "switch"; "phi"; "depends"; "on"]%string.
Definition plain_word (w : text) : Prop := ~ In w special_words /\ ~ exists p, w = p ++ str "br".

(** The same token, or two names of one kind. *)
Definition similar (t t' : token) : Prop :=
  t = t' \/
  match t, t' with
  | TGlobalName _, TGlobalName _ | TLocalName _, TLocalName _ | TDebugRef _, TDebugRef _ => True
  | TIdent a, TIdent b => plain_word a /\ plain_word b
  | _, _ => False
  end.

Definition both {A B} (R : A -> B -> Prop) (a : option A) (b : option B) : Prop :=
  match a, b with Some x, Some y => R x y | None, None => True | _, _ => False end.

Section Tree.
(** [T a b]: the token [a] of the first document is the token [b] of the second. *)
Variable T : stoken -> stoken -> Prop.

Definition named (f : spanned -> stoken) (x y : spanned) : Prop := T (f x) (f y).
(** Ranges that start and end with corresponding tokens. *)
Definition ranges (s s' : span) : Prop :=
  (exists a b, T a b /\ sp_start s = sp_start (snd a) /\ sp_start s' = sp_start (snd b)) /\
  (exists a b, T a b /\ sp_end s = sp_end (snd a) /\ sp_end s' = sp_end (snd b)).
Definition same_arg (a b : func_arg) : Prop := named ttype (fa_type a) (fa_type b) /\ named tlocal (fa_name a) (fa_name b).
Definition same_sig (a b : func_sig) : Prop :=
  Forall2 (named tmod) (fs_modifiers a) (fs_modifiers b) /\ named ttype (fs_ret a) (fs_ret b) /\
  named tglobal (fs_name a) (fs_name b) /\ Forall2 same_arg (fs_args a) (fs_args b).
Definition same_instr (a b : instruction) : Prop :=
  both (named tlocal) (i_target a) (i_target b) /\ named tident (i_instr a) (i_instr b) /\
  Forall2 (named tident) (i_refs a) (i_refs b) /\ both (named tdbg) (i_dbg a) (i_dbg b) /\
  ranges (i_span a) (i_span b).
Definition same_block (a b : basic_block) : Prop :=
  both (named tident) (bb_label a) (bb_label b) /\
  both (fun s s' => T (tp (ch ":") s) (tp (ch ":") s')) (bb_label_comma a) (bb_label_comma b) /\
  Forall2 same_instr (bb_instrs a) (bb_instrs b) /\ ranges (bb_span a) (bb_span b).
Definition same_body (a b : func_body) : Prop :=
  T (tp (ch "{") (fb_open a)) (tp (ch "{") (fb_open b)) /\ T (tp (ch "}") (fb_close a)) (tp (ch "}") (fb_close b)) /\
  Forall2 same_block (fb_blocks a) (fb_blocks b).
Definition same_stmt (a b : statement) : Prop :=
  match a, b with
  | SGlobalVar x d, SGlobalVar y d' => named tglobal x y /\ Forall2 T d d'
  | SFuncDecl s ad g, SFuncDecl s' ad' g' => same_sig s s' /\ both (named thex) ad ad' /\ both (named tdbg) g g'
  | SFuncDef k s b, SFuncDef k' s' b' => T (TDefine, k) (TDefine, k') /\ same_sig s s' /\ same_body b b'
  | SFuncDeps x l, SFuncDeps y m => named tglobal x y /\ Forall2 (named tglobal) l m
  | SDbgAnnotation x d, SDbgAnnotation y d' => named tdbg x y /\ Forall2 T d d'
  | _, _ => False
  end.

(** Errors of the parser: the same reason at corresponding places; [e], [e'] are the ends of the inputs. *)
Definition same_error (e e' : span) (a b : simple token) : Prop :=
  (ranges (e_span a) (e_span b) \/ (e_span a = e /\ e_span b = e')) /\ e_reason a = e_reason b /\
  e_expected a = e_expected b /\ both similar (e_found a) (e_found b).
End Tree.

(** The tokens at the same place of two lists. *)
Definition counterparts (toks toks' : list stoken) (a b : stoken) : Prop := In (a, b) (combine toks toks').
(** Where the parser sees the end of its input. *)
Definition ends (src : text) : span := mkSpan (byte_len src) (byte_len src + 1).
