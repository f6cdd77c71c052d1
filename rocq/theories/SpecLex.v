(** Lexical grammar of the language, independent of the combinator lexer. *)
From Verif Require Import Text Tokenizer.

(** Characters of names: letters, digits (any script) and underscore. *)
Definition name_start (u : uclass) (c : char) : Prop := is_alphabetic u c = true \/ c = ch "_".
Definition name_char (u : uclass) (c : char) : Prop :=
  is_alphabetic u c = true \/ is_numeric u c = true \/ c = ch "_".

(** The rest of a name: name characters and colons, not ending in a colon. *)
Definition name_tail (u : uclass) (w : text) : Prop :=
  (forall c, In c w -> name_char u c \/ c = ch ":") /\
  (w = [] \/ exists w' c, w = w' ++ [c] /\ name_char u c).

(** Reserved words. *)
Definition reserved : list (text * token) :=
  [(str "declare", TDeclare); (str "define", TDefine);
   (str "exported", TFuncModifier (str "exported")); (str "async", TFuncModifier (str "async"));
   (str "memberfunc", TFuncModifier (str "memberfunc")); (str "noreturn", TFuncModifier (str "noreturn"));
   (str "nosideeffects", TFuncModifier (str "nosideeffects")); (str "pure", TFuncModifier (str "pure"));
   (str "void", TType (str "void")); (str "int1", TType (str "int1")); (str "int8", TType (str "int8"));
   (str "int16", TType (str "int16")); (str "int32", TType (str "int32")); (str "int64", TType (str "int64"));
   (str "float32", TType (str "float32")); (str "float64", TType (str "float64"));
   (str "data128", TType (str "data128")); (str "ptr", TType (str "ptr"))].
Definition word (w : text) (t : token) : Prop :=
  In (w, t) reserved \/ ((forall t', ~ In (w, t') reserved) /\ t = TIdent w).

Definition dec_digit (c : char) : Prop := (48 <= c <= 57)%N.
Definition hex_digit (c : char) : Prop := (48 <= c <= 57)%N \/ (65 <= c <= 70)%N \/ (97 <= c <= 102)%N.
(** A numeral without leading zeros. *)
Definition numeral (digit : char -> Prop) (w : text) : Prop :=
  w = str "0" \/ exists c r, w = c :: r /\ c <> ch "0" /\ forall d, In d w -> digit d.

(** The texts of each token. *)
Inductive lexeme (u : uclass) : token -> text -> Prop :=
| lx_comment body : ~ In LF body -> lexeme u TComment (ch "#" :: body)
| lx_num w : numeral dec_digit w -> lexeme u (TNum w) w
| lx_hex w : numeral hex_digit w -> lexeme u (THexNum w) (str "0x" ++ w)
| lx_str body : ~ In DQUOTE body -> lexeme u (TStr body) (DQUOTE :: body ++ [DQUOTE])
| lx_punct c : In c (str "[]{}()<>=,;:*.") -> lexeme u (TPunct c) [c]
| lx_word c w t : name_start u c -> name_tail u w -> word (c :: w) t -> lexeme u t (c :: w)
| lx_global w : name_tail u w -> lexeme u (TGlobalName (ch "@" :: w)) (ch "@" :: w)
| lx_local w : name_tail u w -> lexeme u (TLocalName (ch "%" :: w)) (ch "%" :: w)
| lx_debug w : name_tail u w -> lexeme u (TDebugRef (ch "!" :: w)) (ch "!" :: w)
| lx_newline w : w = [LF] \/ w = [CR; LF] -> lexeme u TNewline w.

(** [w] is the longest lexeme at the start of [w ++ r]. *)
Definition longest (u : uclass) (t : token) (w r : text) : Prop :=
  lexeme u t w /\
  forall t' w' r', w ++ r = w' ++ r' -> lexeme u t' w' -> length w' <= length w.

(** No lexeme starts here. *)
Definition unlexable (u : uclass) (t : text) : Prop :=
  forall tok w r, t = w ++ r -> ~ lexeme u tok w.

Definition blank (c : char) : Prop := c = SPACE \/ c = TAB.

(** [lexes u i t toks n]: the text [t] starting at offset [i] consists of the
    tokens [toks] and blanks, and of [n] runs of unlexable text, each followed by
    a token (whose span starts at the run). *)
Inductive lexes (u : uclass) : nat -> text -> list (token * span) -> nat -> Prop :=
| lexes_end i bl : Forall blank bl -> lexes u i bl [] 0
| lexes_token i bl t w r toks n : Forall blank bl -> longest u t w r ->
    lexes u (i + length bl + length w) r toks n ->
    lexes u i (bl ++ w ++ r)
          ((t, mkSpan (i + length bl) (i + length bl + length w)) :: toks) n
| lexes_garbage i bl g t w r toks n : Forall blank bl ->
    g <> [] -> (forall c g', g = c :: g' -> ~ blank c) ->
    (forall g1 g2, g = g1 ++ g2 -> g2 <> [] -> unlexable u (g2 ++ w ++ r)) ->
    longest u t w r ->
    lexes u (i + length bl + length g + length w) r toks n ->
    lexes u i (bl ++ g ++ w ++ r)
          ((t, mkSpan (i + length bl) (i + length bl + length g + length w)) :: toks) (S n).

(** The spans of a token list: increasing, disjoint, non-empty, between [lo] and [hi]. *)
Fixpoint spans_in (lo hi : nat) (toks : list (token * span)) : Prop :=
  match toks with
  | [] => lo <= hi
  | (_, sp) :: r => lo <= sp_start sp /\ sp_start sp < sp_end sp /\ spans_in (sp_end sp) hi r
  end.

(** The text at a span (in characters). *)
Definition text_at (src : text) (sp : span) : text :=
  firstn (sp_end sp - sp_start sp) (skipn (sp_start sp) src).

(** Complete lines: empty, or ending with a line feed. *)
Definition full_lines (t : text) : Prop := t = [] \/ exists p, t = p ++ [LF].

Definition shift_span (d : nat) (sp : span) : span := mkSpan (sp_start sp + d) (sp_end sp + d).
Definition shift_tok (d : nat) (x : token * span) : token * span := (fst x, shift_span d (snd x)).

(** No token starts anywhere in [g] when followed by [r]. *)
Definition garbage (u : uclass) (g r : text) : Prop :=
  g <> [] /\ (forall c g', g = c :: g' -> ~ blank c) /\
  forall g1 g2, g = g1 ++ g2 -> g2 <> [] -> unlexable u (g2 ++ r).

(** Writing token texts: one blank after each, but none after a comment. *)
Fixpoint print_tokens (l : list (token * text)) : text :=
  match l with
  | [] => []
  | (TComment, w) :: r => w ++ print_tokens r
  | (_, w) :: r => w ++ SPACE :: print_tokens r
  end.
(** ... where a comment must be the end of its line. *)
Fixpoint comments_end_lines (l : list (token * text)) : Prop :=
  match l with
  | [] => True
  | (TComment, _) :: r =>
      match r with (t, _) :: _ => t = TNewline | [] => True end /\ comments_end_lines r
  | _ :: r => comments_end_lines r
  end.
