(** src/hir_tokenizer.rs *)
From Verif Require Import Text Chumsky.

(** src/hir_tokenizer.rs:9-25 [Token] *)
Inductive token :=
| TComment
| TNum (n : text)
| THexNum (n : text)
| TStr (x : text)
| TLocalName (n : text)
| TGlobalName (n : text)
| TDebugRef (n : text)
| TType (n : text)
| TIdent (n : text)
| TFuncModifier (n : text)
| TPunct (c : char)
| TNewline
| TDeclare
| TDefine.

(** derived PartialEq (src/hir_tokenizer.rs:9) *)
Definition token_eqb (a b : token) : bool :=
  match a, b with
  | TComment, TComment | TNewline, TNewline | TDeclare, TDeclare | TDefine, TDefine => true
  | TNum x, TNum y | THexNum x, THexNum y | TStr x, TStr y | TLocalName x, TLocalName y
  | TGlobalName x, TGlobalName y | TDebugRef x, TDebugRef y | TType x, TType y
  | TIdent x, TIdent y | TFuncModifier x, TFuncModifier y => text_eqb x y
  | TPunct x, TPunct y => (x =? y)%N
  | _, _ => false
  end.

Lemma token_eqb_spec a b : reflect (a = b) (token_eqb a b).
Proof.
  destruct a, b; cbn; try (constructor; congruence);
    try (match goal with |- reflect _ (text_eqb ?x ?y) =>
           destruct (text_eqb_spec x y); constructor; congruence end).
  destruct (N.eqb_spec c c0); constructor; congruence.
Qed.

(** src/hir_tokenizer.rs:27-46 [Display for Token].  Note the doubled sigils
    of names (their text already contains the sigil). *)
Definition token_display (t : token) : text :=
  match t with
  | TComment => str "comment"
  | TDebugRef x => ch "!" :: x
  | TNum n | THexNum n => n
  | TStr x => x
  | TLocalName n => ch "%" :: n
  | TGlobalName n => ch "@" :: n
  | TType n | TIdent n | TFuncModifier n => n
  | TPunct c => [c]
  | TNewline => str "\n"
  | TDeclare => str "declare"
  | TDefine => str "define"
  end.

Section Tokenizer.
Variable u : uclass.
Variable eoi : span.

Notation just := (p_just N.eqb eoi).
Notation filter := (p_filter eoi).

(** src/hir_tokenizer.rs:50-52 *)
Definition t_newline : parser token :=
  p_to (p_or (just LF) (p_then_ignore (just CR) (just LF))) TNewline.

(** src/hir_tokenizer.rs:55-57 *)
Definition t_comment : parser token :=
  p_to (p_then (just (ch "#"))
               (p_take_until eoi (p_rewind (p_or (just LF) (p_to (p_end eoi) LF)))))
       TComment.

(** chumsky::text::int(radix): a non-zero digit followed by digits, or 0. *)
Definition text_int (is_digit : char -> bool) : parser text :=
  p_or (p_map (p_then (filter (fun c => is_digit c && negb (c =? 48)%N))
                      (p_repeated (filter is_digit)))
              (fun '(c, cs) => c :: cs))
       (p_map (just 48%N) (fun c => [c])).

(** src/hir_tokenizer.rs:60 *)
Definition t_hexnum : parser token :=
  p_map (p_ignore_then (p_just_seq N.eqb eoi (str "0x")) (text_int is_digit16)) THexNum.

(** src/hir_tokenizer.rs:63 *)
Definition t_num : parser token := p_map (text_int is_digit10) TNum.

(** src/hir_tokenizer.rs:66-70 *)
Definition t_str : parser token :=
  p_map (p_then_ignore
           (p_ignore_then (just DQUOTE) (p_repeated (filter (fun c => negb (c =? DQUOTE)%N))))
           (just DQUOTE))
        TStr.

(** src/hir_tokenizer.rs:73 *)
Definition punctuation_chars : text := str "[]{}()<>=,;:*.".
Definition t_punctuation : parser token :=
  p_map (p_one_of N.eqb eoi punctuation_chars) TPunct.

(** src/hir_tokenizer.rs:76, 79 *)
Definition is_ident_head (c : char) : bool := is_alphabetic u c || (c =? ch "_")%N.
Definition is_ident_char (c : char) : bool := is_alphanumeric u c || (c =? ch "_")%N.

(** src/hir_tokenizer.rs:82; the chained characters, in order *)
Definition t_ident_tail : parser text :=
  p_map (p_repeated (p_then (p_repeated (just (ch ":"))) (filter is_ident_char)))
        (fun l => List.concat (map (fun '(cs, c) => cs ++ [c]) l)).

(** src/hir_tokenizer.rs:88-108 *)
Definition func_modifiers : list text :=
  map str ["exported"; "async"; "memberfunc"; "noreturn"; "nosideeffects"; "pure"]%string.
Definition type_names : list text :=
  map str ["void"; "int1"; "int8"; "int16"; "int32"; "int64"; "float32"; "float64";
         "data128"; "ptr"]%string.
Definition classify_ident (i : text) : token :=
  if text_eqb i (str "declare") then TDeclare
  else if text_eqb i (str "define") then TDefine
  else if existsb (text_eqb i) func_modifiers then TFuncModifier i
  else if existsb (text_eqb i) type_names then TType i
  else TIdent i.

(** src/hir_tokenizer.rs:85-108 *)
Definition t_ident : parser token :=
  p_map (p_then (filter is_ident_head) t_ident_tail) (fun '(c, r) => classify_ident (c :: r)).

(** src/hir_tokenizer.rs:111-114, 117-120, 123-126 *)
Definition t_sigil (sigil : char) (mk : text -> token) : parser token :=
  p_map (p_then (just sigil) t_ident_tail) (fun '(c, r) => mk (c :: r)).
Definition t_local : parser token := t_sigil (ch "%") TLocalName.
Definition t_global : parser token := t_sigil (ch "@") TGlobalName.
Definition t_debugref : parser token := t_sigil (ch "!") TDebugRef.

(** src/hir_tokenizer.rs:129-140 (without the recovery) *)
Definition t_token : parser token :=
  p_choice eoi [t_comment; t_hexnum; t_num; t_str; t_punctuation; t_ident; t_global; t_local;
            t_debugref; t_newline].

(** src/hir_tokenizer.rs:145 *)
Definition t_padding : parser text := p_repeated (p_one_of N.eqb eoi [SPACE; TAB]).

(** src/hir_tokenizer.rs:129-147 *)
Definition t_item : parser (token * span) :=
  p_padded_by
    (p_map_with_span eoi (p_recover t_token) (fun tok sp => (tok, sp)))
    t_padding.
Definition tokenizer : parser (list (token * span)) :=
  p_then_ignore (p_repeated t_item) (p_end eoi).

End Tokenizer.

(** chumsky: From<&str> for Stream: items are characters with CHARACTER
    index spans ("Please note that Chumsky currently uses character indices
    and not byte offsets in this impl"); eoi is len..len+1 in characters. *)
Fixpoint enum_from (i : nat) (t : text) : list (char * span) :=
  match t with
  | [] => []
  | c :: r => (c, mkSpan i (i + 1)) :: enum_from (i + 1) r
  end.

(** src/hir_parser.rs:437 [tokenizer().parse_recovery(src)] *)
Definition tokenize (u : uclass) (src : text)
  : res (option (list (token * span)) * list (simple char)) :=
  let eoi := mkSpan (length src) (length src + 1) in
  parse_recovery (tokenizer u eoi) (enum_from 0 src).
