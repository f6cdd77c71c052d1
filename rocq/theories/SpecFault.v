(** What a syntax error says: the token it is about and what it asks for. *)
From Verif Require Import Text Chumsky Tokenizer Parser SpecParse.

(** The messages that ask for a kind of token. *)
Inductive demand : text -> (token -> Prop) -> Prop :=
| dm_modifier : demand (str "expected function modifier") (fun t => exists x, t = TFuncModifier x)
| dm_global : demand (str "expected global name") (fun t => exists x, t = TGlobalName x)
| dm_local : demand (str "expected local name") (fun t => exists x, t = TLocalName x)
| dm_type : demand (str "expected type name") (fun t => exists x, t = TType x)
| dm_ident : demand (str "expected global name") (fun t => exists x, t = TIdent x)
| dm_dbg : demand (str "expected dbgref") (fun t => exists x, t = TDebugRef x)
| dm_hex : demand (str "expected a hexadecimal number") (fun t => exists x, t = THexNum x).

(** An error at a token: what is there is not among what is expected. *)
Definition faults (tk : token) (e : simple token) : Prop :=
  ~ In (Some tk) (e_expected e) /\
  ((e_reason e = Unexpected /\ e_found e = Some tk) \/
   (exists m good, demand m good /\ ~ good tk /\ e_reason e = CustomMsg m /\ e_found e = None)).
(** An error at the end. *)
Definition faults_end (eoi : span) (e : simple token) : Prop :=
  e_span e = eoi /\ e_reason e = Unexpected /\ e_found e = None /\ ~ In None (e_expected e).
(** The complaint about a branch with the targets of an overflow branch. *)
Definition not_overflow : text := str "Instruction is not a overflow-branch instruction.".
Definition faults_name (m : text) (e : simple token) : Prop :=
  ends_with m (str "br") = false /\ e_reason e = CustomMsg not_overflow /\ e_expected e = [] /\ e_found e = None.

Inductive fault (eoi : span) (toks : list stoken) (e : simple token) : Prop :=
| f_token tk : In (tk, e_span e) toks -> faults tk e -> fault eoi toks e
| f_end : faults_end eoi e -> fault eoi toks e
| f_name m : In (TIdent m, e_span e) toks -> faults_name m e -> fault eoi toks e.

(** In an untidy text a line ends with a comma or a type: the parser takes the
    next line for its continuation in some instructions. *)
Definition opener (t : token) : Prop := t = TPunct (ch ",") \/ exists x, t = TType x.
Definition tidy (toks : list stoken) : Prop :=
  forall p x y q, toks = p ++ x :: y :: q -> opener (fst x) -> fst y <> TNewline.

(** The same in the words of the published message. *)
Definition begins (p m : text) : Prop := exists r, m = p ++ r.
Inductive says (eoi : span) (toks : list stoken) (sp : span) (m : text) : Prop :=
| s_token tk : In (tk, sp) toks -> begins (str "Unexpected token in input, expected ") m -> says eoi toks sp m
| s_kind tk good : In (tk, sp) toks -> demand m good -> ~ good tk -> says eoi toks sp m
| s_end : sp = eoi -> begins (str "Unexpected end of input, expected ") m -> says eoi toks sp m
| s_name x : In (TIdent x, sp) toks -> ends_with x (str "br") = false -> m = not_overflow -> says eoi toks sp m.

(** The first syntax error of a document is at its token [t], which follows the
    tokens [a]; another document that begins with [a] and [t] has no errors. *)
Definition marked (u : uclass) (src : text) (a : list stoken) (t : stoken) (w : list stoken) (e : simple token) : Prop :=
  exists toks terrs o errs, tokenize u src = Val (Some toks, terrs) /\ parse_tokens src toks = Val (o, e :: errs) /\
  without_comments toks = a ++ t :: w /\
  e_span e = snd t /\ e_reason e <> CustomMsg not_overflow.
Definition repaired (u : uclass) (a : list stoken) (t : stoken) : Prop :=
  exists src pr w, parse_from_str u src = Val pr /\
  without_comments (pr_tokens pr) = a ++ t :: w /\ pr_errors pr = [].
