(** src/semantic_token.rs *)
From Verif Require Import Text Rope Tokenizer Parser.

(** lsp_types::SemanticTokenType: the values used in src/semantic_token.rs *)
Inductive sem_type := STComment | STType | STVariable | STString | STNumber | STKeyword | STModifier.
Definition sem_type_eqb (a b : sem_type) : bool :=
  match a, b with
  | STComment, STComment | STType, STType | STVariable, STVariable | STString, STString
  | STNumber, STNumber | STKeyword, STKeyword | STModifier, STModifier => true
  | _, _ => false
  end.

(** src/semantic_token.rs:6-14 *)
Definition LEGEND_TYPE : list sem_type :=
  [STComment; STType; STVariable; STString; STNumber; STKeyword; STModifier].

(** src/semantic_token.rs:16-21 *)
Record hir_sem_token := mkHST { hs_start : nat; hs_length : nat; hs_type : nat }.

(** src/semantic_token.rs:23-29; [unwrap] on a type that is not in the legend
    panics *)
Definition create_semantic_token (sp : span) (ty : sem_type) : res hir_sem_token :=
  match position (fun item => sem_type_eqb item ty) LEGEND_TYPE with
  | Some i => Val (mkHST (sp_start sp) (span_len sp) i)
  | None => Panic
  end.

(** src/semantic_token.rs:35-52: the type given to each token, if any *)
Definition sem_type_of_token (t : token) : option sem_type :=
  match t with
  | TNewline => None
  | TComment => Some STComment
  | TNum _ => Some STNumber
  | THexNum _ => Some STNumber
  | TStr _ => Some STString
  | TLocalName _ => Some STVariable
  | TGlobalName _ => Some STVariable
  | TIdent _ => None
  | TDebugRef _ => None
  | TType _ => Some STType
  | TPunct _ => None
  | TDeclare => Some STKeyword
  | TDefine => Some STKeyword
  | TFuncModifier _ => Some STModifier
  end.

(** src/semantic_token.rs:32-54 *)
Fixpoint semantic_tokens_from_tokens (tokens : list stoken) : res (list hir_sem_token) :=
  match tokens with
  | [] => Val []
  | (t, sp) :: r =>
      match sem_type_of_token t with
      | None => semantic_tokens_from_tokens r
      | Some ty =>
          rbind (create_semantic_token sp ty) (fun h =>
          rbind (semantic_tokens_from_tokens r) (fun hs => Val (h :: hs)))
      end
  end.

(** lsp_types::SemanticToken (token_modifiers_bitset is always 0) *)
Record lsp_token := mkLT { delta_line : nat; delta_start : nat; lt_length : nat; lt_type : nat }.

(** u32 subtraction; underflow is a panic in a debug build and wraps in a
    release build.  The model treats it as a panic; the proofs show it does
    not happen for documents below 4 GiB. *)
Definition u32_sub (a b : nat) : res nat := if b <=? a then Val (a - b) else Panic.

(** src/semantic_token.rs:57-85.  [pre_line], [pre_start] are the captured
    mutable variables. *)
Fixpoint convert_from (t : rope) (pre_line pre_start : nat) (l : list hir_sem_token)
  : res (list lsp_token) :=
  match l with
  | [] => Val []
  | tok :: r =>
      match try_byte_to_line t (hs_start tok) with
      | None => convert_from t pre_line pre_start r
      | Some line0 =>
          let line := as_u32 line0 in
          match try_line_to_char t line with
          | None => convert_from t pre_line pre_start r
          | Some first0 =>
              let first := as_u32 first0 in
              match try_byte_to_char t (hs_start tok) with
              | None => convert_from t pre_line pre_start r
              | Some c =>
                  rbind (u32_sub (as_u32 c) first) (fun start =>
                  rbind (u32_sub line pre_line) (fun dl =>
                  rbind (if dl =? 0 then u32_sub start pre_start else Val start) (fun ds =>
                  rbind (convert_from t line start r) (fun rest =>
                  Val (mkLT dl ds (as_u32 (hs_length tok)) (as_u32 (hs_type tok)) :: rest)))))
              end
          end
      end
  end.
Definition convert_to_lsp_tokens (t : rope) (l : list hir_sem_token) : res (list lsp_token) :=
  convert_from t 0 0 l.
