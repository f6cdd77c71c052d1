(** Specification of the LSP semantic-token encoding (LSP 3.17,
    textDocument/semanticTokens), independent of src/semantic_token.rs. *)
From Verif Require Import Text Rope Tokenizer SemTok.

(** Decoding: each token is relative to the previous one. *)
Fixpoint decode_from (line start : nat) (l : list lsp_token) : list (position_ * nat * nat) :=
  match l with
  | [] => []
  | t :: r =>
      let line' := line + delta_line t in
      let start' := if delta_line t =? 0 then start + delta_start t else delta_start t in
      (mkPos line' start', lt_length t, lt_type t) :: decode_from line' start' r
  end.
Definition decode (l : list lsp_token) : list (position_ * nat * nat) := decode_from 0 0 l.

(** The highlighting class of each token. *)
Definition highlight (t : token) : option sem_type :=
  match t with
  | TComment => Some STComment
  | TNum _ | THexNum _ => Some STNumber
  | TStr _ => Some STString
  | TLocalName _ | TGlobalName _ => Some STVariable
  | TType _ => Some STType
  | TDeclare | TDefine => Some STKeyword
  | TFuncModifier _ => Some STModifier
  | TIdent _ | TDebugRef _ | TPunct _ | TNewline => None
  end.

(** What should be emitted for a token. *)
Definition highlighted (t : token * span) : option (nat * nat * sem_type) :=
  match highlight (fst t) with
  | Some ty => Some (sp_start (snd t), sp_end (snd t) - sp_start (snd t), ty)
  | None => None
  end.

(** Token [h] is the emission for the highlight [x]; the type is an index into
    the legend. *)
Definition matches_highlight (x : nat * nat * sem_type) (h : hir_sem_token) : Prop :=
  let '(s, l, ty) := x in
  hs_start h = s /\ hs_length h = l /\ nth_error LEGEND_TYPE (hs_type h) = Some ty.

(** Sorted start offsets within the document *)
Fixpoint sorted_from (p : nat) (l : list hir_sem_token) : Prop :=
  match l with
  | [] => True
  | h :: r => p <= hs_start h /\ sorted_from (hs_start h) r
  end.

(** Tokens that start inside the document. *)
Definition in_doc (t : rope) (h : hir_sem_token) : Prop :=
  hs_start h <= byte_len t /\ hs_length h <= length t /\ hs_type h < 7.


(** The decoded entry [d] shows the highlight [x] at the position [pos] gives. *)
Definition shows (pos : nat -> position_) (x : nat * nat * sem_type) (d : position_ * nat * nat) : Prop :=
  let '(s, l, ty) := x in let '(p, l', i) := d in
  p = pos s /\ l' = l /\ nth_error LEGEND_TYPE i = Some ty.
