(** A client applies edits to its document; the tokens before and after. *)
From Verif Require Import Text Rope Tokenizer Index Rename SpecText SpecLex SpecDiag SpecRename.

(** [q] lies in the range [a]. *)
Definition pos_leb (a b : position_) : bool :=
  (p_line a <? p_line b) || ((p_line a =? p_line b) && (p_char a <=? p_char b)).
Definition in_edit (q : position_) (ed : text_edit) : bool :=
  pos_leb (r_start (te_range ed)) q && negb (pos_leb (r_end (te_range ed)) q).
Definition at_start (q : position_) (ed : text_edit) : bool :=
  pos_leb (r_start (te_range ed)) q && pos_leb q (r_start (te_range ed)).

(** The document after (separate, non-empty) edits: characters in no range are
    kept; those in a range are dropped; the new text is put in at its start. *)
Definition patch_char (src : text) (edits : list text_edit) (p : nat) (c : char) : text :=
  match find (in_edit (lsp_position src p)) edits with
  | Some ed => if at_start (lsp_position src p) ed then te_text ed else []
  | None => [c]
  end.
Fixpoint patch_from (src : text) (edits : list text_edit) (p : nat) (t : text) : text :=
  match t with
  | [] => []
  | c :: r => patch_char src edits p c ++ patch_from src edits (S p) r
  end.
Definition patched (src : text) (edits : list text_edit) : text := patch_from src edits 0 src.

(** A token with another name. *)
Definition with_name (t : token) (y : text) : token :=
  match t with
  | TGlobalName _ => TGlobalName y
  | TLocalName _ => TLocalName y
  | TDebugRef _ => TDebugRef y
  | TIdent _ => TIdent y
  | _ => t
  end.
(** [y] is a name of the kind [k], which has a sigil. *)
Definition sigil_name (u : uclass) (k : symbol_kind) (y : text) : Prop :=
  exists c w, sigil k = [c] /\ y = c :: w /\ name_tail u w.
(** [y] is read as the name of a label. *)
Definition label_name (u : uclass) (y : text) : Prop :=
  exists c w, y = c :: w /\ name_start u c /\ name_tail u w /\ forall t, ~ In (y, t) reserved.
(** [y] is neither reserved nor starts with a colon. *)
Definition free_word (y : text) : Prop := (forall b, y <> ch ":" :: b) /\ forall t, ~ In (y, t) reserved.
(** [toks'] are the tokens [toks]; where [new] gives an occurrence another name
    the token has that name, all others are the same. *)
Definition retold (new : occurrence -> text -> Prop) (l : list occurrence) (toks toks' : list (token * span)) : Prop :=
  Forall2 (fun t t' =>
    (forall x y, In x l -> o_span x = snd t -> new x y -> fst t' = with_name (fst t) y) /\
    ((forall x y, In x l -> o_span x = snd t -> ~ new x y) -> fst t' = fst t)) toks toks'.
