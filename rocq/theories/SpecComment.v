(** Commenting out lines. *)
From Verif Require Import Text Rope Chumsky Tokenizer Parser Numbers Index SemTok Diag Rename Cfg Backtrace Server SpecText SpecLex SpecParse SpecIndex SpecDiag.

(** What the editor does for "toggle line comment" (vscode-extension/hyper-ir-language-configuration.json:
    2-4 says that [#] starts a comment): a line gets [# ] somewhere in its indentation, blank lines are left alone. *)
Inductive commented_line : text -> text -> Prop :=
| cl_code bl r : Forall blank bl -> ~ In LF r -> commented_line (bl ++ r ++ [LF]) (bl ++ str "# " ++ r ++ [LF])
| cl_blank bl e : Forall blank bl -> (e = [LF] \/ e = [CR; LF]) -> commented_line (bl ++ e) (bl ++ e).
Definition commented_out (x x' : text) : Prop := exists ls ls', x = concat ls /\ x' = concat ls' /\ Forall2 commented_line ls ls'.

(** Places of a document after [k] lines have been put in front of line [n]. *)
Definition down_line (n k : nat) (l : nat) : nat := if n <=? l then l + k else l.
Definition down (n k : nat) (p : position_) : position_ := mkPos (down_line n k (p_line p)) (p_char p).
Definition down_range (n k : nat) (r : range_) : range_ := mkRange (down n k (r_start r)) (down n k (r_end r)).
Definition down_location (uri : text) (n k : nat) (l : location) : location :=
  if text_eqb (loc_uri l) uri then mkLocn (loc_uri l) (down_range n k (loc_range l)) else l.
Definition down_diagnostic (uri : text) (n k : nat) (x : diagnostic) : diagnostic :=
  mkDiag (down_range n k (d_range x)) (d_message x) (map (fun y => (down_location uri n k (fst y), snd y)) (d_related x)).
Definition down_answer (uri : text) (n k : nat) (x : range_ * list location) : range_ * list location :=
  (down_range n k (fst x), map (down_location uri n k) (snd x)).
Definition down_symbol (n k : nat) (x : doc_symbol) : doc_symbol :=
  mkSym (ds_name x) (ds_kind x) (down_range n k (ds_range x)) (down_range n k (ds_selection x)).
Definition down_fold (n k : nat) (x : folding) : folding := mkFold (down_line n k (fo_start x)) (down_line n k (fo_end x)) (fo_text x).

(** No function of the document says that its source is the document itself. *)
Definition leads_elsewhere (e : env) (rs : list url) (uri : text) (ss : list statement) : Prop :=
  forall f d y, In d (ext_defs [] ss f) -> resolve_relative_path (e_fs e) rs (ext_path d) = Val (Some y) -> e_url_display e y <> uri.
