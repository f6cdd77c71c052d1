(** What an editor shows after edits: everything moves with the text around it. *)
From Verif Require Import Text Rope Chumsky Tokenizer Parser Numbers Index SemTok Diag Rename Cfg Backtrace Server SpecText SpecParse SpecIndex SpecDiag SpecCfg SpecView SpecRename SpecPatch SpecSimilar SpecRebind SpecSteps.

(** Where a place goes when edits within lines are applied: the edits in front
    of it in its line take away their ranges and put in their texts. *)
Definition in_front (q : position_) (ed : text_edit) : bool :=
  (p_line (r_end (te_range ed)) =? p_line q) && (p_char (r_end (te_range ed)) <=? p_char q).
Definition total (l : list nat) : nat := fold_right Nat.add 0 l.
Definition put_in (edits : list text_edit) : nat := total (map (fun ed => length (te_text ed)) edits).
Definition taken_away (edits : list text_edit) : nat :=
  total (map (fun ed => p_char (r_end (te_range ed)) - p_char (r_start (te_range ed))) edits).
Definition carried (edits : list text_edit) (q : position_) : position_ :=
  let l := filter (in_front q) edits in mkPos (p_line q) (p_char q + put_in l - taken_away l).
Definition carried_range (edits : list text_edit) (r : range_) : range_ := mkRange (carried edits (r_start r)) (carried edits (r_end r)).
(** Only places of the edited document move. *)
Definition carried_location (uri : text) (edits : list text_edit) (x : location) : location :=
  if text_eqb (loc_uri x) uri then mkLocn (loc_uri x) (carried_range edits (loc_range x)) else x.
Definition carried_diagnostic (uri : text) (edits : list text_edit) (x : diagnostic) : diagnostic :=
  mkDiag (carried_range edits (d_range x)) (d_message x) (map (fun y => (carried_location uri edits (fst y), snd y)) (d_related x)).
(** An occurrence under a new name. *)
Definition under (final : text) (x : occurrence) : occurrence := mkOcc (o_span x) (o_ud x) (o_kind x) final (o_body x).
(** The reports about undefined and redefined names of the symbol of [o], with [f] applied to the occurrences. *)
Definition reports_about (src uri : text) (l : list occurrence) (o : occurrence) (f : occurrence -> occurrence) : list diagnostic :=
  map (undefined_diagnostic src) (map f (filter (same_symbolb o) (undefined_uses l))) ++
  map (redefinition_diagnostic src uri) (map (fun x => (f (fst x), f (snd x))) (filter (fun x => same_symbolb o (fst x)) (redefinitions l))).
(** An entry of the outline: with the new name if it is the renamed symbol. *)
Definition outlined (k : sym_kind) : symbol_kind := match k with SKConstant => KGlobalVar | SKFunction => KFunction end.
Definition carried_symbol (o : occurrence) (final : text) (edits : list text_edit) (x : doc_symbol) : doc_symbol :=
  mkSym (if (if kind_dec (outlined (ds_kind x)) (o_kind o) then true else false) && text_eqb (ds_name x) (o_name o) then final else ds_name x)
    (ds_kind x) (carried_range edits (ds_range x)) (carried_range edits (ds_selection x)).
(** A highlighted piece of text: place, length and type. An edit at its place gives it a new length. *)
Definition carried_token (edits : list text_edit) (x : position_ * nat * nat) : position_ * nat * nat :=
  let '(p, n, t) := x in
  (carried edits p, match find (fun ed => pos_eqb (r_start (te_range ed)) p) edits with Some ed => length (te_text ed) | None => n end, t).
Definition carried_answer (uri : text) (edits : list text_edit) (x : range_ * list location) : range_ * list location :=
  (carried_range edits (fst x), map (carried_location uri edits) (snd x)).
(** A rename of the symbol of [o] in a document without lexical errors, to an unused name. *)
Definition renaming (e : env) (s : server) (uri src : text) (d : doc) (pr : parser_result) (p : nat) (o : occurrence) (new final : text) (edits : list text_edit) : Prop :=
  plain_document src /\ opened e s uri src d /\ parse_from_str (e_u e) src = Val pr /\ tokenize (e_u e) src = Val (Some (pr_tokens pr), []) /\
  In o (recorded (pr_stmts pr) (pr_tokens pr)) /\ covers (o_span o) p /\ proper (e_u e) pr o new final /\ unused (recorded (pr_stmts pr) (pr_tokens pr)) o final /\
  rename e s uri (lsp_position src p) new = Val (Reply edits) /\ plain_document (patched src edits).
