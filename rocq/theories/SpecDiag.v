(** What the diagnostics should be, read off the occurrences of names. *)
From Coq Require Export Permutation.
From Verif Require Import Text Rope Chumsky Tokenizer Parser Index Diag SpecText SpecIndex.

(** Documents on which the server's positions are LSP positions (see C01). *)
Definition plain_document (src : text) : Prop :=
  ascii_text src = true /\ lsp_plain src = true /\ small src.
(** The LSP range of a span. *)
Definition lsp_range (src : text) (sp : span) : range_ :=
  mkRange (lsp_position src (sp_start sp)) (lsp_position src (sp_end sp)).

(** HashMap iteration visits every entry once, in any order. *)
Definition visits_all (ord : map_order) : Prop := forall m, Permutation (ord m) m.

(** Two occurrences of the same symbol: same name, same kind, same scope. *)
Definition same_symbol (a b : occurrence) : Prop :=
  o_kind a = o_kind b /\ o_body a = o_body b /\ o_name a = o_name b.
Definition same_symbolb (a b : occurrence) : bool :=
  (if kind_dec (o_kind a) (o_kind b) then true else false) &&
  (if body_dec (o_body a) (o_body b) then true else false) && text_eqb (o_name a) (o_name b).
Definition is_use (o : occurrence) : bool := match o_ud o with Use => true | _ => false end.
Definition is_definition (o : occurrence) : bool := match o_ud o with Def => true | _ => false end.

(** Uses of symbols that are neither declared nor defined. *)
Definition undefined_uses (l : list occurrence) : list occurrence :=
  filter (fun o => is_use o && negb (existsb (fun x => negb (is_use x) && same_symbolb x o) l)) l.
(** Definitions after the first one of a symbol, with the first one. *)
Definition redefinitions (l : list occurrence) : list (occurrence * occurrence) :=
  flat_map (fun o =>
    match find (fun x => is_definition x && same_symbolb x o) l with
    | Some f => if is_definition o && negb (span_eqb (o_span f) (o_span o)) then [(o, f)] else []
    | None => []
    end) l.

Definition undefined_diagnostic (src : text) (o : occurrence) : diagnostic :=
  mkDiag (lsp_range src (o_span o)) (str "Use of undefined symbol `" ++ o_name o ++ str "`") [].
Definition redefinition_diagnostic (src uri : text) (x : occurrence * occurrence) : diagnostic :=
  mkDiag (lsp_range src (o_span (fst x))) (str "Symbol `" ++ o_name (fst x) ++ str "` already defined previously")
    [(mkLocn uri (lsp_range src (o_span (snd x))), str "Previously defined here")].

(** ** Which symbols a document introduces *)
Definition block_defs (b : basic_block) : list text :=
  flat_map (fun i => match i_target i with Some x => [fst x] | None => [] end) (bb_instrs b).
Definition block_labels (b : basic_block) : list text :=
  match bb_label b with Some x => [fst x] | None => [] end.
(** The function definitions of a document, in order. *)
Definition function_defs (ss : list statement) : list (func_sig * func_body) :=
  flat_map (fun s => match s with SFuncDef _ sig body => [(sig, body)] | _ => [] end) ss.
(** [o] is a name of a symbol that the document declares or defines:
    global names by a variable, declaration or definition; debug names by an
    annotation; local names by a parameter or target, and labels by a block,
    of the function they are in. *)
Definition introduced (ss : list statement) (o : occurrence) : Prop :=
  match o_kind o, o_body o with
  | KGlobalVar, None => exists d x, In (SGlobalVar x d) ss /\ fst x = o_name o
  | KFunction, None => exists s, In s ss /\ declares (o_name o) s = true
  | KDbgAnnotation, None => exists d x, In (SDbgAnnotation x d) ss /\ fst x = o_name o
  | KLocalVar, Some id => exists sig body, nth_error (function_defs ss) id = Some (sig, body) /\
      (In (o_name o) (map (fun a => fst (fa_name a)) (fs_args sig)) \/
       In (o_name o) (flat_map block_defs (fb_blocks body)))
  | KLabel, Some id => exists sig body, nth_error (function_defs ss) id = Some (sig, body) /\
      In (o_name o) (flat_map block_labels (fb_blocks body))
  | _, _ => False
  end.

(** ** Branches without targets *)
Definition mnemonic (i : instruction) : text := fst (i_instr i).
Definition needs_targets (i : instruction) : Prop :=
  (exists p, mnemonic i = p ++ str "br") \/ mnemonic i = str "switch" \/ mnemonic i = str "phi".
Definition instructions (ss : list statement) : list instruction :=
  flat_map (fun x => flat_map bb_instrs (fb_blocks (snd x))) (function_defs ss).
Definition missing_diagnostic (src : text) (i : instruction) : diagnostic :=
  mkDiag (lsp_range src (snd (i_instr i)))
    (str "Failed to extract basic block references from `" ++ mnemonic i ++ str "` instruction") [].

(** ** Syntax errors *)
Definition syntax_diagnostic (ord : set_order) (src : text) (e : simple text) : diagnostic :=
  mkDiag (lsp_range src (e_span e)) (parser_error_message ord e) [].
Definition at_end (src : text) (e : simple text) : bool :=
  span_eqb (e_span e) (mkSpan (length src) (S (length src))).
