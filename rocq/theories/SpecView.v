(** What folding ranges, outline, definitions and references should be. *)
From Coq Require Export Sorted.
From Verif Require Import Text Rope Chumsky Tokenizer Parser Index SemTok Diag Rename Cfg Backtrace Server SpecText SpecParse SpecIndex SpecDiag SpecBacktrace SpecCfg SpecNumbers.

(** ** Folding *)
(** [x] folds the lines of [sp]. *)
Definition folds (src : text) (sp : span) (x : folding) : Prop :=
  fo_start x = p_line (lsp_position src (sp_start sp)) /\ fo_end x = p_line (lsp_position src (sp_end sp)).
(** The blocks of the functions. *)
Definition block_spans (ss : list statement) : list (list span) :=
  map (fun f => map bb_span (fb_blocks (snd f))) (function_defs ss).
(** [x] is above [y] without common line (or with at most one). *)
Definition above (x y : folding) : Prop := fo_end x < fo_start y.
Definition above_eq (x y : folding) : Prop := fo_end x <= fo_start y.

(** The collapsed text of a fold counts things. *)
Definition says_count (n : nat) (what : text) (x : folding) : Prop :=
  exists ds, canonical_decimal (N.of_nat n) ds /\ fo_text x = ds ++ what.
(** A label that a function defines or mentions, and how many there are. *)
Definition mentions_label (body : func_body) (n : text) : Prop :=
  exists b, In b (fb_blocks body) /\
    ((exists l, bb_label b = Some l /\ fst l = n) \/
     (exists i r, In i (bb_instrs b) /\ In r (i_refs i) /\ fst r = n)).
Definition numbers (P : text -> Prop) (n : nat) : Prop :=
  exists l, NoDup l /\ (forall x, In x l <-> P x) /\ length l = n.
(** Every block has a label of its own and only those are mentioned. *)
Definition well_labelled (body : func_body) : Prop :=
  exists l, Forall2 (fun b n => exists x, bb_label b = Some x /\ fst x = n) (fb_blocks body) l /\ NoDup l /\
    forall n, mentions_label body n -> In n l.

(** ** Outline *)
(** The names of the global variables, one per definition. *)
Definition variable_names (ss : list statement) : list spanned :=
  flat_map (fun s => match s with SGlobalVar x _ => [x] | _ => [] end) ss.
Definition variable_symbol (src : text) (x : spanned) : doc_symbol :=
  mkSym (fst x) SKConstant (lsp_range src (snd x)) (lsp_range src (snd x)).
(** A function extends from its keyword to its closing brace. *)
Definition function_outline (src : text) (ss : list statement) : list doc_symbol :=
  flat_map (fun s => match s with
    | SFuncDef kw sig body =>
        [mkSym (fst (fs_name sig)) SKFunction
           (mkRange (lsp_position src (sp_start kw)) (lsp_position src (sp_end (fb_close body))))
           (lsp_range src (snd (fs_name sig)))]
    | _ => []
    end) ss.
Definition range_in (a b : range_) : Prop := pos_le (r_start b) (r_start a) /\ pos_le (r_end a) (r_end b).

(** ** Definitions, declarations, references *)
Definition location_of (src uri : text) (sp : span) : location := mkLocn uri (lsp_range src sp).
Definition covers (sp : span) (p : nat) : Prop := sp_start sp <= p /\ p < sp_end sp.
(** The line [n] (counted from 1) of an external definition. *)
Definition external_location (e : env) (rs : list url) (x : external_def) (ls : list location) : Prop :=
  exists o, found_below (e_fs e) rs (ext_path x) o /\
    ls = match o with
         | Some y => let p := mkPos (N.to_nat (ext_line x) - 1) 0 in [mkLocn (e_url_display e y) (mkRange p p)]
         | None => []
         end.
(** External definitions of a symbol: only functions have some. *)
Definition externals (ss : list statement) (o : occurrence) : list external_def :=
  match o_kind o with KFunction => ext_defs [] ss (o_name o) | _ => [] end.
Definition external_answer (e : env) (rs : list url) (ss : list statement) (ud : use_def_kind) (o : occurrence) (ls : list location) : Prop :=
  match ud with
  | Def => exists lss, ls = concat lss /\ Forall2 (external_location e rs) (externals ss o) lss
  | _ => ls = []
  end.
(** The answer for offset [p]: nothing outside of names; at a name its range,
    the places of the symbol in the document, and external definitions. *)
Definition answers (e : env) (rs : list url) (uri src : text) (pr : parser_result) (p : nat) (ud : use_def_kind)
    (r : option (range_ * list location)) : Prop :=
  let l := recorded (pr_stmts pr) (pr_tokens pr) in
  match r with
  | None => forall o, In o l -> ~ covers (o_span o) p
  | Some (origin, locs) => exists o ls, In o l /\ covers (o_span o) p /\ origin = lsp_range src (o_span o) /\
      locs = map (location_of src uri) (spans_of l ud (o_kind o) (o_body o) (o_name o)) ++ ls /\
      external_answer e rs (pr_stmts pr) ud o ls
  end.
(** Line numbers in external definitions count from 1. *)
Definition lines_from_1 (ss : list statement) : Prop := forall f x, In x (ext_defs [] ss f) -> ext_line x <> 0%N.
