(** src/diagnostics.rs *)
From Verif Require Import Text Rope Chumsky Tokenizer Parser Numbers Index.

(** lsp_types::Location, Diagnostic (the fields that are ever set) *)
Record location := mkLocn { loc_uri : text; loc_range : range_ }.
Record diagnostic := mkDiag {
  d_range : range_;
  d_message : text;
  d_related : list (location * text);
}.
Definition diag_simple (r : range_) (m : text) : diagnostic := mkDiag r m [].

(** [Vec<String>::join] *)
Fixpoint join (sep : text) (l : list text) : text :=
  match l with
  | [] => []
  | [x] => x
  | x :: r => x ++ sep ++ join sep r
  end.

(** src/diagnostics.rs:15-43: message and span of a parser error.  The
    expected set is a HashSet: the model removes duplicates and then uses the
    iteration order [ord]. *)
Definition set_order := list (option text) -> list (option text).
Definition expected_text (o : option text) : text :=
  match o with Some x => x | None => str "end of input" end.
Definition opt_text_dec (a b : option text) : {a = b} + {a <> b}.
Proof. decide equality; apply text_eq_dec. Defined.
Definition parser_error_message (ord : set_order) (e : simple text) : text :=
  match e_reason e with
  | CustomMsg m => m
  | Unexpected =>
      (match e_found e with
       | Some _ => str "Unexpected token in input"
       | None => str "Unexpected end of input"
       end)
      ++ str ", expected "
      ++ (match e_expected e with
          | [] => str "something else"
          | l => join (str ", ") (map expected_text (ord (nodup opt_text_dec l)))
          end)
  end.

(** src/diagnostics.rs:11-49 *)
Definition diagnostics_from_parser (ord : set_order) (t : rope) (errors : list (simple text)) : list diagnostic :=
  filter_map (fun e =>
    obind (range_to_lsp t (e_span e)) (fun r => Some (diag_simple r (parser_error_message ord e))))
    errors.

(** All instructions of all function definitions, in order *)
Definition stmt_blocks (x : statement) : list basic_block :=
  match x with SFuncDef _ _ body => fb_blocks body | _ => [] end.
Definition all_instructions (stmts : list statement) : list instruction :=
  flat_map bb_instrs (flat_map stmt_blocks stmts).

(** src/diagnostics.rs:51-81 *)
Definition missing_refs (i : instruction) : bool :=
  (is_branching i || text_eqb (fst (i_instr i)) (str "phi"))
  && match i_refs i with [] => true | _ => false end.
Definition diagnostics_from_statements (t : rope) (stmts : list statement) : list diagnostic :=
  filter_map (fun i =>
    if missing_refs i then
      obind (range_to_lsp t (snd (i_instr i))) (fun r =>
      Some (diag_simple r (str "Failed to extract basic block references from `"
                           ++ fst (i_instr i) ++ str "` instruction")))
    else None)
    (all_instructions stmts).

(** src/diagnostics.rs:88-99 *)
Definition all_use_defs (ord : map_order) (ix : hir_index) : list (text * use_def_list) :=
  ord (global_vars ix) ++ ord (functions ix) ++ ord (dgb_annotations ix)
  ++ flat_map (fun b => ord (labels b)) (function_bodies ix)
  ++ flat_map (fun b => ord (local_vars b)) (function_bodies ix).

Definition undefined_message (name : text) : text :=
  str "Use of undefined symbol `" ++ name ++ str "`".
Definition duplicate_message (name : text) : text :=
  str "Symbol `" ++ name ++ str "` already defined previously".
Definition previously_message : text := str "Previously defined here".

(** src/diagnostics.rs:101-145; [ud.defs[0]] exists when there are two defs *)
Definition diagnostics_of_symbol (t : rope) (uri : text) (e : text * use_def_list) : list diagnostic :=
  let '(name, ud) := e in
  match decls ud, defs ud with
  | [], [] =>
      filter_map (fun sp => obind (range_to_lsp t sp) (fun r =>
                            Some (diag_simple r (undefined_message name)))) (uses ud)
  | _, d0 :: ds =>
      filter_map (fun sp =>
        obind (range_to_lsp t d0) (fun r0 =>
        obind (range_to_lsp t sp) (fun r =>
        Some (mkDiag r (duplicate_message name) [(mkLocn uri r0, previously_message)])))) ds
  | _, [] => []
  end.

(** src/diagnostics.rs:83-147 *)
Definition diagnostics_from_index (ord : map_order) (t : rope) (uri : text) (ix : hir_index)
  : list diagnostic :=
  flat_map (diagnostics_of_symbol t uri) (all_use_defs ord ix).
