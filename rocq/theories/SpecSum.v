(** Documents put one behind the other. *)
From Verif Require Import Text Rope Chumsky Tokenizer Parser Numbers Index SemTok Diag Rename Cfg Backtrace Server SpecText SpecLex SpecParse SpecIndex SpecDiag.

(** ** A syntax tree moved by [d] characters *)
Definition move_name (d : nat) (x : spanned) : spanned := (fst x, shift_span d (snd x)).
Definition move_arg (d : nat) (a : func_arg) : func_arg := mkArg (move_name d (fa_type a)) (move_name d (fa_name a)).
Definition move_sig (d : nat) (s : func_sig) : func_sig :=
  mkSig (map (move_name d) (fs_modifiers s)) (move_name d (fs_ret s)) (move_name d (fs_name s)) (map (move_arg d) (fs_args s)).
Definition move_instr (d : nat) (i : instruction) : instruction :=
  mkInstr (option_map (move_name d) (i_target i)) (move_name d (i_instr i)) (map (move_name d) (i_refs i))
    (option_map (move_name d) (i_dbg i)) (shift_span d (i_span i)).
Definition move_block (d : nat) (b : basic_block) : basic_block :=
  mkBB (option_map (move_name d) (bb_label b)) (option_map (shift_span d) (bb_label_comma b)) (map (move_instr d) (bb_instrs b)) (shift_span d (bb_span b)).
Definition move_body (d : nat) (b : func_body) : func_body :=
  mkBody (shift_span d (fb_open b)) (shift_span d (fb_close b)) (map (move_block d) (fb_blocks b)).
Definition move_stmt (d : nat) (s : statement) : statement :=
  match s with
  | SGlobalVar x l => SGlobalVar (move_name d x) (map (shift_tok d) l)
  | SFuncDecl sig addr dbg => SFuncDecl (move_sig d sig) (option_map (move_name d) addr) (option_map (move_name d) dbg)
  | SFuncDef kw sig body => SFuncDef (shift_span d kw) (move_sig d sig) (move_body d body)
  | SFuncDeps x l => SFuncDeps (move_name d x) (map (move_name d) l)
  | SDbgAnnotation x l => SDbgAnnotation (move_name d x) (map (shift_tok d) l)
  end.

(** ** Names of a part in the whole *)
(** An occurrence [d] characters further down and [k] functions later. *)
Definition move_occ (d k : nat) (o : occurrence) : occurrence :=
  mkOcc (shift_span d (o_span o)) (o_ud o) (o_kind o) (o_name o) (option_map (Nat.add k) (o_body o)).
Definition annotates (name : text) (s : statement) : bool :=
  match s with SDbgAnnotation x _ => text_eqb (fst x) name | _ => false end.
(** Some statement introduces the name of [o] for other parts of the document;
    local names and labels are never introduced elsewhere. *)
Definition supplies (ss : list statement) (o : occurrence) : bool :=
  match o_kind o with
  | KGlobalVar | KFunction => existsb (fun s => declares (o_name o) s || defines_var (o_name o) s) ss
  | KDbgAnnotation => existsb (annotates (o_name o)) ss
  | KLocalVar | KLabel => false
  end.
(** [f] is the first definition in [ss] of the symbol of [o]. *)
Definition first_defined (ss : list statement) (o f : occurrence) : Prop :=
  In f (tree_occs 0 ss) /\ o_ud f = Def /\ same_symbol o f /\
  forall g, In g (tree_occs 0 ss) -> o_ud g = Def -> same_symbol g o -> sp_start (o_span f) <= sp_start (o_span g).

(** ** Places of a part in the whole, [n] lines further down *)
Definition lower (n : nat) (p : position_) : position_ := mkPos (n + p_line p) (p_char p).
Definition lower_range (n : nat) (r : range_) : range_ := mkRange (lower n (r_start r)) (lower n (r_end r)).
Definition lower_location (n : nat) (l : location) : location := mkLocn (loc_uri l) (lower_range n (loc_range l)).
Definition lower_diagnostic (n : nat) (x : diagnostic) : diagnostic :=
  mkDiag (lower_range n (d_range x)) (d_message x) (map (fun y => (lower_location n (fst y), snd y)) (d_related x)).
Definition lower_symbol (n : nat) (x : doc_symbol) : doc_symbol :=
  mkSym (ds_name x) (ds_kind x) (lower_range n (ds_range x)) (lower_range n (ds_selection x)).
Definition lower_answer (n : nat) (x : range_ * list location) : range_ * list location :=
  (lower_range n (fst x), map (lower_location n) (snd x)).
(** Nothing that one part introduces is used without a definition or defined in the other. *)
Definition apart (pa pb : parser_result) : Prop :=
  (forall o, In o (undefined_uses (recorded (pr_stmts pa) (pr_tokens pa))) -> supplies (pr_stmts pb) o = false) /\
  (forall o, In o (undefined_uses (recorded (pr_stmts pb) (pr_tokens pb))) -> supplies (pr_stmts pa) o = false) /\
  forall o f, In o (tree_occs 0 (pr_stmts pb)) -> o_ud o = Def -> o_body o = None -> ~ first_defined (pr_stmts pa) o f.

(** Not everything of a text was lost: there are statements, or there are no errors. *)
Definition read (pr : parser_result) : Prop := pr_stmts pr <> [] \/ pr_errors pr = [].

(** ** Any number of parts *)
Record piece := mkPiece { pc_text : text; pc_result : parser_result }.
Definition good_piece (u : uclass) (p : piece) : Prop :=
  full_lines (pc_text p) /\ parse_from_str u (pc_text p) = Val (pc_result p) /\ pr_errors (pc_result p) = [].
Definition whole (ps : list piece) : text := flat_map pc_text ps.
