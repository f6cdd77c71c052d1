(** What the index should contain, read off the syntax tree and the tokens. *)
From Verif Require Import Text Tokenizer Parser Index SpecParse.

Definition occ (ud : use_def_kind) (k : symbol_kind) (b : option nat) (x : spanned) : occurrence :=
  mkOcc (snd x) ud k (fst x) b.

(** ** Occurrences in the syntax tree; functions are numbered in document order *)
Definition target_occs (id : nat) (t : option spanned) : list occurrence :=
  match t with Some x => [occ Def KLocalVar (Some id) x] | None => [] end.
Definition instr_occs (id : nat) (i : instruction) : list occurrence :=
  target_occs id (i_target i) ++ map (occ Use KLabel (Some id)) (i_refs i).
Definition label_occs (id : nat) (l : option spanned) : list occurrence :=
  match l with Some x => [occ Def KLabel (Some id) x] | None => [] end.
Definition block_occs (id : nat) (b : basic_block) : list occurrence :=
  label_occs id (bb_label b) ++ flat_map (instr_occs id) (bb_instrs b).
Definition param_occs (id : nat) (sig : func_sig) : list occurrence :=
  map (fun a => occ Def KLocalVar (Some id) (fa_name a)) (fs_args sig).
Definition stmt_occs (id : nat) (s : statement) : list occurrence :=
  match s with
  | SGlobalVar x _ => [occ Def KGlobalVar None x]
  | SFuncDecl sig _ _ => [occ Decl KFunction None (fs_name sig)]
  | SFuncDef _ sig body =>
      occ Def KFunction None (fs_name sig) :: param_occs id sig ++ flat_map (block_occs id) (fb_blocks body)
  | SFuncDeps _ _ => []
  | SDbgAnnotation x _ => [occ Def KDbgAnnotation None x]
  end.
Definition is_def (s : statement) : nat := match s with SFuncDef _ _ _ => 1 | _ => 0 end.
Fixpoint tree_occs (id : nat) (ss : list statement) : list occurrence :=
  match ss with
  | [] => []
  | s :: r => stmt_occs id s ++ tree_occs (id + is_def s) r
  end.

(** ** Occurrences in the token stream *)
Definition declares (name : text) (s : statement) : bool :=
  match s with
  | SFuncDecl sig _ _ | SFuncDef _ sig _ => text_eqb (fst (fs_name sig)) name
  | _ => false
  end.
Definition is_function (ss : list statement) (name : text) : bool := existsb (declares name) ss.
(** The function a position belongs to. *)
Fixpoint containing (l : list span) (p : nat) : option nat :=
  match l with
  | [] => None
  | s :: r => if (sp_start s <=? p) && (p <? sp_end s) then Some 0 else option_map S (containing r p)
  end.
Definition token_occs (ss : list statement) (t : stoken) : list occurrence :=
  match fst t with
  | TGlobalName n => [mkOcc (snd t) Use (if is_function ss n then KFunction else KGlobalVar) n None]
  | TDebugRef n => [mkOcc (snd t) Use KDbgAnnotation n None]
  | TLocalName n =>
      match containing (flat_map func_ranges ss) (sp_start (snd t)) with
      | Some id => [mkOcc (snd t) Use KLocalVar n (Some id)]
      | None => []
      end
  | _ => []
  end.

(** ** The record: a place that was seen before is not seen again *)
Definition kind_dec (a b : symbol_kind) : {a = b} + {a <> b}.
Proof. decide equality. Defined.
Definition body_dec (a b : option nat) : {a = b} + {a <> b}.
Proof. decide equality. apply Nat.eq_dec. Defined.
Definition same_place (a b : occurrence) : bool :=
  (if kind_dec (o_kind a) (o_kind b) then true else false) &&
  (if body_dec (o_body a) (o_body b) then true else false) &&
  text_eqb (o_name a) (o_name b) && span_eqb (o_span a) (o_span b).
Fixpoint first_seen (seen l : list occurrence) : list occurrence :=
  match l with
  | [] => []
  | o :: r => if existsb (same_place o) seen then first_seen seen r else o :: first_seen (seen ++ [o]) r
  end.
Definition recorded (ss : list statement) (toks : list stoken) : list occurrence :=
  first_seen [] (tree_occs 0 ss ++ flat_map (token_occs ss) toks).

(** External definitions: the text [path:line] of a debug annotation that the
    last declaration before it with this debug reference points to. *)
Definition decl_for (pre : list statement) (d : text) : option text :=
  fold_left (fun acc s =>
    match s with
    | SFuncDecl sig _ (Some x) => if text_eqb d (fst x) then Some (fst (fs_name sig)) else acc
    | _ => acc
    end) pre None.
Definition stmt_ext (pre : list statement) (s : statement) (f : text) : list external_def :=
  match s with
  | SDbgAnnotation x [(TStr v, _)] =>
      match decl_for pre (fst x), parse_file_line v with
      | Some g, Some (p, n) => if text_eqb f g then [mkExt p n] else []
      | _, _ => []
      end
  | _ => []
  end.
Fixpoint ext_defs (pre ss : list statement) (f : text) : list external_def :=
  match ss with
  | [] => []
  | s :: r => stmt_ext pre s f ++ ext_defs (pre ++ [s]) r f
  end.

(** Labels of the blocks that branch to a label, each occurrence once. *)
Fixpoint once (seen l : list spanned) : list spanned :=
  match l with
  | [] => []
  | x :: r => if existsb (spanned_eqb x) seen then once seen r else x :: once (seen ++ [x]) r
  end.
Definition branches_to (target : text) (b : basic_block) : list spanned :=
  match bb_label b with
  | Some l => flat_map (fun i => if is_branching i
                then flat_map (fun r => if text_eqb target (fst r) then [l] else []) (i_refs i) else []) (bb_instrs b)
  | None => []
  end.
Definition incoming_labels (blocks : list basic_block) (target : text) : list spanned :=
  once [] (flat_map (branches_to target) blocks).

(** ** Contents of an index *)
Definition entry_is (ud : use_def_kind) (k : symbol_kind) (b : option nat) (name : text) (o : occurrence) : bool :=
  (match o_ud o, ud with Decl, Decl | Def, Def | Use, Use => true | _, _ => false end) &&
  (if kind_dec (o_kind o) k then true else false) && (if body_dec (o_body o) b then true else false) &&
  text_eqb (o_name o) name.
Definition spans_of (l : list occurrence) (ud : use_def_kind) (k : symbol_kind) (b : option nat) (name : text) : list span :=
  map o_span (filter (entry_is ud k b name) l).
Definition symbol_in (l : list occurrence) (k : symbol_kind) (b : option nat) (name : text) : Prop :=
  exists o, In o l /\ o_kind o = k /\ o_body o = b /\ o_name o = name.
(** A symbol table holds exactly the recorded spans of its scope. *)
Definition table_is (m : amap use_def_list) (l : list occurrence) (k : symbol_kind) (b : option nat) : Prop :=
  NoDup (map fst m) /\
  forall name, match alookup name m with
  | Some e => symbol_in l k b name /\ decls e = spans_of l Decl k b name /\
              defs e = spans_of l Def k b name /\ uses e = spans_of l Use k b name
  | None => ~ symbol_in l k b name
  end.

(** Values of debug annotations: the source from the first to the last token
    of the last non-empty definition. *)
Definition value_range (s : statement) : option (text * nat * nat) :=
  match s with
  | SDbgAnnotation x ((t, a) :: r) => Some (fst x, sp_start a, sp_end (snd (last ((t, a) :: r) (t, a))))
  | _ => None
  end.
Definition ann_value (src : text) (ss : list statement) (name : text) : option text :=
  fold_left (fun acc s =>
    match value_range s with
    | Some (n, a, b) => if text_eqb name n then match byte_slice src a b with Val v => Some v | Panic => acc end else acc
    | None => acc
    end) ss None.
(** The slice of a definition is not a valid byte range of the source. *)
Definition bad_slice (src : text) (s : statement) : Prop :=
  match value_range s with Some (_, a, b) => byte_slice src a b = Panic | None => False end.

(** The contents of the index of a document. *)
Record index_of (src : text) (ss : list statement) (toks : list stoken) (ix : hir_index) : Prop := {
  io_globals : table_is (global_vars ix) (recorded ss toks) KGlobalVar None;
  io_functions : table_is (functions ix) (recorded ss toks) KFunction None;
  io_annotations : table_is (dgb_annotations ix) (recorded ss toks) KDbgAnnotation None;
  io_locals : forall id fb, nth_error (function_bodies ix) id = Some fb ->
    table_is (labels fb) (recorded ss toks) KLabel (Some id) /\
    table_is (local_vars fb) (recorded ss toks) KLocalVar (Some id);
  io_names : map fb_name (function_bodies ix) =
    flat_map (fun s => match s with SFuncDef _ sig _ => [fs_name sig] | _ => [] end) ss;
  io_ranges : map complete_range (function_bodies ix) = flat_map func_ranges ss;
  io_blocks : map basic_blocks (function_bodies ix) =
    flat_map (fun s => match s with SFuncDef _ _ body => [fb_blocks body] | _ => [] end) ss;
  io_incoming : forall id fb, nth_error (function_bodies ix) id = Some fb -> forall target,
    alookup target (incoming fb) =
      match incoming_labels (basic_blocks fb) target with [] => None | l => Some l end;
  io_external : forall f, match alookup f (functions ix) with Some e => external_defs e | None => [] end = ext_defs [] ss f;
  io_values : forall n, alookup n (dgb_annotation_values ix) = ann_value src ss n;
}.

(** The token an occurrence should be. *)
Definition occ_token (o : occurrence) : stoken :=
  (match o_kind o with
   | KGlobalVar | KFunction => TGlobalName (o_name o)
   | KDbgAnnotation => TDebugRef (o_name o)
   | KLabel => TIdent (o_name o)
   | KLocalVar => TLocalName (o_name o)
   end, o_span o).

(** The symbol table for a kind and scope, and what it lists. *)
Definition table_of (ix : hir_index) (k : symbol_kind) (b : option nat) : option (amap use_def_list) :=
  match k, b with
  | KGlobalVar, None => Some (global_vars ix)
  | KFunction, None => Some (functions ix)
  | KDbgAnnotation, None => Some (dgb_annotations ix)
  | KLabel, Some id => option_map labels (nth_error (function_bodies ix) id)
  | KLocalVar, Some id => option_map local_vars (nth_error (function_bodies ix) id)
  | _, _ => None
  end.
Definition listed (ix : hir_index) (o : occurrence) : Prop :=
  exists m e, table_of ix (o_kind o) (o_body o) = Some m /\ alookup (o_name o) m = Some e /\
    In (o_span o) (get_use_def_kind e (o_ud o)).

(** Names the document uses both for a variable and for a function. *)
Definition defines_var (name : text) (s : statement) : bool :=
  match s with SGlobalVar x _ => text_eqb (fst x) name | _ => false end.
Definition dual (ss : list statement) (name : text) : Prop :=
  existsb (defines_var name) ss = true /\ is_function ss name = true.
Definition dual_token (ss : list statement) (t : stoken) : Prop :=
  match fst t with TGlobalName n => dual ss n | _ => False end.

(** Tokens that name a symbol. *)
Definition names_symbol (ss : list statement) (t : stoken) : Prop :=
  match fst t with
  | TGlobalName _ | TDebugRef _ => True
  | TLocalName _ => exists r, In r (flat_map func_ranges ss) /\ inside (snd t) r
  | _ => False
  end.
