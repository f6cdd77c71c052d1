(** src/hir_index.rs *)
From Verif Require Import Text Chumsky Tokenizer Parser Numbers.

(** src/hir_index.rs:9-14 *)
Inductive use_def_kind := Decl | Def | Use.

(** src/hir_index.rs:16-20 *)
Record external_def := mkExt { ext_path : text; ext_line : N }.

(** src/hir_index.rs:22-28 *)
Record use_def_list := mkUD {
  decls : list span;
  defs : list span;
  external_defs : list external_def;
  uses : list span;
}.
Definition ud_empty : use_def_list := mkUD [] [] [] [].

(** src/hir_index.rs:31-37 *)
Definition get_use_def_kind (l : use_def_list) (ud : use_def_kind) : list span :=
  match ud with Decl => decls l | Def => defs l | Use => uses l end.

(** src/hir_index.rs:39-45, 115: push onto the list of the given kind *)
Definition ud_push (ud : use_def_kind) (sp : span) (l : use_def_list) : use_def_list :=
  match ud with
  | Decl => mkUD (decls l ++ [sp]) (defs l) (external_defs l) (uses l)
  | Def => mkUD (decls l) (defs l ++ [sp]) (external_defs l) (uses l)
  | Use => mkUD (decls l) (defs l) (external_defs l) (uses l ++ [sp])
  end.
Definition ud_push_ext (e : external_def) (l : use_def_list) : use_def_list :=
  mkUD (decls l) (defs l) (external_defs l ++ [e]) (uses l).

(** src/hir_index.rs:112 *)
Definition ud_has (l : use_def_list) (sp : span) : bool :=
  spans_mem sp (decls l) || spans_mem sp (defs l) || spans_mem sp (uses l).

(** src/hir_index.rs:48-56 *)
Record function_body := mkFB {
  fb_name : spanned;
  complete_range : span;
  labels : amap use_def_list;
  local_vars : amap use_def_list;
  basic_blocks : list basic_block;
  incoming : amap (list spanned);
}.

(** src/hir_index.rs:58-66 *)
Inductive symbol_kind := KGlobalVar | KFunction | KDbgAnnotation | KLabel | KLocalVar.

(** src/hir_index.rs:68-75 *)
Record occurrence := mkOcc {
  o_span : span;
  o_ud : use_def_kind;
  o_kind : symbol_kind;
  o_name : text;
  o_body : option nat;
}.

(** src/hir_index.rs:77-85; [reverse_idx] is a BTreeMap: a list sorted by key *)
Record hir_index := mkIndex {
  global_vars : amap use_def_list;
  functions : amap use_def_list;
  dgb_annotations : amap use_def_list;
  reverse_idx : list (nat * occurrence);
  function_bodies : list function_body;
  dgb_annotation_values : amap text;
}.
Definition index_empty : hir_index := mkIndex [] [] [] [] [] [].

(** BTreeMap::insert *)
Fixpoint bt_insert {X} (k : nat) (x : X) (m : list (nat * X)) : list (nat * X) :=
  match m with
  | [] => [(k, x)]
  | (k', x') :: r =>
      if k <? k' then (k, x) :: m
      else if k =? k' then (k, x) :: r
      else (k', x') :: bt_insert k x r
  end.

(** Iteration order of a [HashMap]: any rearrangement of its entries. *)
Definition map_order := amap use_def_list -> list (text * use_def_list).

(** src/hir_index.rs:88-100; [fb.unwrap()] panics without a function body *)
Definition get_by_symbol_kind (ix : hir_index) (k : symbol_kind) (fb : option function_body)
  : res (amap use_def_list) :=
  match k with
  | KGlobalVar => Val (global_vars ix)
  | KFunction => Val (functions ix)
  | KDbgAnnotation => Val (dgb_annotations ix)
  | KLabel => match fb with Some b => Val (labels b) | None => Panic end
  | KLocalVar => match fb with Some b => Val (local_vars b) | None => Panic end
  end.

(** src/hir_index.rs:102-126 *)
Definition add_internal (m : amap use_def_list) (rev : list (nat * occurrence))
    (body : option nat) (k : symbol_kind) (ud : use_def_kind) (sp : span) (name : text)
  : amap use_def_list * list (nat * occurrence) :=
  let e := match alookup name m with Some e => e | None => ud_empty end in
  if ud_has e sp then (aupdate name ud_empty (fun e => e) m, rev)
  else (aupdate name ud_empty (ud_push ud sp) m,
        bt_insert (sp_start sp) (mkOcc sp ud k name body) rev).

(** src/hir_index.rs:128-141 *)
Definition add_global (ix : hir_index) (k : symbol_kind) (ud : use_def_kind) (sp : span) (name : text)
  : res hir_index :=
  match k with
  | KGlobalVar =>
      let '(m, r) := add_internal (global_vars ix) (reverse_idx ix) None k ud sp name in
      Val (mkIndex m (functions ix) (dgb_annotations ix) r (function_bodies ix) (dgb_annotation_values ix))
  | KFunction =>
      let '(m, r) := add_internal (functions ix) (reverse_idx ix) None k ud sp name in
      Val (mkIndex (global_vars ix) m (dgb_annotations ix) r (function_bodies ix) (dgb_annotation_values ix))
  | KDbgAnnotation =>
      let '(m, r) := add_internal (dgb_annotations ix) (reverse_idx ix) None k ud sp name in
      Val (mkIndex (global_vars ix) (functions ix) m r (function_bodies ix) (dgb_annotation_values ix))
  | KLabel | KLocalVar => Panic    (* unreachable!() *)
  end.
Definition add_global_spanned (ix : hir_index) (k : symbol_kind) (ud : use_def_kind) (x : spanned)
  : res hir_index := add_global ix k ud (snd x) (fst x).

(** replace element [i] of a list by [f] of it; None if out of bounds *)
Fixpoint list_update {X} (i : nat) (f : X -> X) (l : list X) : option (list X) :=
  match l, i with
  | [], _ => None
  | x :: r, 0 => Some (f x :: r)
  | x :: r, S j => option_map (cons x) (list_update j f r)
  end.

(** src/hir_index.rs:143-177 *)
Definition add_func_local (ix : hir_index) (id : nat) (k : symbol_kind) (ud : use_def_kind)
    (sp : span) (name : text) : res hir_index :=
  match nth_error (function_bodies ix) id with
  | None => Panic                                  (* index out of bounds *)
  | Some b =>
      match k with
      | KLabel =>
          let '(m, r) := add_internal (labels b) (reverse_idx ix) (Some id) k ud sp name in
          match list_update id (fun b => mkFB (fb_name b) (complete_range b) m (local_vars b)
                                              (basic_blocks b) (incoming b)) (function_bodies ix) with
          | Some bs => Val (mkIndex (global_vars ix) (functions ix) (dgb_annotations ix) r bs
                                    (dgb_annotation_values ix))
          | None => Panic
          end
      | KLocalVar =>
          let '(m, r) := add_internal (local_vars b) (reverse_idx ix) (Some id) k ud sp name in
          match list_update id (fun b => mkFB (fb_name b) (complete_range b) (labels b) m
                                              (basic_blocks b) (incoming b)) (function_bodies ix) with
          | Some bs => Val (mkIndex (global_vars ix) (functions ix) (dgb_annotations ix) r bs
                                    (dgb_annotation_values ix))
          | None => Panic
          end
      | _ => Panic                                 (* unreachable!() *)
      end
  end.
Definition add_func_local_spanned (ix : hir_index) (id : nat) (k : symbol_kind) (ud : use_def_kind)
    (x : spanned) : res hir_index := add_func_local ix id k ud (snd x) (fst x).

(** src/hir_index.rs:179-183 *)
Definition find_symbol_at_position (ix : hir_index) (pos : nat) : option occurrence :=
  find (fun e => span_contains (o_span e) pos) (map snd (reverse_idx ix)).

(** [&src[start..end]] with byte offsets: panics unless start <= end <= len
    and both are character boundaries *)
Fixpoint drop_bytes (b : nat) (t : text) : option text :=
  match b with
  | 0 => Some t
  | _ => match t with
         | [] => None
         | c :: r => if utf8_len c <=? b then drop_bytes (b - utf8_len c) r else None
         end
  end.
Fixpoint take_bytes (b : nat) (t : text) : option text :=
  match b with
  | 0 => Some []
  | _ => match t with
         | [] => None
         | c :: r => if utf8_len c <=? b then option_map (cons c) (take_bytes (b - utf8_len c) r)
                     else None
         end
  end.
Definition byte_slice (src : text) (a b : nat) : res text :=
  if a <=? b then
    match drop_bytes a src with
    | Some r => match take_bytes (b - a) r with Some x => Val x | None => Panic end
    | None => Panic
    end
  else Panic.

(** src/hir_index.rs:227-228 and src/backtrace.rs:57-61: [path:line] with
    exactly one colon *)
Definition parse_file_line (x : text) : option (text * N) :=
  match split_on (ch ":") x with
  | [filepath; linestr] => option_map (fun n => (filepath, n)) (parse_u32 linestr)
  | _ => None
  end.

(** The state of the first loop: the index and [unresolved_function_dbgrefs]
    (src/hir_index.rs:199) *)
Definition idx_state := (hir_index * amap text)%type.

(** src/hir_index.rs:205-212 *)
Definition index_func_decl (st : idx_state) (sig : func_sig) (dbgref : option spanned)
  : res idx_state :=
  rbind (add_global_spanned (fst st) KFunction Decl (fs_name sig)) (fun ix =>
  Val (ix, match dbgref with
           | Some d => ainsert (fst d) (fst (fs_name sig)) (snd st)
           | None => snd st
           end)).

(** src/hir_index.rs:214-223 *)
Definition index_dbg_value (src : text) (ix : hir_index) (name : spanned) (def : list stoken)
  : res hir_index :=
  match def, olast def with
  | (_, sp1) :: _, Some (_, sp2) =>
      rbind (byte_slice src (sp_start sp1) (sp_end sp2)) (fun value =>
      Val (mkIndex (global_vars ix) (functions ix) (dgb_annotations ix) (reverse_idx ix)
                   (function_bodies ix) (ainsert (fst name) value (dgb_annotation_values ix))))
  | _, _ => Val ix
  end.

(** src/hir_index.rs:225-241 *)
Definition index_dbg_external (st : idx_state) (name : spanned) (def : list stoken) : res hir_index :=
  let ix := fst st in
  match alookup (fst name) (snd st) with
  | None => Val ix
  | Some funcname =>
      match def with
      | [(TStr dbgstr, _)] =>
          match parse_file_line dbgstr with
          | Some (filepath, line) =>
              match alookup funcname (functions ix) with
              | None => Panic                              (* get_mut().unwrap() *)
              | Some _ =>
                  Val (mkIndex (global_vars ix)
                         (aupdate funcname ud_empty (ud_push_ext (mkExt filepath line)) (functions ix))
                         (dgb_annotations ix) (reverse_idx ix) (function_bodies ix)
                         (dgb_annotation_values ix))
              end
          | None => Val ix
          end
      | _ => Val ix
      end
  end.

(** src/hir_index.rs:214-242 *)
Definition index_dbg_annotation (src : text) (st : idx_state) (name : spanned) (def : list stoken)
  : res idx_state :=
  rbind (add_global_spanned (fst st) KDbgAnnotation Def name) (fun ix1 =>
  rbind (index_dbg_value src ix1 name def) (fun ix2 =>
  rbind (index_dbg_external (ix2, snd st) name def) (fun ix3 => Val (ix3, snd st)))).

(** Loop over a list with early panic. *)
Fixpoint rfold {A B} (f : A -> B -> res A) (l : list B) (a : A) : res A :=
  match l with
  | [] => Val a
  | b :: r => rbind (f a b) (rfold f r)
  end.

Definition spanned_eqb (a b : spanned) : bool :=
  text_eqb (fst a) (fst b) && span_eqb (snd a) (snd b).

(** src/hir_index.rs:298-308 *)
Definition add_incoming (ix : hir_index) (id : nat) (target : text) (label : spanned) : res hir_index :=
  match list_update id
          (fun b => mkFB (fb_name b) (complete_range b) (labels b) (local_vars b) (basic_blocks b)
             (aupdate target [] (fun l => if existsb (spanned_eqb label) l then l else l ++ [label])
                      (incoming b)))
          (function_bodies ix) with
  | Some bs => Val (mkIndex (global_vars ix) (functions ix) (dgb_annotations ix) (reverse_idx ix) bs
                            (dgb_annotation_values ix))
  | None => Panic
  end.

(** src/hir_index.rs:291-309 *)
Definition index_bb_ref (id : nat) (label : option spanned) (branching : bool) (ix : hir_index)
    (bb_ref : spanned) : res hir_index :=
  rbind (add_func_local_spanned ix id KLabel Use bb_ref) (fun ix1 =>
  match label with
  | Some l => if branching then add_incoming ix1 id (fst bb_ref) l else Val ix1
  | None => Val ix1
  end).

(** src/hir_index.rs:282-310 *)
Definition index_instr (id : nat) (label : option spanned) (ix : hir_index) (i : instruction)
  : res hir_index :=
  rbind (match i_target i with
         | Some t => add_func_local_spanned ix id KLocalVar Def t
         | None => Val ix
         end) (fun ix1 =>
  rfold (index_bb_ref id label (is_branching i)) (i_refs i) ix1).

(** src/hir_index.rs:271-311 *)
Definition index_bb (id : nat) (ix : hir_index) (bb : basic_block) : res hir_index :=
  rbind (match bb_label bb with
         | Some l => add_func_local_spanned ix id KLabel Def l
         | None => Val ix
         end) (fun ix1 =>
  rfold (index_instr id (bb_label bb)) (bb_instrs bb) ix1).

(** src/hir_index.rs:245-312 *)
Definition index_func_def (ix : hir_index) (define_kw : span) (sig : func_sig) (body : func_body)
  : res hir_index :=
  rbind (add_global_spanned ix KFunction Def (fs_name sig)) (fun ix1 =>
  let b := mkFB (fs_name sig) (mkSpan (sp_start define_kw) (sp_end (fb_close body))) [] []
                (fb_blocks body) [] in
  let ix2 := mkIndex (global_vars ix1) (functions ix1) (dgb_annotations ix1) (reverse_idx ix1)
                     (function_bodies ix1 ++ [b]) (dgb_annotation_values ix1) in
  let id := length (function_bodies ix2) - 1 in
  rbind (rfold (fun ix a => add_func_local_spanned ix id KLocalVar Def (fa_name a)) (fs_args sig) ix2)
        (fun ix3 => rfold (index_bb id) (fb_blocks body) ix3)).

(** src/hir_index.rs:200-314, one iteration *)
Definition index_stmt (src : text) (st : idx_state) (x : statement) : res idx_state :=
  match x with
  | SGlobalVar name _ =>
      rbind (add_global_spanned (fst st) KGlobalVar Def name) (fun ix => Val (ix, snd st))
  | SFuncDecl sig _ dbgref => index_func_decl st sig dbgref
  | SFuncDeps _ _ => Val st
  | SDbgAnnotation name def => index_dbg_annotation src st name def
  | SFuncDef kw sig body =>
      rbind (index_func_def (fst st) kw sig body) (fun ix => Val (ix, snd st))
  end.

(** [iter().enumerate().find(..)] over the function bodies *)
Definition find_body (ix : hir_index) (p : nat) : option nat :=
  position (fun b => span_contains (complete_range b) p) (function_bodies ix).

(** src/hir_index.rs:331-342: keep the cached function body while it contains
    the token, otherwise search *)
Definition next_body (ix : hir_index) (cur : option nat) (p : nat) : res (option nat) :=
  match cur with
  | None => Val (find_body ix p)
  | Some id =>
      match nth_error (function_bodies ix) id with
      | None => Panic
      | Some b => if span_contains (complete_range b) p then Val cur else Val (find_body ix p)
      end
  end.

(** src/hir_index.rs:318-355, one iteration *)
Definition index_token (st : hir_index * option nat) (t : stoken) : res (hir_index * option nat) :=
  let '(ix, cur) := st in
  match fst t with
  | TGlobalName name =>
      rbind (match alookup name (functions ix) with
             | Some _ => add_global ix KFunction Use (snd t) name
             | None => add_global ix KGlobalVar Use (snd t) name
             end) (fun ix' => Val (ix', cur))
  | TDebugRef name =>
      rbind (add_global ix KDbgAnnotation Use (snd t) name) (fun ix' => Val (ix', cur))
  | TLocalName name =>
      rbind (next_body ix cur (sp_start (snd t))) (fun cur' =>
      match cur' with
      | Some id => rbind (add_func_local ix id KLocalVar Use (snd t) name) (fun ix' => Val (ix', cur'))
      | None => Val (ix, cur')
      end)
  | _ => Val st
  end.

(** src/hir_index.rs:193-358 *)
Definition create_index (src : text) (tokens : list stoken) (stmts : list statement) : res hir_index :=
  rbind (rfold (index_stmt src) stmts (index_empty, [])) (fun st =>
  rbind (rfold index_token tokens (fst st, None)) (fun st' => Val (fst st'))).
