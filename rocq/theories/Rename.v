(** src/rename.rs *)
From Verif Require Import Text Rope Parser Numbers Index.

(** [id.rfind(|c| !c.is_numeric())] and the split after it: the trailing
    numeric characters and what precedes them. *)
Fixpoint split_numeric_rev (u : uclass) (r : text) (acc : text) : text * text :=
  match r with
  | [] => ([], acc)
  | c :: r' => if is_numeric u c then split_numeric_rev u r' (c :: acc) else (rev r, acc)
  end.
Definition split_numeric (u : uclass) (id : text) : text * text := split_numeric_rev u (rev id) [].

(** src/rename.rs:9-16.  [i + 1] is a byte offset: when the last non-numeric
    character takes more than one byte, [split_at] panics. *)
Definition extract_number_from_identifier (u : uclass) (id : text) : res (option (text * Z)) :=
  let '(name, nr) := split_numeric u id in
  if match olast name with Some c => negb (utf8_len c =? 1) | None => false end then Panic
  else Val (option_map (fun z => (name, z)) (parse_i64 nr)).

(** lsp_types::TextEdit *)
Record text_edit := mkEdit { te_range : range_; te_text : text }.

(** src/rename.rs:18-31 *)
Definition get_rename_edits (t : rope) (ud : use_def_list) (new_name : text) : list text_edit :=
  filter_map (fun sp => obind (range_to_lsp t sp) (fun r => Some (mkEdit r new_name)))
             (decls ud ++ defs ud ++ uses ud).

(** src/rename.rs:47-54, one map entry: the edits for it (none if skipped) *)
Definition shift_entry (u : uclass) (pf : profile) (t : rope) (renamed_nr shift : Z)
    (e : text * use_def_list) : res (list text_edit) :=
  rbind (extract_number_from_identifier u (fst e)) (fun x =>
  match x with
  | None => Val []
  | Some (prefix, nr) =>
      if (nr <? renamed_nr)%Z then Val []
      else rbind (i64_add pf nr shift) (fun z =>
           Val (get_rename_edits t (snd e) (prefix ++ render_Z (wrapping_abs z))))
  end).

(** [filter_map ... flatten ... collect] with panics *)
Fixpoint rflat_map {A B} (f : A -> res (list B)) (l : list A) : res (list B) :=
  match l with
  | [] => Val []
  | a :: r => rbind (f a) (fun x => rbind (rflat_map f r) (fun y => Val (x ++ y)))
  end.

(** [func_body_id.map(|id| &index.function_bodies[id])] *)
Definition body_of_id (ix : hir_index) (id : option nat) : res (option function_body) :=
  match id with
  | None => Val None
  | Some i => match nth_error (function_bodies ix) i with
              | Some b => Val (Some b)
              | None => Panic
              end
  end.

(** src/rename.rs:33-57 *)
Definition get_shift_edits (u : uclass) (pf : profile) (ord : map_order) (t : rope) (ix : hir_index)
    (k : symbol_kind) (id : option nat) (renamed_nr shift : Z) : res (list text_edit) :=
  rbind (body_of_id ix id) (fun b =>
  rbind (get_by_symbol_kind ix k b) (fun m =>
  rflat_map (shift_entry u pf t renamed_nr shift) (ord m))).
