(** Lenses, graphs and hints after edits: everything moves with the text around
    it, and what is named is named by its new name. *)
From Verif Require Import Text Rope Chumsky Tokenizer Parser Numbers Index SemTok Diag Rename Cfg Backtrace Server SpecText SpecParse SpecIndex SpecDiag SpecCfg SpecView SpecRename SpecPatch SpecSimilar SpecRebind SpecDot SpecSteps SpecRoom SpecNumbers SpecAfter.

Definition range_eqb (a b : range_) : bool := pos_eqb (r_start a) (r_start b) && pos_eqb (r_end a) (r_end b).
(** The new name [nm] of what is written at a range; other ranges keep the text [m] shown for them. *)
Definition new_name (src : text) (l : list occurrence) (nm : occurrence -> text) (r : range_) (m : text) : text :=
  match find (fun x => range_eqb (lsp_range src (o_span x)) r) l with Some x => nm x | None => m end.
(** A lens: moved, and its command asks for the function by its new name. *)
Definition carried_lens (src uri : text) (l : list occurrence) (nm : occurrence -> text) (edits : list text_edit) (x : lens) : lens :=
  mkLens (carried_range edits (cl_range x)) (cl_command x)
    (match cl_args x with [a; JStr m] => [a; JStr (new_name src l nm (cl_range x) m)] | a => a end).
(** A part of a hint: one that links to a name shows its new name and follows it. *)
Definition carried_part (src uri : text) (l : list occurrence) (nm : occurrence -> text) (edits : list text_edit) (x : label_part) : label_part :=
  match lp_location x with
  | Some loc => mkPart (new_name src l nm (loc_range loc) (lp_value x)) (Some (carried_location uri edits loc)) (lp_tooltip x)
  | None => x
  end.
Definition carried_hint (src uri : text) (l : list occurrence) (nm : occurrence -> text) (edits : list text_edit) (x : inlay_hint) : inlay_hint :=
  mkHint (carried edits (ih_pos x)) (map (carried_part src uri l nm edits) (ih_parts x)).
(** A graph with other labels. *)
Definition with_labels (f : text -> text) (x : ditem) : ditem :=
  match x with Edge a b => Edge (f a) (f b) | Node a => Node (f a) end.
(** The number of the first function that is defined under a name. *)
Definition first_named (ss : list statement) (m : text) (id : nat) : Prop :=
  (exists f, nth_error (function_defs ss) id = Some f /\ fst (fs_name (fst f)) = m) /\
  forall j f, j < id -> nth_error (function_defs ss) j = Some f -> fst (fs_name (fst f)) <> m.
(** No changed name is part of the value of a debug annotation. *)
Definition values_kept (ss : list statement) (l : list occurrence) (changed : occurrence -> Prop) : Prop :=
  forall st n a b x, In st ss -> value_range st = Some (n, a, b) -> In x l -> changed x -> sp_start (o_span x) < a \/ b <= sp_start (o_span x).
(** The names after the symbol of [o] is renamed. *)
Definition renamed_to (o : occurrence) (final : text) (x : occurrence) : text := if same_symbolb o x then final else o_name x.
(** The names after numbers from [n] on in the scope of [o] are moved by [z]. *)
Definition numbered (l : list occurrence) (o : occurrence) (n : N) (z : Z) (f : occurrence -> text) : Prop :=
  forall x, In x l -> (in_scope o x -> moves_or_stays n z (o_name x) (f x)) /\ (~ in_scope o x -> f x = o_name x).
(** Asked for the graph of a function. *)
Definition graph_for (s : server) (uri m : text) : reply show_graph := execute_command s (str "visualize-cfg") [JStr uri; JStr m].
(** The graph of a function, before and after. *)
Definition graph_follows (s s' : server) (uri : text) (ss : list statement) (l : list occurrence) (nm : occurrence -> text) : Prop :=
  forall x g, In x l -> o_kind x = KFunction -> graph_for s uri (o_name x) = Reply g ->
  exists g' id f items, graph_for s' uri (nm x) = Reply g' /\ sg_title g' = str "CFG for " ++ nm x /\ first_named ss (o_name x) id /\
    (forall y, In y l -> o_kind y = KLabel -> o_body y = Some id -> f (o_name y) = nm y) /\
    dot_read (sg_dot g) = Some items /\ dot_read (sg_dot g') = Some (map (with_labels f) items).
