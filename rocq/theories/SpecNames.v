(** Two documents whose tokens differ in the names that are chosen and in the values of literals at most. *)
From Verif Require Import Text Rope Chumsky Tokenizer Parser Numbers Index SemTok Diag Rename Cfg Backtrace Server SpecText SpecParse SpecIndex SpecDiag SpecCfg SpecDot SpecView SpecSemTok SpecRename SpecPatch SpecBacktrace SpecSimilar SpecValues SpecReformat SpecValued SpecWritten SpecAfterHints.

(** Names that could be names of one thing: global names, references to debug
    annotations, local names in one function definition (from [define] to the
    closing brace), and labels of one function. *)
Definition together (ss : list statement) (a b : stoken) : Prop :=
  match fst a, fst b with
  | TGlobalName _, TGlobalName _ | TDebugRef _, TDebugRef _ => True
  | TLocalName _, TLocalName _ => exists r, In r (flat_map func_ranges ss) /\ around (snd a) r = true /\ around (snd b) r = true
  | TIdent n, TIdent m => exists f, In f (function_defs ss) /\ In (n, snd a) (label_names (fb_blocks (snd f))) /\ In (m, snd b) (label_names (fb_blocks (snd f)))
  | _, _ => False
  end.
(** Token for token alike, and names that could be names of one thing are equal in
    one text if they are in the other. Both texts are read without lexical errors. *)
Definition renamed_text (u : uclass) (src src' : text) : Prop :=
  exists pr toks toks', parse_from_str u src = Val pr /\ tokenize u src = Val (Some toks, []) /\ tokenize u src' = Val (Some toks', []) /\
    Forall2 (fun a b => resembles (fst a) (fst b)) toks toks' /\
    forall a a' b b', counterparts toks toks' a a' -> counterparts toks toks' b b' -> together (pr_stmts pr) a b -> (fst a = fst b <-> fst a' = fst b').

Definition chosen_name (t : token) : option text :=
  match t with TGlobalName n | TLocalName n | TDebugRef n | TIdent n => Some n | _ => None end.

Section Named.
Variables (T : stoken -> stoken -> Prop) (uri src src' : text).
(** Names of corresponding tokens at [r] and [r']. *)
Definition names_at (r r' : range_) (n n' : text) : Prop :=
  exists a b, T a b /\ chosen_name (fst a) = Some n /\ chosen_name (fst b) = Some n' /\ r = lsp_range src (snd a) /\ r' = lsp_range src' (snd b).
(** Equal, or about the names at [r] and [r'] in the same words. *)
Definition says_alike (r r' : range_) (m m' : text) : Prop :=
  m' = m \/ exists n n' front back, names_at r r' n n' /\ m = front ++ n ++ back /\ m' = front ++ n' ++ back.
Definition diagnostic_renamed (x y : diagnostic) : Prop :=
  says_alike (d_range x) (d_range y) (d_message x) (d_message y) /\ range_alike T src src' (d_range x) (d_range y) /\
  Forall2 (fun a b => snd b = snd a /\ location_alike T uri src src' (fst a) (fst b)) (d_related x) (d_related y).
Definition symbol_renamed (x y : doc_symbol) : Prop :=
  ds_kind y = ds_kind x /\ range_alike T src src' (ds_range x) (ds_range y) /\ names_at (ds_selection x) (ds_selection y) (ds_name x) (ds_name y).
(** The lens asks for the graph of the function it is at. *)
Definition lens_renamed (x y : lens) : Prop :=
  cl_command y = cl_command x /\ exists n n', cl_args x = [JStr uri; JStr n] /\ cl_args y = [JStr uri; JStr n'] /\ names_at (cl_range x) (cl_range y) n n'.
(** Parts of hints that name something link to it. *)
Definition part_renamed (x y : label_part) : Prop :=
  lp_tooltip y = lp_tooltip x /\
  match lp_location x, lp_location y with
  | Some a, Some b => loc_uri a = uri /\ loc_uri b = uri /\ names_at (loc_range a) (loc_range b) (lp_value x) (lp_value y)
  | None, None => lp_value y = lp_value x
  | _, _ => False
  end.
Definition hint_renamed (x y : inlay_hint) : Prop := ends_alike T src src' (ih_pos x) (ih_pos y) /\ Forall2 part_renamed (ih_parts x) (ih_parts y).
Definition hints_renamed (r r' : res (option (list inlay_hint))) : Prop :=
  match r, r' with
  | Val (Some a), Val (Some b) => Forall2 hint_renamed a b
  | Panic, Panic => True
  | _, _ => False
  end.
(** The JSON reader finds the same in the values of corresponding debug annotations. *)
Definition values_renamed (e : env) (ss ss' : list statement) : Prop :=
  forall n sp n' sp', T (TDebugRef n, sp) (TDebugRef n', sp') -> obind (ann_value src ss n) (e_json_parse e) = obind (ann_value src' ss' n') (e_json_parse e).
Definition shown_renamed (e : env) (s s' : server) : Prop :=
  (exists a b k, document_symbol e s uri = Some a /\ document_symbol e s' uri = Some b /\ Permutation k b /\ Forall2 symbol_renamed a k) /\
  (exists a b, folding_range s uri = Some a /\ folding_range s' uri = Some b /\ Forall2 (fold_alike T src src') a b) /\
  (exists a b k, code_lens e s uri = Some a /\ code_lens e s' uri = Some b /\ Permutation k b /\ Forall2 lens_renamed a k) /\
  (exists out out', semantic_tokens_full s uri = Val (Some out) /\ semantic_tokens_full s' uri = Val (Some out') /\ Forall2 (token_kept T src src') (decode out) (decode out')).
End Named.
(** Asked for the graphs of [n] and [n']: the same graph with other names of labels, or nothing. *)
Definition graph_renamed (T : stoken -> stoken -> Prop) (s s' : server) (uri : text) (ss : list statement) (n n' : text) : Prop :=
  match graph_for s uri n, graph_for s' uri n' with
  | Reply g, Reply g' => sg_title g = str "CFG for " ++ n /\ sg_title g' = str "CFG for " ++ n' /\
      exists id fd f items, first_named ss n id /\ nth_error (function_defs ss) id = Some fd /\
        (forall x x', In x (label_names (fb_blocks (snd fd))) -> T (TIdent (fst x), snd x) (TIdent (fst x'), snd x') -> f (fst x) = fst x') /\
        dot_read (sg_dot g) = Some items /\ dot_read (sg_dot g') = Some (map (with_labels f) items)
  | RpcError x, RpcError x' => x = str "function `" ++ n ++ str "` not found" /\ x' = str "function `" ++ n' ++ str "` not found"
  | _, _ => False
  end.
