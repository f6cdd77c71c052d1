(** src/main.rs: the document store and the LSP request handlers.

    Every handler is a function of the server state.  Messages are decoded
    already (lsp_types structs); [Url] values are represented by their
    [to_string] text, which is also the key of the document map. *)
From Verif Require Import Text Rope Chumsky Tokenizer Parser Numbers Index SemTok Diag Rename Cfg Backtrace.

(** Everything outside the repository that a handler consults. *)
Record env := mkEnv {
  e_u : uclass;                        (* Unicode tables *)
  e_pf : profile;                      (* overflow behaviour of the build *)
  e_ord : map_order;                   (* HashMap iteration order *)
  e_fs : filesystem;                   (* Url::to_file_path, Path::exists *)
  e_url_display : url -> text;         (* Display for Url *)
  e_url_parse : text -> option text;   (* Deserialize for Url, then to_string *)
  e_json_parse : text -> option json;  (* serde_json::from_str *)
  e_xord : set_order;                  (* HashSet iteration order (syntax error messages) *)
}.

(** A request handler returns a value, a JSON-RPC error, or panics. *)
Inductive reply (A : Type) := Reply (a : A) | RpcError (msg : text).
Arguments Reply {A} a. Arguments RpcError {A} msg.

(** src/main.rs:28-34 *)
Record doc := mkDoc {
  doc_rope : rope;
  doc_semtoks : list hir_sem_token;
  doc_stmts : list statement;
  doc_index : hir_index;
}.

(** src/main.rs:36-42 *)
Record server := mkServer {
  roots : list url;
  lazy_resolve : bool;
  docs : amap doc;
}.

(** src/main.rs:706-720 (Backend with default fields) *)
Definition server_init : server := mkServer [] false [].

(** lsp_types::CodeActionClientCapabilities: [resolve_support.properties] and
    [data_support] *)
Record action_caps := mkCaps { resolve_properties : option (list text); data_support : option bool }.

(** src/main.rs:66-78; the argument is
    [params.capabilities.text_document.and_then(|c| c.code_action)] *)
Definition lazy_supported (c : option action_caps) : bool :=
  match c with
  | None => false
  | Some c =>
      match resolve_properties c with Some ps => existsb (text_eqb (str "edit")) ps | None => false end
      && match data_support c with Some b => b | None => false end
  end.

(** src/main.rs:84-153: the announced capabilities with contents (the others
    are the constant [true]) *)
Record announced := mkAnn {
  an_legend : list sem_type;     (* semantic_tokens_provider.legend.token_types *)
  an_resolve : bool;             (* code_action_provider.resolve_provider *)
  an_commands : list text;       (* execute_command_provider.commands *)
}.

(** src/main.rs:57-154 *)
Definition initialize (s : server) (workspace_folders : option (list url)) (root_uri : option url)
    (caps : option action_caps) : server * announced :=
  (mkServer (roots s ++ match workspace_folders with
                        | Some fs => fs
                        | None => match root_uri with Some r => [r] | None => [] end
                        end)
            (lazy_supported caps) (docs s),
   mkAnn LEGEND_TYPE (lazy_supported caps) [str "visualize-cfg"]).

(** src/main.rs:735-751: analysis of a text.  [ropey::Rope::from_str] and
    [to_string] are the identity on the text. *)
Definition analyze (e : env) (uri src : text) : res (doc * list diagnostic) :=
  rbind (parse_from_str (e_u e) src) (fun pr =>
  rbind (semantic_tokens_from_tokens (pr_tokens pr)) (fun sem =>
  rbind (create_index src (pr_tokens pr) (pr_stmts pr)) (fun ix =>
  Val (mkDoc src sem (pr_stmts pr) ix,
       diagnostics_from_parser (e_xord e) src (pr_errors pr)
       ++ diagnostics_from_statements src (pr_stmts pr)
       ++ diagnostics_from_index (e_ord e) src uri ix)))).

(** A [textDocument/publishDiagnostics] notification *)
Record publish := mkPub { pub_uri : text; pub_version : Z; pub_diags : list diagnostic }.

(** src/main.rs:735-765 *)
Definition on_change (e : env) (s : server) (uri src : text) (version : Z) : res (server * publish) :=
  rbind (analyze e uri src) (fun '(d, diags) =>
  Val (mkServer (roots s) (lazy_resolve s) (ainsert uri d (docs s)), mkPub uri version diags)).

(** src/main.rs:163-170 *)
Definition did_open := on_change.

(** src/main.rs:172-179: [content_changes[0]] *)
Definition did_change (e : env) (s : server) (uri : text) (changes : list text) (version : Z)
  : res (server * publish) :=
  match changes with
  | [] => Panic
  | c :: _ => on_change e s uri c version
  end.

Definition get_doc (s : server) (uri : text) : option doc := alookup uri (docs s).

(** lookup of the symbol under the cursor, common to several handlers *)
Definition symbol_at (d : doc) (pos : position_) : option occurrence :=
  obind (lsp_pos_to_offset (doc_rope d) pos) (find_symbol_at_position (doc_index d)).

(** the use-def list of an occurrence; the outer [res] is the panic of
    [function_bodies[id]] / [fb.unwrap()] *)
Definition use_defs_of (d : doc) (o : occurrence) : res (option use_def_list) :=
  rbind (body_of_id (doc_index d) (o_body o)) (fun b =>
  rbind (get_by_symbol_kind (doc_index d) (o_kind o) b) (fun m => Val (alookup (o_name o) m))).

Definition ud_kind_is_def (k : use_def_kind) : bool := match k with Def => true | _ => false end.

(** src/main.rs:797-812: the locations of external definitions; [d.line - 1]
    is u32 arithmetic *)
Fixpoint external_locations (e : env) (rs : list url) (l : list external_def)
  : res (list location) :=
  match l with
  | [] => Val []
  | d :: r =>
      rbind (resolve_relative_path (e_fs e) rs (ext_path d)) (fun o =>
      match o with
      | None => external_locations e rs r
      | Some uri =>
          rbind (u32_pred (e_pf e) (ext_line d)) (fun line =>
          let p := mkPos (N.to_nat line) 0 in
          rbind (external_locations e rs r) (fun rest =>
          Val (mkLocn (e_url_display e uri) (mkRange p p) :: rest)))
      end)
  end.

(** src/main.rs:767-816 *)
Definition get_use_def_ranges (e : env) (s : server) (uri : text) (pos : position_) (k : use_def_kind)
  : res (option (range_ * list location)) :=
  match obind (get_doc s uri) (fun d => obind (symbol_at d pos) (fun o => Some (d, o))) with
  | None => Val None
  | Some (d, o) =>
      rbind (use_defs_of d o) (fun ud =>
      match ud with
      | None => Val None
      | Some ud =>
          let internal := filter_map (fun sp => obind (range_to_lsp (doc_rope d) sp)
                                                      (fun r => Some (mkLocn uri r)))
                                     (get_use_def_kind ud k) in
          rbind (if ud_kind_is_def k then external_locations e (roots s) (external_defs ud)
                 else Val []) (fun ext =>
          Val (obind (range_to_lsp (doc_rope d) (o_span o)) (fun r => Some (r, internal ++ ext))))
      end)
  end.

(** src/main.rs:181-200, 202-221: LocationLinks carry the origin range and the
    target location *)
Definition goto_definition (e : env) (s : server) (uri : text) (pos : position_) :=
  get_use_def_ranges e s uri pos Def.
Definition goto_declaration (e : env) (s : server) (uri : text) (pos : position_) :=
  get_use_def_ranges e s uri pos Decl.
(** src/main.rs:223-228 *)
Definition references (e : env) (s : server) (uri : text) (pos : position_) : res (option (list location)) :=
  rmap (option_map snd) (get_use_def_ranges e s uri pos Use).

(** src/main.rs:230-247 *)
Definition semantic_tokens_full (s : server) (uri : text) : res (option (list lsp_token)) :=
  match get_doc s uri with
  | None => Val None
  | Some d => rmap Some (convert_to_lsp_tokens (doc_rope d) (doc_semtoks d))
  end.

(** lsp_types::DocumentSymbol *)
Inductive sym_kind := SKConstant | SKFunction.
Record doc_symbol := mkSym {
  ds_name : text; ds_kind : sym_kind; ds_range : range_; ds_selection : range_ }.

(** src/main.rs:249-307 *)
Definition document_symbol (e : env) (s : server) (uri : text) : option (list doc_symbol) :=
  obind (get_doc s uri) (fun d =>
  Some (flat_map (fun f => filter_map (fun sp =>
                     obind (range_to_lsp (doc_rope d) sp) (fun r =>
                     Some (mkSym (fst f) SKConstant r r))) (defs (snd f)))
                 (e_ord e (global_vars (doc_index d)))
        ++ filter_map (fun f =>
             obind (range_to_lsp (doc_rope d) (complete_range f)) (fun r =>
             obind (range_to_lsp (doc_rope d) (snd (fb_name f))) (fun r' =>
             Some (mkSym (fst (fb_name f)) SKFunction r r'))))
             (function_bodies (doc_index d)))).

(** src/main.rs:309-321 *)
Definition prepare_rename (s : server) (uri : text) (pos : position_) : option range_ :=
  obind (get_doc s uri) (fun d =>
  obind (symbol_at d pos) (fun o => range_to_lsp (doc_rope d) (o_span o))).

Definition symbol_kind_eqb (a b : symbol_kind) : bool :=
  match a, b with
  | KGlobalVar, KGlobalVar | KFunction, KFunction | KDbgAnnotation, KDbgAnnotation
  | KLabel, KLabel | KLocalVar, KLocalVar => true
  | _, _ => false
  end.

(** src/main.rs:364-370 *)
Definition kind_prefix (k : symbol_kind) : text :=
  match k with
  | KGlobalVar | KFunction => str "@"
  | KDbgAnnotation => str "!"
  | KLabel => []
  | KLocalVar => str "%"
  end.

(** src/main.rs:371-373 *)
Definition strip_kind_prefix (k : symbol_kind) (name : text) : text :=
  match strip_prefix (kind_prefix k) name with Some r => r | None => name end.

(** src/main.rs:374-388: the checked and normalised new name;
    [chars().next().unwrap()] panics on the empty name *)
Definition check_new_name (u : uclass) (k : symbol_kind) (name0 : text) : res (reply text) :=
  let name := strip_kind_prefix k name0 in
  if existsb (fun c => negb (is_alphanumeric u c) && negb (c =? ch "_")%N && negb (c =? ch ":")%N) name
  then Val (RpcError (str "Name contains invalid character"))
  else match name with
       | [] => Panic
       | c :: _ =>
           if is_numeric u c && negb (symbol_kind_eqb k KDbgAnnotation)
           then Val (RpcError (str "Name must not start with a digit"))
           else Val (Reply (kind_prefix k ++ name))
       end.

(** src/main.rs:339-361 *)
Definition relative_rename (e : env) (d : doc) (o : occurrence) (sign_char : char) (rest : text)
  : res (reply (list text_edit)) :=
  match parse_i64 rest with
  | None => Val (RpcError (str "Invalid relative rename `" ++ sign_char :: rest ++ str "`"))
  | Some nr =>
      rbind (i64_mul (e_pf e) (if (sign_char =? ch "-")%N then (-1)%Z else 1%Z) nr) (fun shift =>
      rbind (extract_number_from_identifier (e_u e) (o_name o)) (fun x =>
      match x with
      | None => Val (RpcError (str "Relative rename can only be applied to a numbered identifier"))
      | Some (_, start) =>
          rmap Reply (get_shift_edits (e_u e) (e_pf e) (e_ord e) (doc_rope d) (doc_index d)
                                      (o_kind o) (o_body o) start shift)
      end))
  end.

(** src/main.rs:362-396; [.get(&symbol.name).unwrap()] *)
Definition absolute_rename (e : env) (d : doc) (o : occurrence) (new_name : text)
  : res (reply (list text_edit)) :=
  rbind (check_new_name (e_u e) (o_kind o) new_name) (fun r =>
  match r with
  | RpcError m => Val (RpcError m)
  | Reply name =>
      rbind (use_defs_of d o) (fun ud =>
      match ud with
      | None => Panic
      | Some ud => Val (Reply (get_rename_edits (doc_rope d) ud name))
      end)
  end).

(** src/main.rs:323-402: the edits of the WorkspaceEdit (all for the same uri) *)
Definition rename (e : env) (s : server) (uri : text) (pos : position_) (new_name : text)
  : res (reply (list text_edit)) :=
  match get_doc s uri with
  | None => Val (RpcError (str "Document not found"))
  | Some d =>
      match symbol_at d pos with
      | None => Val (RpcError (str "No symbol at the given position"))
      | Some o =>
          match new_name with
          | c :: rest =>
              if (c =? ch "+")%N || (c =? ch "-")%N then relative_rename e d o c rest
              else absolute_rename e d o new_name
          | [] => absolute_rename e d o new_name
          end
      end
  end.

(** src/main.rs:44-53 *)
Record action_data := mkAD {
  ad_uri : text; ad_kind : symbol_kind; ad_body : option nat; ad_nr : Z }.

(** serde derive for SymbolKind (unit variants as strings) *)
Definition kind_json (k : symbol_kind) : text :=
  match k with
  | KGlobalVar => str "GlobalVar" | KFunction => str "Function"
  | KDbgAnnotation => str "DbgAnnotation" | KLabel => str "Label" | KLocalVar => str "LocalVar"
  end.
Definition kind_of_json (x : text) : option symbol_kind :=
  find (fun k => text_eqb (kind_json k) x)
       [KGlobalVar; KFunction; KDbgAnnotation; KLabel; KLocalVar].

(** serde_json::to_value: externally tagged, variant name in camelCase, field
    names unchanged *)
Definition action_data_to_json (d : action_data) : json :=
  JObj [(str "shiftNumbering",
         JObj [(str "uri", JStr (ad_uri d));
               (str "symbol_kind", JStr (kind_json (ad_kind d)));
               (str "func_body_id", match ad_body d with
                                    | None => JNull | Some i => JInt (Z.of_nat i) end);
               (str "renamed_nr", JInt (ad_nr d))])].

(** serde_json::from_value.  Simplified: an object with exactly one key
    (externally tagged enum), missing or null [func_body_id] is None, other
    fields are required, unknown fields ignored. *)
Definition usize_of_json (j : json) : option nat :=
  match j with JInt z => if (0 <=? z)%Z then Some (Z.to_nat z) else None | _ => None end.
Definition i64_of_json (j : json) : option Z :=
  match j with JInt z => if in_i64 z then Some z else None | _ => None end.
Definition body_of_json (j : json) : option (option nat) :=
  match json_field (str "func_body_id") j with
  | None | Some JNull => Some None
  | Some j' => option_map Some (usize_of_json j')
  end.
Definition action_data_of_json (e : env) (j : json) : option action_data :=
  match j with
  | JObj [(tag, JObj _ as v)] =>
      if text_eqb tag (str "shiftNumbering") then
        match obind (obind (json_field (str "uri") v) json_as_str) (e_url_parse e),
              obind (obind (json_field (str "symbol_kind") v) json_as_str) kind_of_json,
              body_of_json v,
              obind (json_field (str "renamed_nr") v) i64_of_json with
        | Some uri, Some k, Some b, Some nr => Some (mkAD uri k b nr)
        | _, _, _, _ => None
        end
      else None
  | _ => None
  end.

(** lsp_types::CodeAction (title, data, edit as uri and edits) *)
Record code_action_ := mkCA {
  ca_title : text;
  ca_data : option json;
  ca_edit : option (text * list text_edit);
}.

(** src/main.rs:818-853 *)
Definition do_code_action_resolve (e : env) (s : server) (a : code_action_)
  : res (reply code_action_) :=
  match ca_data a with
  | None => Val (RpcError (str "Missing `data` in code action"))
  | Some j =>
      match action_data_of_json e j with
      | None => Val (RpcError (str "Invalid `data` for code action: "))
      | Some ad =>
          match get_doc s (ad_uri ad) with
          | None => Val (RpcError (str "Document not found"))
          | Some d =>
              rbind (get_shift_edits (e_u e) (e_pf e) (e_ord e) (doc_rope d) (doc_index d)
                                     (ad_kind ad) (ad_body ad) (ad_nr ad) 1) (fun edits =>
              Val (Reply (mkCA (ca_title a) (ca_data a) (Some (ad_uri ad, edits)))))
          end
      end
  end.

(** src/main.rs:466-468 *)
Definition code_action_resolve := do_code_action_resolve.

(** src/main.rs:425-432 *)
Definition action_title (k : symbol_kind) : text :=
  match k with
  | KGlobalVar => str "Shift global variable numbering"
  | KFunction => str "Shift function numbering"
  | KDbgAnnotation => str "Shift debug numbering"
  | KLabel => str "Shift basic block numbering"
  | KLocalVar => str "Shift variable numbering"
  end.

(** src/main.rs:418-447 *)
Definition unresolved_actions (e : env) (uri : text) (d : doc) (pos : position_)
  : res (list code_action_) :=
  match symbol_at d pos with
  | None => Val []
  | Some o =>
      rbind (extract_number_from_identifier (e_u e) (o_name o)) (fun x =>
      match x with
      | None => Val []
      | Some (_, nr) =>
          Val [mkCA (action_title (o_kind o))
                    (Some (action_data_to_json (mkAD uri (o_kind o) (o_body o) nr))) None]
      end)
  end.

Definition pos_eqb (a b : position_) : bool :=
  (p_line a =? p_line b) && (p_char a =? p_char b).

(** [.ok().unwrap()] *)
Definition unwrap_reply {A} (r : res (reply A)) : res A :=
  rbind r (fun x => match x with Reply a => Val a | RpcError _ => Panic end).

(** src/main.rs:404-464 *)
Definition code_action (e : env) (s : server) (uri : text) (rng : range_)
  : res (reply (option (list code_action_))) :=
  match get_doc s uri with
  | None => Val (RpcError (str "Document not found"))
  | Some d =>
      if negb (pos_eqb (r_start rng) (r_end rng)) then Val (Reply None)
      else
        rbind (unresolved_actions e uri d (r_start rng)) (fun actions =>
        rbind (if lazy_resolve s then Val actions
               else rmapM (fun a => unwrap_reply (do_code_action_resolve e s a)) actions)
              (fun actions => Val (Reply (Some actions))))
  end.

(** lsp_types::FoldingRange *)
Record folding := mkFold { fo_start : nat; fo_end : nat; fo_text : text }.

(** src/main.rs:470-512 *)
Definition folding_range (s : server) (uri : text) : option (list folding) :=
  obind (get_doc s uri) (fun d =>
  Some (filter_map (fun f =>
          obind (range_to_lsp (doc_rope d) (complete_range f)) (fun r =>
          Some (mkFold (p_line (r_start r)) (p_line (r_end r))
                       (render_N (N.of_nat (length (labels f))) ++ str " basic blocks"))))
          (function_bodies (doc_index d))
        ++ filter_map (fun bb =>
             obind (range_to_lsp (doc_rope d) (bb_span bb)) (fun r =>
             Some (mkFold (p_line (r_start r)) (p_line (r_end r))
                          (render_N (N.of_nat (length (bb_instrs bb))) ++ str " instructions"))))
             (flat_map basic_blocks (function_bodies (doc_index d))))).

(** src/main.rs:533-553: the parts for one basic block *)
Fixpoint incoming_parts (t : rope) (uri : text) (idx : nat) (l : list spanned) : list label_part :=
  match l with
  | [] => []
  | x :: r =>
      match range_to_lsp t (snd x) with
      | None => []
      | Some rng => [mkPart (if idx =? 0 then str "incoming: " else str ", ") None None;
                     mkPart (fst x) (Some (mkLocn uri rng)) None]
      end ++ incoming_parts t uri (S idx) r
  end.

(** src/main.rs:521-569 *)
Definition incoming_hint (t : rope) (uri : text) (f : function_body) (bb : basic_block)
  : option inlay_hint :=
  obind (bb_label bb) (fun l =>
  obind (alookup (fst l) (incoming f)) (fun refs =>
  obind (bb_label_comma bb) (fun comma =>
  obind (offset_to_lsp_pos t (sp_end comma)) (fun pos =>
  Some (mkHint pos (incoming_parts t uri 0 refs)))))).
Definition incoming_hints (d : doc) (uri : text) : list inlay_hint :=
  flat_map (fun f => filter_map (incoming_hint (doc_rope d) uri f) (basic_blocks f))
           (function_bodies (doc_index d)).

(** src/main.rs:572-597, one instruction.  The position is computed after the
    frames are parsed, before the hint is built. *)
Definition backtrace_hint (e : env) (s : server) (d : doc) (i : instruction) : res (list inlay_hint) :=
  match obind (i_dbg i) (fun r =>
        obind (alookup (fst r) (dgb_annotation_values (doc_index d))) (fun txt =>
        obind (e_json_parse e txt) (fun j => Some (r, j)))) with
  | None => Val []
  | Some (r, j) =>
      rbind (parse_backtrace_from_json (e_fs e) (roots s) j) (fun o =>
      match o with
      | None => Val []
      | Some frames =>
          match offset_to_lsp_pos (doc_rope d) (sp_end (snd r)) with
          | None => Val []
          | Some pos => rmap (fun h => [h])
                             (inlay_hint_for_backtrace (e_u e) (e_url_display e) pos frames)
          end
      end)
  end.

(** src/main.rs:599-617 *)
Definition end_hint (d : doc) (uri : text) (f : function_body) : option inlay_hint :=
  obind (offset_to_lsp_pos (doc_rope d) (sp_end (complete_range f))) (fun pos =>
  obind (range_to_lsp (doc_rope d) (snd (fb_name f))) (fun r =>
  Some (mkHint pos [mkPart (fst (fb_name f)) (Some (mkLocn uri r)) None]))).

(** src/main.rs:514-622 *)
Definition inlay_hint_handler (e : env) (s : server) (uri : text) : res (option (list inlay_hint)) :=
  match get_doc s uri with
  | None => Val None
  | Some d =>
      rbind (rflat_map (backtrace_hint e s d) (all_instructions (doc_stmts d))) (fun bts =>
      Val (Some (incoming_hints d uri ++ bts
                 ++ filter_map (end_hint d uri) (function_bodies (doc_index d)))))
  end.

(** lsp_types::CodeLens with its command arguments *)
Record lens := mkLens { cl_range : range_; cl_command : text; cl_args : list json }.

(** src/main.rs:624-659 *)
Definition code_lens (e : env) (s : server) (uri : text) : option (list lens) :=
  obind (get_doc s uri) (fun d =>
  Some (filter_map (fun f =>
          match defs (snd f) with
          | [sp] => obind (range_to_lsp (doc_rope d) sp) (fun r =>
                    Some (mkLens r (str "visualize-cfg") [JStr uri; JStr (fst f)]))
          | _ => None
          end) (e_ord e (functions (doc_index d))))).

(** src/main.rs:706-711 *)
Record show_graph := mkShow { sg_title : text; sg_dot : text }.

(** src/main.rs:661-704 up to the request sent to the client *)
Definition execute_command (s : server) (command : text) (args : list json) : reply show_graph :=
  match args with
  | [JStr doc_uri; JStr func_name] =>
      if text_eqb command (str "visualize-cfg") then
        match get_doc s doc_uri with
        | None => RpcError (str "document `" ++ doc_uri ++ str "` not found")
        | Some d =>
            match find (fun b => text_eqb (fst (fb_name b)) func_name) (function_bodies (doc_index d)) with
            | None => RpcError (str "function `" ++ func_name ++ str "` not found")
            | Some b => Reply (mkShow (str "CFG for " ++ func_name) (create_cfg_dot_visualization b))
            end
        end
      else RpcError (str "Invalid command `" ++ command ++ str "`")
  | _ => RpcError (str "Invalid command `" ++ command ++ str "`")
  end.

(** ** Schedules

    tower-lsp polls all handlers from the one task that [main] awaits; a
    handler runs without interruption until its next await point.
    [on_change] awaits only when it publishes (src/main.rs:762-764);
    [execute_command] awaits the client's answer (src/main.rs:686-694) while it
    still holds the read guard of the document map obtained at lines 664-672
    (the temporary of [let index = &...] lives to the end of the block).
    DashMap::insert blocks the thread while a read guard of the same shard is
    held; since all handlers share the task, a blocked insert never resumes.
    A panic unwinds the task and ends the process.  All other handlers are
    atomic and leave the state unchanged. *)
Inductive event :=
| EChange (uri src : text) (version : Z)   (* didOpen/didChange: analyse and store *)
| EPublish (n : nat)                       (* the n-th waiting publish goes out *)
| EVisualize (uri func : text)             (* visualize-cfg up to the await *)
| EAnswer (n : nat).                       (* the client answers the n-th showDot request *)

Inductive health := Alive | Blocked | Crashed.

Record world := mkWorld {
  w_server : server;
  w_waiting : list publish;      (* on_change handlers suspended at their publish *)
  w_sent : list publish;         (* publishes delivered, oldest first *)
  w_guards : list text;          (* keys whose read guard is held *)
  w_health : health;
}.
Definition world_init (s : server) : world := mkWorld s [] [] [] Alive.

(** Do two keys live in the same DashMap shard? *)
Definition shards := text -> text -> bool.

Fixpoint remove_nth {A} (n : nat) (l : list A) : list A :=
  match l, n with
  | [], _ => []
  | _ :: r, 0 => r
  | x :: r, S k => x :: remove_nth k r
  end.

(** One step of a live server.  [None]: the event cannot happen. *)
Definition wstep (e : env) (same_shard : shards) (w : world) (ev : event) : option world :=
  match w_health w with
  | Alive =>
      match ev with
      | EChange uri src v =>
          match on_change e (w_server w) uri src v with
          | Panic => Some (mkWorld (w_server w) (w_waiting w) (w_sent w) (w_guards w) Crashed)
          | Val (s', p) =>
              if existsb (same_shard uri) (w_guards w)
              then Some (mkWorld (w_server w) (w_waiting w) (w_sent w) (w_guards w) Blocked)
              else Some (mkWorld s' (w_waiting w ++ [p]) (w_sent w) (w_guards w) Alive)
          end
      | EPublish n =>
          match nth_error (w_waiting w) n with
          | Some p => Some (mkWorld (w_server w) (remove_nth n (w_waiting w)) (w_sent w ++ [p])
                                    (w_guards w) Alive)
          | None => None
          end
      | EVisualize uri func =>
          match execute_command (w_server w) (str "visualize-cfg") [JStr uri; JStr func] with
          | Reply _ => Some (mkWorld (w_server w) (w_waiting w) (w_sent w) (w_guards w ++ [uri]) Alive)
          | RpcError _ => Some w
          end
      | EAnswer n =>
          if n <? length (w_guards w)
          then Some (mkWorld (w_server w) (w_waiting w) (w_sent w) (remove_nth n (w_guards w)) Alive)
          else None
      end
  | _ => None
  end.

Fixpoint wrun (e : env) (same_shard : shards) (w : world) (evs : list event) : option world :=
  match evs with
  | [] => Some w
  | ev :: r => obind (wstep e same_shard w ev) (fun w' => wrun e same_shard w' r)
  end.
