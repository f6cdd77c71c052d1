(** Control flow graphs, read off the blocks of a function. *)
From Verif Require Import Text Rope Chumsky Tokenizer Parser Index SemTok Diag Rename Cfg Backtrace Server SpecText SpecParse SpecIndex SpecDiag SpecBacktrace SpecNumbers.

(** A branch: the mnemonic is [switch] or ends with [br]. *)
Definition branch (i : instruction) : Prop :=
  (exists p, mnemonic i = p ++ str "br") \/ mnemonic i = str "switch".
(** The labelled block with label [l] branches to [b]. *)
Definition block_branches (blocks : list basic_block) (l : spanned) (b : text) : Prop :=
  exists bb i r, In bb blocks /\ bb_label bb = Some l /\ In i (bb_instrs bb) /\ branch i /\ In r (i_refs i) /\ fst r = b.
Definition cfg_edge (blocks : list basic_block) (a b : text) : Prop :=
  exists l, fst l = a /\ block_branches blocks l b.

(** ** The graph as a text *)
Definition quote (x : text) : text := DQUOTE :: x ++ [DQUOTE].
Definition dot_edge (a b : text) : text := str "  " ++ quote a ++ str " -> " ++ quote b.
(** Names that need no escapes. *)
Definition plain_name (x : text) : Prop := ~ In DQUOTE x /\ ~ In LF x.
(** [l] is a line of [t]; every line ends with a line feed. *)
Definition is_line (t l : text) : Prop :=
  ~ In LF l /\ exists pre post, t = pre ++ l ++ [LF] ++ post /\ (pre = [] \/ exists p, pre = p ++ [LF]).
Definition dot_frame (name : text) : list text :=
  [str "// Control flow graph for " ++ name;
   str "// In VSCode, I recommend installing the `Graphviz Interactive Preview` extension to view this file.";
   str "strict digraph D {"; str "  node [shape=box];"; str "}"].

(** ** Opened documents *)
(** The server holds the analysis of [src] for [uri]. *)
Definition opened (e : env) (s : server) (uri src : text) (d : doc) : Prop :=
  get_doc s uri = Some d /\ exists diags, analyze e uri src = Val (d, diags).

(** ** Hints *)
Definition incoming_label (src uri : text) (sep : text) (x : spanned) : list label_part :=
  [mkPart sep None None; mkPart (fst x) (Some (mkLocn uri (lsp_range src (snd x)))) None].
Definition incoming_text (src uri : text) (l : list spanned) : list label_part :=
  match l with
  | [] => []
  | x :: r => incoming_label src uri (str "incoming: ") x ++ flat_map (incoming_label src uri (str ", ")) r
  end.
(** [l] lists the labels of the blocks that branch to [b], each once. *)
Definition lists_incoming (blocks : list basic_block) (b : text) (l : list spanned) : Prop :=
  NoDup l /\ forall x, In x l <-> block_branches blocks x b.
(** The hint of a block: after the colon of its label, if any block branches to it. *)
Definition block_hint (src uri : text) (blocks : list basic_block) (bb : basic_block) (hs : list inlay_hint) : Prop :=
  match bb_label bb with
  | None => hs = []
  | Some l => exists ls, lists_incoming blocks (fst l) ls /\
      ((ls = [] /\ hs = []) \/
       (ls <> [] /\ exists colon, bb_label_comma bb = Some colon /\
          hs = [mkHint (lsp_position src (sp_end colon)) (incoming_text src uri ls)]))
  end.
(** The hint at the end of a function: its name, linked to the definition. *)
Definition function_end_hint (src uri : text) (f : func_sig * func_body) : inlay_hint :=
  mkHint (lsp_position src (sp_end (fb_close (snd f))))
    [mkPart (fst (fs_name (fst f))) (Some (mkLocn uri (lsp_range src (snd (fs_name (fst f)))))) None].

(** The hint of an instruction whose debug annotation is a backtrace: the
    relevant frame, shortened, and the full backtrace. *)
Definition shortened (x y : text) : Prop :=
  (byte_len x < 48 /\ y = x) \/
  (48 <= byte_len x /\ exists p q, x = p ++ q /\ byte_len p = 48 /\ y = p ++ [ELLIPSIS]).
(** Markdown of a frame: its symbol as code, then the place, linked if the file was found. *)
Definition sanitized (u : uclass) (x y : text) : Prop :=
  Forall2 (fun c d => (md_allowed u c /\ d = c) \/ (~ md_allowed u c /\ d = 65533%N)) x y.
Definition frame_md (u : uclass) (display : url -> text) (f : frame) (t : text) : Prop :=
  exists code, sanitized u (f_symbol f) code /\
    match f_filepath f with
    | None => t = str "`" ++ code ++ str "`"
    | Some fp => exists short n, basename_of fp short /\ canonical_decimal (f_line f) n /\
        t = str "`" ++ code ++ str "` @ " ++
            match f_resolved f with
            | Some r => str "[" ++ short ++ str ":" ++ n ++ str "](" ++ display r ++ str "#" ++ n ++ str ")"
            | None => short ++ str ":" ++ n
            end
    end.
Definition no_break (x : text) : Prop := ~ In LF x.
(** Markdown of a backtrace: a list with one entry per frame. *)
Definition backtrace_md (u : uclass) (display : url -> text) (frames : list frame) (t : text) : Prop :=
  exists ls, Forall2 (frame_md u display) frames ls /\ t = glued LF (map (app (str "* ")) ls).
Definition relevant_parts (u : uclass) (display : url -> text) (frames : list frame) (parts : list label_part) : Prop :=
  exists o, relevant_frame frames o /\
    match o with
    | None => parts = []
    | Some n => exists f name tip, nth_error frames n = Some f /\ shortened (f_symbol f) name /\
        frame_md u display f tip /\ parts = [mkPart name None (Some tip); mkPart (str ", ") None None]
    end.
Definition backtrace_frames (fs : filesystem) (rs : list url) (j : json) (frames : list frame) : Prop :=
  exists fields l, j = JObj fields /\ alookup (str "backtrace") fields = Some (JArr l) /\ Forall2 (frame_reads fs rs) l frames.
(** The backtrace an instruction refers to. *)
Definition instr_json (e : env) (src : text) (ss : list statement) (i : instruction) : option json :=
  match i_dbg i with
  | None => None
  | Some r => match ann_value src ss (fst r) with None => None | Some v => e_json_parse e v end
  end.
Definition instr_hint (e : env) (rs : list url) (src : text) (ss : list statement) (i : instruction) (hs : list inlay_hint) : Prop :=
  match instr_json e src ss i with
  | None => hs = []
  | Some j =>
      ((forall frames, ~ backtrace_frames (e_fs e) rs j frames) /\ hs = []) \/
      (exists r frames parts tip, i_dbg i = Some r /\ backtrace_frames (e_fs e) rs j frames /\ relevant_parts (e_u e) (e_url_display e) frames parts /\
         backtrace_md (e_u e) (e_url_display e) frames tip /\
         hs = [mkHint (lsp_position src (sp_end (snd r))) (parts ++ [mkPart (str "Full backtrace") None (Some tip)])])
  end.

(** The first part of an incoming-branch hint is a mere text; other hints start
    with a link or a tooltip. *)
Definition other_hint (h : inlay_hint) : Prop :=
  exists p r, ih_parts h = p :: r /\ (lp_location p <> None \/ lp_tooltip p <> None).
(** The blocks of all functions, each with the blocks of its function. *)
Definition blocks_in_context (ss : list statement) : list (list basic_block * basic_block) :=
  flat_map (fun f => map (pair (fb_blocks (snd f))) (fb_blocks (snd f))) (function_defs ss).

(** The function definition named [name] at [sp]. *)
Definition defines_function (ss : list statement) (name : text) (sp : span) (body : func_body) : Prop :=
  exists sig, In (sig, body) (function_defs ss) /\ fs_name sig = (name, sp).
(** No other definition has the name of [f]. *)
Definition same_name (f g : func_sig * func_body) : bool := text_eqb (fst (fs_name (fst f))) (fst (fs_name (fst g))).
Definition defined_once (ss : list statement) (f : func_sig * func_body) : bool :=
  length (filter (same_name f) (function_defs ss)) =? 1.
(** The lens of a function. *)
Definition function_lens (src uri : text) (f : func_sig * func_body) : lens :=
  mkLens (lsp_range src (snd (fs_name (fst f)))) (str "visualize-cfg") [JStr uri; JStr (fst (fs_name (fst f)))].
(** The graph of a function body. *)
Definition graph_of (name : text) (blocks : list basic_block) (t : text) : Prop :=
  forall x, is_line t x <-> In x (dot_frame name) \/ exists a b, cfg_edge blocks a b /\ x = dot_edge a b.
