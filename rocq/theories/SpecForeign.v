(** Documents with characters that are not ASCII: where the server shows things. *)
From Verif Require Import Text Rope Chumsky Tokenizer Parser Numbers Index SemTok Diag Rename Cfg Backtrace Server SpecText SpecBytes SpecLex SpecIndex SpecDiag SpecBacktrace SpecCfg SpecView.

(** No character outside the basic multilingual plane, no line ends unknown to LSP. *)
Definition bmp_document (src : text) : Prop := lsp_plain src = true /\ small src.

(** The number of characters whose UTF-8 encodings are complete within the first [b] bytes. *)
Definition fitting (src : text) (b : nat) : nat :=
  length (filter (fun n => length (utf8_text (firstn n src)) <=? b) (seq 1 (length src))).

(** The server takes the character offsets of a span for byte offsets. *)
Definition displaced (src : text) (sp : span) : span := mkSpan (fitting src (sp_start sp)) (fitting src (sp_end sp)).
Definition displaced_occ (src : text) (o : occurrence) : occurrence :=
  mkOcc (displaced src (o_span o)) (o_ud o) (o_kind o) (o_name o) (o_body o).
Definition displaced_error (src : text) (e : simple text) : simple text :=
  mkSimple (displaced src (e_span e)) (e_reason e) (e_expected e) (e_found e).
Definition displaced_instr (src : text) (i : instruction) : instruction :=
  mkInstr (i_target i) (fst (i_instr i), displaced src (snd (i_instr i))) (i_refs i) (i_dbg i) (i_span i).

(** Text that the span covers and in front of it is ASCII. *)
Definition in_ascii (src : text) (sp : span) : Prop := ascii_text (firstn (sp_end sp) src) = true.

(** The answer for offset [p] (compare [answers]): the right occurrences, displaced. *)
Definition shown_answers (e : env) (rs : list url) (uri src : text) (pr : parser_result) (p : nat) (ud : use_def_kind)
    (r : option (range_ * list location)) : Prop :=
  let l := recorded (pr_stmts pr) (pr_tokens pr) in
  match r with
  | None => forall o, In o l -> ~ covers (o_span o) p
  | Some (origin, locs) => exists o ls, In o l /\ covers (o_span o) p /\ origin = lsp_range src (displaced src (o_span o)) /\
      locs = map (fun sp => location_of src uri (displaced src sp)) (spans_of l ud (o_kind o) (o_body o) (o_name o)) ++ ls /\
      external_answer e rs (pr_stmts pr) ud o ls
  end.
(** All occurrences of the names at [p] are in front of the first character that is not ASCII. *)
Definition symbol_in_ascii (src : text) (l : list occurrence) (p : nat) : Prop :=
  forall o x, In o l -> covers (o_span o) p -> In x l -> same_symbol o x -> in_ascii src (o_span x).
(** Errors that lie within the bytes of the document. *)
Definition within_bytes (src : text) (e : simple text) : bool := sp_end (e_span e) <=? length (utf8_text src).
Definition displaced_pair (src : text) (x : occurrence * occurrence) : occurrence * occurrence :=
  (displaced_occ src (fst x), displaced_occ src (snd x)).

(** ** The other views *)
(** Where the server shows the offset [p]. *)
Definition shown_place (src : text) (p : nat) : position_ := lsp_position src (fitting src p).
Definition shown_name (src : text) (x : spanned) : spanned := (fst x, displaced src (snd x)).
(** A function as far as the outline and the lenses show it. *)
Definition shown_sig (src : text) (s : func_sig) : func_sig := mkSig (fs_modifiers s) (fs_ret s) (shown_name src (fs_name s)) (fs_args s).
Definition shown_def (src : text) (f : func_sig * func_body) : func_sig * func_body :=
  (shown_sig src (fst f), mkBody (fb_open (snd f)) (displaced src (fb_close (snd f))) (fb_blocks (snd f))).
Definition shown_function (src : text) (s : statement) : statement :=
  match s with
  | SFuncDef kw sig body => let f := shown_def src (sig, body) in SFuncDef (displaced src kw) (fst f) (snd f)
  | _ => s
  end.
(** Hints (compare [block_hint], [instr_hint]): the right texts, displaced. *)
Definition shown_block_hint (src uri : text) (blocks : list basic_block) (bb : basic_block) (hs : list inlay_hint) : Prop :=
  match bb_label bb with
  | None => hs = []
  | Some l => exists ls, lists_incoming blocks (fst l) ls /\
      ((ls = [] /\ hs = []) \/
       (ls <> [] /\ exists colon, bb_label_comma bb = Some colon /\
          hs = [mkHint (shown_place src (sp_end colon)) (incoming_text src uri (map (shown_name src) ls))]))
  end.
(** What an annotation is taken to be: the text at the displaced place. *)
Definition shown_value (src : text) (ss : list statement) (name : text) : option text :=
  fold_left (fun acc s =>
    match value_range s with
    | Some (n, a, b) => if text_eqb name n then Some (text_at src (displaced src (mkSpan a b))) else acc
    | None => acc
    end) ss None.
Definition shown_json (e : env) (src : text) (ss : list statement) (i : instruction) : option json :=
  match i_dbg i with
  | None => None
  | Some r => match shown_value src ss (fst r) with None => None | Some v => e_json_parse e v end
  end.
Definition shown_instr_hint (e : env) (rs : list url) (src : text) (ss : list statement) (i : instruction) (hs : list inlay_hint) : Prop :=
  match shown_json e src ss i with
  | None => hs = []
  | Some j =>
      ((forall frames, ~ backtrace_frames (e_fs e) rs j frames) /\ hs = []) \/
      (exists r frames parts tip, i_dbg i = Some r /\ backtrace_frames (e_fs e) rs j frames /\ relevant_parts (e_u e) (e_url_display e) frames parts /\
         backtrace_md (e_u e) (e_url_display e) frames tip /\
         hs = [mkHint (shown_place src (sp_end (snd r))) (parts ++ [mkPart (str "Full backtrace") None (Some tip)])])
  end.
