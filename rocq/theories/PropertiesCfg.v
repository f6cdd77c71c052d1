(** Property theorems C33-C35, C51, C52 and C54: control flow graphs, hints, lenses. *)
From Verif Require Import Text Rope Chumsky Tokenizer Parser Numbers Index SemTok Diag Rename Cfg Backtrace Server SpecText SpecParse SpecIndex SpecDiag SpecBacktrace SpecCfg
  PIndexDoc PCfg PHints PView ExamplesIndex ExamplesCfg.

(** C33: the lines of the graph are the frame and the branch edges *)
Theorem C33_graph_lines : forall u src pr ix fb, indexed u src pr ix -> In fb (function_bodies ix) ->
  graph_of (fst (fb_name fb)) (basic_blocks fb) (create_cfg_dot_visualization fb).
Proof. exact dot_line_iff. Qed.
Print Assumptions C33_graph_lines.
Theorem C33_edges : forall u src pr ix fb, indexed u src pr ix -> In fb (function_bodies ix) ->
  forall a b, plain_name a -> plain_name b ->
  (is_line (create_cfg_dot_visualization fb) (dot_edge a b) <-> cfg_edge (basic_blocks fb) a b).
Proof. exact dot_edge_iff. Qed.
Print Assumptions C33_edges.
Example C33_ex : indexed u0 src5 (pr_of src5) (ix_of src5) /\ In fb5 (function_bodies (ix_of src5)) /\
  create_cfg_dot_visualization fb5 = concat (map (fun l => l ++ [LF])
    (firstn 4 (dot_frame (str "@g")) ++
     [dot_edge (str "a") (str "b"); dot_edge (str "b") (str "a"); dot_edge (str "b") (str "b")] ++ [str "}"])).
Proof. split; [split; vm_compute; reflexivity|]. split; [vm_compute; tauto|]. vm_compute. reflexivity. Qed.

(** C34, C51, C52: the hints of a document: the blocks with incoming branches,
    the backtraces, the names at the ends of functions *)
Theorem C34_all_hints : forall e s uri src d hints,
  plain_document src -> opened e s uri src d -> inlay_hint_handler e s uri = Val (Some hints) ->
  exists pr hss bts, parse_from_str (e_u e) src = Val pr /\
    hints = concat hss ++ concat bts ++ map (function_end_hint src uri) (function_defs (pr_stmts pr)) /\
    Forall2 (fun x hs => block_hint src uri (fst x) (snd x) hs) (blocks_in_context (pr_stmts pr)) hss /\
    Forall (Forall other_hint) bts /\
    (can_resolve (roots s) -> Forall2 (instr_hint e (roots s) src (pr_stmts pr)) (instructions (pr_stmts pr)) bts).
Proof. exact inlay_document. Qed.
Print Assumptions C34_all_hints.
Example C34_ex : plain_document src5 /\ opened env5 s5 (str "f") src5 d5 /\ inlay_hint_handler env5 s5 (str "f") = Val (Some hints5) /\
  can_resolve (roots s5) /\ map (fun h => map lp_value (ih_parts h)) hints5 =
  [[str "incoming: "; str "b"]; [str "incoming: "; str "a"; str ", "; str "b"]; [str "incoming: "; str "a"];
   [str "hyper::Translator::consume(x)"; str ", "; str "Full backtrace"]; [str "@g"]; [str "@h"]; [str "@k"]; [str "@k"]].
Proof.
  split; [apply opened5|]. split; [apply opened5|]. split; [vm_compute; reflexivity|]. split; [intros r []|]. vm_compute. reflexivity.
Qed.

(** C51: the hints at the ends of functions *)
Theorem C51_end_hints : forall e s uri src d hints,
  plain_document src -> opened e s uri src d -> inlay_hint_handler e s uri = Val (Some hints) ->
  exists pre, hints = pre ++ map (function_end_hint src uri) (function_defs (doc_stmts d)).
Proof. exact document_end_hints. Qed.
Print Assumptions C51_end_hints.
Example C51_ex : plain_document src5 /\ opened env5 s5 (str "f") src5 d5 /\ inlay_hint_handler env5 s5 (str "f") = Val (Some hints5) /\
  skipn 4 hints5 = map (function_end_hint src5 (str "f")) (function_defs (doc_stmts d5)) /\
  map ih_pos (skipn 4 hints5) = [mkPos 5 1; mkPos 10 1; mkPos 13 1; mkPos 16 1].
Proof. split; [apply opened5|]. split; [apply opened5|]. split; [vm_compute; reflexivity|]. split; vm_compute; reflexivity. Qed.

(** C52: every instruction with a backtrace gets a hint with the relevant frame *)
Theorem C52_backtrace_hints : forall e s uri src d hints,
  plain_document src -> opened e s uri src d -> can_resolve (roots s) -> inlay_hint_handler e s uri = Val (Some hints) ->
  exists pre bts post, hints = pre ++ concat bts ++ post /\
    Forall2 (instr_hint e (roots s) src (doc_stmts d)) (instructions (doc_stmts d)) bts.
Proof. exact document_backtrace_hints. Qed.
Print Assumptions C52_backtrace_hints.
(** hints only fail on names that cannot be cut at byte 48 *)
Theorem C52_panics : forall e s uri src d,
  opened e s uri src d -> can_resolve (roots s) -> inlay_hint_handler e s uri = Panic ->
  exists pr i j frames n f, parse_from_str (e_u e) src = Val pr /\ In i (instructions (pr_stmts pr)) /\
    instr_json e src (pr_stmts pr) i = Some j /\ backtrace_frames (e_fs e) (roots s) j frames /\ relevant_frame frames (Some n) /\
    nth_error frames n = Some f /\ forall y, ~ shortened (f_symbol f) y.
Proof. exact inlay_panics. Qed.
Print Assumptions C52_panics.
Theorem C52_no_panic_refuted : exists e s uri src d,
  plain_document src /\ opened e s uri src d /\ can_resolve (roots s) /\ inlay_hint_handler e s uri = Panic.
Proof. exact hint_panic. Qed.
Print Assumptions C52_no_panic_refuted.
Example C52_ex : opened env6 s6 (str "f") src5 d6 /\ inlay_hint_handler env6 s6 (str "f") = Panic.
Proof.
  split; [split; [reflexivity|]|vm_compute; reflexivity].
  exists (match analyze env6 (str "f") src5 with Val (_, ds) => ds | Panic => [] end). vm_compute. reflexivity.
Qed.

(** C54: the tooltip with the full backtrace has one line per frame, in order *)
Theorem C54_entries : forall u disp pos frames h, inlay_hint_for_backtrace u disp pos frames = Val h -> frames <> [] ->
  Forall (fun f => no_break (f_symbol f) /\ (forall fp, f_filepath f = Some fp -> no_break fp) /\ (forall r, f_resolved f = Some r -> no_break (disp r))) frames ->
  exists parts tip ls, ih_parts h = parts ++ [mkPart (str "Full backtrace") None (Some tip)] /\
    pieces LF tip (map (app (str "* ")) ls) /\ Forall2 (frame_md u disp) frames ls.
Proof. exact tooltip_entries. Qed.
Print Assumptions C54_entries.
Example C54_ex : tooltip_safe11 frames11 /\ inlay_hint_for_backtrace u0 disp11 (mkPos 1 2) frames11 = Val (mkHint (mkPos 1 2)
    [mkPart (str "f") None (Some (str "`f` @ [c.cpp:7](file:///w#7)")); mkPart (str ", ") None None;
     mkPart (str "Full backtrace") None (Some (str "* `f` @ [c.cpp:7](file:///w#7)" ++ [LF] ++ str "* `g" ++ [65533%N] ++ str "` @ d.cpp:8" ++ [LF] ++ str "* `h`"))]).
Proof. exact tooltip11. Qed.
(** a symbol with a line break spreads its entry over several lines *)
Theorem C54_break_refuted : exists u disp pos fs j f h parts tip a b, parse_frame fs [] j = Val f /\
  inlay_hint_for_backtrace u disp pos [f] = Val h /\ ih_parts h = parts ++ [mkPart (str "Full backtrace") None (Some tip)] /\
  pieces LF tip [a; b].
Proof. exact tooltip_break. Qed.
Print Assumptions C54_break_refuted.
(** the name of a file that is not found can make a link *)
Theorem C54_link_refuted : exists u disp pos fs j f h parts, parse_frame fs [] j = Val f /\ f_resolved f = None /\
  inlay_hint_for_backtrace u disp pos [f] = Val h /\
  ih_parts h = parts ++ [mkPart (str "Full backtrace") None (Some (str "* `f` @ [a](x.y):1"))].
Proof. exact tooltip_link. Qed.
Print Assumptions C54_link_refuted.

(** C35: the lenses are those of the functions defined once *)
Theorem C35_lenses : forall e s uri src d, plain_document src -> visits_all (e_ord e) -> opened e s uri src d ->
  exists ls, code_lens e s uri = Some ls /\
    Permutation ls (map (function_lens src uri) (filter (defined_once (doc_stmts d)) (function_defs (doc_stmts d)))).
Proof. exact code_lenses. Qed.
Print Assumptions C35_lenses.
(** whatever the text, a lens belongs to a function defined once ... *)
Theorem C35_sound : forall e s uri src d ls x, visits_all (e_ord e) -> opened e s uri src d -> code_lens e s uri = Some ls -> In x ls ->
  exists f, In f (function_defs (doc_stmts d)) /\ defined_once (doc_stmts d) f = true /\
    cl_command x = str "visualize-cfg" /\ cl_args x = [JStr uri; JStr (fst (fs_name (fst f)))].
Proof. exact lens_sound. Qed.
Print Assumptions C35_sound.
(** ... and its command shows the graph of that function *)
Theorem C35_command : forall e s uri src d f,
  opened e s uri src d -> In f (function_defs (doc_stmts d)) -> defined_once (doc_stmts d) f = true ->
  exists t, execute_command s (str "visualize-cfg") [JStr uri; JStr (fst (fs_name (fst f)))] =
      Reply (mkShow (str "CFG for " ++ fst (fs_name (fst f))) t) /\
    graph_of (fst (fs_name (fst f))) (fb_blocks (snd f)) t.
Proof. exact show_graph_of. Qed.
Print Assumptions C35_command.
Example C35_ex : plain_document src5 /\ visits_all (e_ord env5) /\ opened env5 s5 (str "f") src5 d5 /\
  map (fun f => fst (fs_name (fst f))) (function_defs (doc_stmts d5)) = [str "@g"; str "@h"; str "@k"; str "@k"] /\
  code_lens env5 s5 (str "f") =
    Some [mkLens (mkRange (mkPos 6 12) (mkPos 6 14)) (str "visualize-cfg") [JStr (str "f"); JStr (str "@h")];
          mkLens (mkRange (mkPos 0 12) (mkPos 0 14)) (str "visualize-cfg") [JStr (str "f"); JStr (str "@g")]].
Proof.
  split; [apply opened5|]. split; [apply opened5|]. split; [apply opened5|]. split; vm_compute; reflexivity.
Qed.
