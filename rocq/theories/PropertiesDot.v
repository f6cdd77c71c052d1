(** C67: the graphs that are shown. *)
From Verif Require Import Text Rope Chumsky Tokenizer Parser Numbers Index SemTok Diag Rename Cfg Backtrace Server SpecText SpecParse SpecIndex SpecDiag SpecBacktrace SpecCfg SpecDot
  PIndexDoc PDot ExamplesIndex ExamplesCfg ExamplesDot.

(** C67: the text of a graph is a DOT file; it has exactly the branches as edges
    and exactly their ends as nodes *)
Theorem C67_graph : forall u src pr ix fb, indexed u src pr ix -> In fb (function_bodies ix) ->
  exists items, dot_read (create_cfg_dot_visualization fb) = Some items /\
    (forall a b, In (Edge a b) items <-> cfg_edge (basic_blocks fb) a b) /\
    (forall a, drawn items a <-> exists b, cfg_edge (basic_blocks fb) a b \/ cfg_edge (basic_blocks fb) b a).
Proof. exact graph_drawn. Qed.
Print Assumptions C67_graph.
Example C67_ex : indexed u0 src5 (pr_of src5) (ix_of src5) /\ In fb5 (function_bodies (ix_of src5)) /\
  dot_read (create_cfg_dot_visualization fb5) = Some [Edge (str "a") (str "b"); Edge (str "b") (str "a"); Edge (str "b") (str "b")].
Proof. split; [split; vm_compute; reflexivity|]. split; [vm_compute; tauto|]. vm_compute. reflexivity. Qed.
(** it is what the command of a function shows *)
Theorem C67_shown : forall e s uri src d f, opened e s uri src d -> In f (function_defs (doc_stmts d)) -> defined_once (doc_stmts d) f = true ->
  exists t items, execute_command s (str "visualize-cfg") [JStr uri; JStr (fst (fs_name (fst f)))] = Reply (mkShow (str "CFG for " ++ fst (fs_name (fst f))) t) /\
    dot_read t = Some items /\
    (forall a b, In (Edge a b) items <-> cfg_edge (fb_blocks (snd f)) a b) /\
    (forall a, drawn items a <-> exists b, cfg_edge (fb_blocks (snd f)) a b \/ cfg_edge (fb_blocks (snd f)) b a).
Proof. exact shown_drawn. Qed.
Print Assumptions C67_shown.
Example C67_shown_ex : opened env5 s5 (str "f") src5 d5 /\ exists f, In f (function_defs (doc_stmts d5)) /\ defined_once (doc_stmts d5) f = true /\ fst (fs_name (fst f)) = str "@g".
Proof. exact shown5. Qed.
(** a block is missing although a block without a label branches to it *)
Theorem C67_blocks_refuted : exists e s uri src d f title t items bb l,
  plain_document src /\ opened e s uri src d /\ In f (function_defs (doc_stmts d)) /\ defined_once (doc_stmts d) f = true /\
  execute_command s (str "visualize-cfg") [JStr uri; JStr (fst (fs_name (fst f)))] = Reply (mkShow title t) /\ dot_read t = Some items /\
  In bb (fb_blocks (snd f)) /\ bb_label bb = Some l /\ ~ drawn items (fst l) /\
  exists bb' i r, In bb' (fb_blocks (snd f)) /\ In i (bb_instrs bb') /\ branch i /\ In r (i_refs i) /\ fst r = fst l.
Proof. exact missing_block. Qed.
Print Assumptions C67_blocks_refuted.
