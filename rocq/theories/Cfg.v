(** src/control_flow_graph.rs *)
From Verif Require Import Text Chumsky Parser Index.

(** src/control_flow_graph.rs:3-5 *)
Definition escape_dot_label (x : text) : text :=
  [DQUOTE] ++ flat_map (fun c => if (c =? DQUOTE)%N then [DQUOTE; DQUOTE] else [c]) x ++ [DQUOTE].

Definition nl : text := [LF].

(** src/control_flow_graph.rs:13-22: the edges, in the order they are written *)
Definition bb_edges (bb : basic_block) : list (text * text) :=
  flat_map (fun i =>
    match bb_label bb with
    | Some l => if is_branching i then map (fun t => (fst l, fst t)) (i_refs i) else []
    | None => []
    end) (bb_instrs bb).
Definition cfg_edges (blocks : list basic_block) : list (text * text) := flat_map bb_edges blocks.

Definition edge_line (e : text * text) : text :=
  str "  " ++ escape_dot_label (fst e) ++ str " -> " ++ escape_dot_label (snd e) ++ nl.

(** src/control_flow_graph.rs:7-26 *)
Definition create_cfg_dot_visualization (b : function_body) : text :=
  str "// Control flow graph for " ++ fst (fb_name b) ++ nl
  ++ str "// In VSCode, I recommend installing the `Graphviz Interactive Preview` extension to view this file." ++ nl
  ++ str "strict digraph D {" ++ nl
  ++ str "  node [shape=box];" ++ nl
  ++ flat_map edge_line (cfg_edges (basic_blocks b))
  ++ str "}" ++ nl.
