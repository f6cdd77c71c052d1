(** Parts of a document are deleted. *)
From Verif Require Import Text Rope Chumsky Tokenizer Parser Numbers Index SemTok Diag Rename Cfg Backtrace Server SpecText SpecLex SpecParse SpecIndex SpecDiag SpecBacktrace SpecNumbers SpecCfg SpecView SpecSemTok SpecSum SpecSumView SpecMove.

(** The parts that stay and those that go. *)
Definition staying (keep : piece -> bool) (ps : list piece) : list piece := filter keep ps.
Definition going (keep : piece -> bool) (ps : list piece) : list piece := filter (fun q => negb (keep q)) ps.
(** The name of [o] was introduced by parts that go and by none that stays. *)
Definition orphan (keep : piece -> bool) (ps : list piece) (o : occurrence) : bool :=
  existsb (fun q => supplies (pr_stmts (pc_result q)) o) (going keep ps) && negb (existsb (fun q => supplies (pr_stmts (pc_result q)) o) (staying keep ps)).
(** What is to be said about [p] in addition: the uses of such names. *)
Definition orphans (keep : piece -> bool) (ps : list piece) (p : piece) : list diagnostic :=
  map (undefined_diagnostic (pc_text p)) (filter (orphan keep ps) (undefined_uses (recorded (pr_stmts (pc_result p)) (pr_tokens (pc_result p))))).
(** The function [f] is defined in [p]. *)
Definition has_function (p : piece) (f : text) : Prop := exists x, In x (function_defs (pr_stmts (pc_result p))) /\ fst (fs_name (fst x)) = f.
(** No part that stays uses a name that a part that goes introduces. *)
Definition unused (keep : piece -> bool) (ps : list piece) : Prop :=
  forall p q o, In p (staying keep ps) -> In q (going keep ps) -> In o (recorded (pr_stmts (pc_result p)) (pr_tokens (pc_result p))) -> o_ud o = Use ->
    supplies (pr_stmts (pc_result q)) o = false.
