(** What the options of requests ask for. *)
From Verif Require Import Text Rope Chumsky Tokenizer Parser Index SemTok Diag Rename Cfg Backtrace Server SpecText SpecParse SpecIndex SpecDiag SpecBacktrace SpecCfg SpecView.

(** Uses are always wanted, declarations and definitions only on demand. *)
Definition wanted (include_declaration : bool) (o : occurrence) : Prop := o_ud o = Use \/ include_declaration = true.
Definition same_name (o o' : occurrence) : Prop := o_kind o' = o_kind o /\ o_body o' = o_body o /\ o_name o' = o_name o.
(** The wanted occurrences of the symbol at offset [p]. *)
Definition reference_answer (uri src : text) (pr : parser_result) (p : nat) (include_declaration : bool) (r : option (list location)) : Prop :=
  let l := recorded (pr_stmts pr) (pr_tokens pr) in
  match r with
  | None => forall o, In o l -> ~ covers (o_span o) p
  | Some locs => exists o, In o l /\ covers (o_span o) p /\
      forall x, In x locs <-> exists o', In o' l /\ same_name o o' /\ wanted include_declaration o' /\ x = location_of src uri (o_span o')
  end.
(** Is the hint inside the range for which hints were asked? *)
Definition visible_hint (r : range_) (h : inlay_hint) : Prop := pos_le (r_start r) (ih_pos h) /\ pos_le (ih_pos h) (r_end r).
