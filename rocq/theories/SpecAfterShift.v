(** What an editor shows after numbers have been moved up. *)
From Verif Require Import Text Rope Chumsky Tokenizer Parser Numbers Index SemTok Diag Rename Cfg Backtrace Server SpecText SpecParse SpecIndex SpecDiag SpecCfg SpecView SpecNumbers SpecRename SpecPatch SpecSimilar SpecRebind SpecSteps SpecAfter.

Definition in_scopeb (o x : occurrence) : bool :=
  (if kind_dec (o_kind x) (o_kind o) then true else false) && (if body_dec (o_body x) (o_body o) then true else false).
(** The reports about undefined and redefined names in the scope of [o], with [f] applied to the occurrences. *)
Definition reports_within (src uri : text) (l : list occurrence) (o : occurrence) (f : occurrence -> occurrence) : list diagnostic :=
  map (undefined_diagnostic src) (map f (filter (in_scopeb o) (undefined_uses l))) ++
  map (redefinition_diagnostic src uri) (map (fun x => (f (fst x), f (snd x))) (filter (fun x => in_scopeb o (fst x)) (redefinitions l))).
(** An entry of the outline: moved, with the same name. *)
Definition kept_symbol (edits : list text_edit) (x : doc_symbol) : doc_symbol :=
  mkSym (ds_name x) (ds_kind x) (carried_range edits (ds_range x)) (carried_range edits (ds_selection x)).
(** Asked at [o] in a document without lexical errors, the server moves the
    numbers from [n], the one of [o], on up by [z]. *)
Definition shifting (e : env) (s : server) (uri src : text) (d : doc) (pr : parser_result) (p : nat) (o : occurrence) (new : text) (z : Z) (n : N) (edits : list text_edit) : Prop :=
  let l := recorded (pr_stmts pr) (pr_tokens pr) in
  plain_document src /\ opened e s uri src d /\ parse_from_str (e_u e) src = Val pr /\ tokenize (e_u e) src = Val (Some (pr_tokens pr), []) /\
  In o l /\ covers (o_span o) p /\ asks_shift new z /\ (0 <= z)%Z /\ has_number (o_name o) n /\ no_overflow l o n z /\ ~ global (o_kind o) /\
  (o_kind o = KLabel -> forall x y, In x l -> moved o n z x y -> free_word y) /\
  (forall x, In x l -> in_scope o x -> no_leading_zeros (o_name x) /\ forall m, has_number (o_name x) m -> fits_i64 (Z.of_N m + z)) /\
  rename e s uri (lsp_position src p) new = Val (Reply edits) /\ plain_document (patched src edits).
