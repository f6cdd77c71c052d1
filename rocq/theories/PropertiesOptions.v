(** Property theorems C85: options of requests. *)
From Verif Require Import Text Rope Chumsky Tokenizer Parser Numbers Index SemTok Diag Rename Cfg Backtrace Server SpecText SpecParse SpecIndex SpecDiag SpecBacktrace SpecCfg SpecView
  Options SpecOptions POptions ExamplesIndex ExamplesCfg ExamplesView ExamplesSum ExamplesOptions.

(** C85: without declarations the answer is exact; with declarations it is the same *)
Theorem C85_references : forall e s uri src d p incl, plain_document src -> opened e s uri src d -> p <= length src ->
  exists pr r, parse_from_str (e_u e) src = Val pr /\ references_request e s uri (lsp_position src p) incl = Val r /\ reference_answer uri src pr p false r.
Proof. exact references_wanted. Qed.
Print Assumptions C85_references.
Theorem C85_declarations_refuted : exists e s uri src d p pr r, plain_document src /\ opened e s uri src d /\ p <= length src /\ parse_from_str (e_u e) src = Val pr /\
  references_request e s uri (lsp_position src p) true = Val r /\ ~ reference_answer uri src pr p true r.
Proof. exact missing85. Qed.
Print Assumptions C85_declarations_refuted.
(** C85: a client that asks for definitions and declarations too has all occurrences *)
Theorem C85_together : forall e s uri src d p incl origin locs, plain_document src -> opened e s uri src d -> p <= length src ->
  goto_definition e s uri (lsp_position src p) = Val (Some (origin, locs)) ->
  exists pr own ext decls refs, parse_from_str (e_u e) src = Val pr /\ locs = own ++ ext /\ goto_declaration e s uri (lsp_position src p) = Val (Some (origin, decls)) /\
    references_request e s uri (lsp_position src p) incl = Val (Some refs) /\ reference_answer uri src pr p true (Some (own ++ decls ++ refs)).
Proof. exact references_together. Qed.
Print Assumptions C85_together.
Example C85_ex : (plain_document used85 /\ opened env8 (sv used85) (str "f") used85 (doc_of env8 used85)) /\
  references_request env8 (sv used85) (str "f") (lsp_position used85 32) true = Val (Some [mkLocn (str "f") (mkRange (mkPos 2 6) (mkPos 2 8))]) /\
  exists o, goto_definition env8 (sv used85) (str "f") (lsp_position used85 32) = Val (Some (o, [mkLocn (str "f") (mkRange (mkPos 0 0) (mkPos 0 2))])).
Proof. split; [exact opened85|]. split; [exact asked85|]. eexists. vm_compute. reflexivity. Qed.
(** C85: hints outside of the range *)
Theorem C85_hints_refuted : exists e s uri src d r hs h, plain_document src /\ opened e s uri src d /\ inlay_hint_request e s uri r = Val (Some hs) /\ In h hs /\ ~ visible_hint r h.
Proof. exact unasked85. Qed.
Print Assumptions C85_hints_refuted.
(** C85: a backtrace outside of the range can spoil the request *)
Theorem C85_crash_refuted : exists e s uri src d r, plain_document src /\ opened e s uri src d /\ inlay_hint_request e s uri r = Panic /\
  forall i x, In i (all_instructions (doc_stmts d)) -> i_dbg i = Some x -> ~ pos_le (lsp_position src (sp_start (snd x))) (r_end r).
Proof. exact crash85. Qed.
Print Assumptions C85_crash_refuted.
