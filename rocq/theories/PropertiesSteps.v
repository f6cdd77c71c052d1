(** Property theorems C81: renames in any order and in several steps. *)
From Verif Require Import Text Rope Chumsky Tokenizer Parser Numbers Index SemTok Diag Rename Cfg Backtrace Server SpecText SpecLex SpecParse SpecIndex SpecDiag SpecBacktrace SpecNumbers SpecCfg SpecView SpecRename SpecPatch SpecSimilar SpecRebind SpecSteps
  PSteps ExamplesIndex ExamplesCfg ExamplesView ExamplesRename ExamplesPatch ExamplesRebind ExamplesLabel ExamplesUndo ExamplesSteps.

(** C81: two symbols renamed to unused names: both orders give the same text *)
Theorem C81_order : forall e s uri src d, plain_document src -> opened e s uri src d ->
  exists pr, parse_from_str (e_u e) src = Val pr /\ pr_stmts pr = doc_stmts d /\
  forall o1 p1 new1 final1 o2 p2 new2 final2, tokenize (e_u e) src = Val (Some (pr_tokens pr), []) ->
    In o1 (recorded (pr_stmts pr) (pr_tokens pr)) -> covers (o_span o1) p1 -> proper (e_u e) pr o1 new1 final1 -> unused (recorded (pr_stmts pr) (pr_tokens pr)) o1 final1 ->
    In o2 (recorded (pr_stmts pr) (pr_tokens pr)) -> covers (o_span o2) p2 -> proper (e_u e) pr o2 new2 final2 -> unused (recorded (pr_stmts pr) (pr_tokens pr)) o2 final2 ->
    ~ same_symbol o1 o2 ->
    exists edits1 pr1 edits2 pr2,
      rename e s uri (lsp_position src p1) new1 = Val (Reply edits1) /\ parse_from_str (e_u e) (patched src edits1) = Val pr1 /\
      rename e s uri (lsp_position src p2) new2 = Val (Reply edits2) /\ parse_from_str (e_u e) (patched src edits2) = Val pr2 /\
      forall s1 uri1 d1 t2 q2 s2 uri2 d2 t1 q1,
        plain_document (patched src edits1) -> opened e s1 uri1 (patched src edits1) d1 -> counterparts (pr_tokens pr) (pr_tokens pr1) (occ_token o2) t2 -> covers (snd t2) q2 ->
        plain_document (patched src edits2) -> opened e s2 uri2 (patched src edits2) d2 -> counterparts (pr_tokens pr) (pr_tokens pr2) (occ_token o1) t1 -> covers (snd t1) q1 ->
        exists edits12 edits21,
          rename e s1 uri1 (lsp_position (patched src edits1) q2) new2 = Val (Reply edits12) /\
          rename e s2 uri2 (lsp_position (patched src edits2) q1) new1 = Val (Reply edits21) /\
          patched (patched src edits1) edits12 = patched (patched src edits2) edits21.
Proof. exact rename_orders. Qed.
Print Assumptions C81_order.
Example C81_order_ex : plain_document doc12 /\ opened env8 s12 (str "f") doc12 d12 /\ tokenize (e_u env8) doc12 = Val (Some (pr_tokens (pr_of doc12)), []) /\
  (In o12 occs12 /\ covers (o_span o12) 48 /\ proper (e_u env8) (pr_of doc12) o12 (str "loop") (str "loop") /\ unused occs12 o12 (str "loop")) /\
  (In o12x occs12 /\ covers (o_span o12x) 21 /\ proper (e_u env8) (pr_of doc12) o12x (str "cond") (str "%cond") /\ unused occs12 o12x (str "%cond")) /\ ~ same_symbol o12 o12x /\
  (plain_document doc12_renamed /\ opened env8 (with_doc doc12_renamed) (str "f") doc12_renamed (doc_of env8 doc12_renamed)) /\
  (plain_document doc12_cond /\ opened env8 (with_doc doc12_cond) (str "f") doc12_cond (doc_of env8 doc12_cond)) /\
  counterparts (pr_tokens (pr_of doc12)) (pr_tokens (pr_of doc12_renamed)) (occ_token o12x) (TLocalName (str "%x"), mkSpan 20 22) /\
  counterparts (pr_tokens (pr_of doc12)) (pr_tokens (pr_of doc12_cond)) (occ_token o12) (TIdent (str "a_1"), mkSpan 53 56) /\
  renamed_at doc12 48 (str "loop") = doc12_renamed /\ renamed_at doc12_renamed 21 (str "cond") = doc12_both /\
  renamed_at doc12 21 (str "cond") = doc12_cond /\ renamed_at doc12_cond 54 (str "loop") = doc12_both.
Proof.
  split; [apply opened12|]. split; [apply opened12|]. split; [exact clean12|]. split; [split; [apply o12_at|]; split; [apply o12_at|]; split; [exact (proj1 proper12)|exact unused12]|].
  split; [split; [apply o12x_at|]; split; [apply o12x_at|]; split; [exact (proj1 (proj2 proper12))|exact unused12x]|]. split; [apply o12x_at|]. split; [exact opened12r|]. split; [exact opened12c|].
  split; [exact (proj1 same_places12)|]. split; [exact (proj2 same_places12)|exact orders12].
Qed.
(** with a name that is used already the order matters: here both labels end up as one *)
Example C81_clash_ex : renamed_at (renamed_at doc12 48 (str "b_2")) 69 (str "loop") <> renamed_at (renamed_at doc12 71 (str "loop")) 48 (str "b_2").
Proof. rewrite (proj1 clash12), (proj2 clash12). discriminate. Qed.
(** a symbol renamed to an unused name and then to a third one: the text is the one of the direct rename *)
Theorem C81_steps : forall e s uri src d, plain_document src -> opened e s uri src d ->
  exists pr, parse_from_str (e_u e) src = Val pr /\ pr_stmts pr = doc_stmts d /\
  forall o p new1 final1 new2 final2, tokenize (e_u e) src = Val (Some (pr_tokens pr), []) ->
    In o (recorded (pr_stmts pr) (pr_tokens pr)) -> covers (o_span o) p -> proper (e_u e) pr o new1 final1 -> unused (recorded (pr_stmts pr) (pr_tokens pr)) o final1 -> proper (e_u e) pr o new2 final2 ->
    exists edits1 pr1 edits2,
      rename e s uri (lsp_position src p) new1 = Val (Reply edits1) /\ parse_from_str (e_u e) (patched src edits1) = Val pr1 /\
      rename e s uri (lsp_position src p) new2 = Val (Reply edits2) /\
      forall s1 uri1 d1 o' q, plain_document (patched src edits1) -> opened e s1 uri1 (patched src edits1) d1 ->
        In o' (recorded (pr_stmts pr1) (pr_tokens pr1)) -> covers (o_span o') q -> in_scope o o' -> o_name o' = final1 ->
        exists edits12, rename e s1 uri1 (lsp_position (patched src edits1) q) new2 = Val (Reply edits12) /\ patched (patched src edits1) edits12 = patched src edits2.
Proof. exact rename_twice. Qed.
Print Assumptions C81_steps.
Example C81_steps_ex : plain_document doc12 /\ opened env8 s12 (str "f") doc12 d12 /\ tokenize (e_u env8) doc12 = Val (Some (pr_tokens (pr_of doc12)), []) /\
  (In o12 occs12 /\ covers (o_span o12) 48 /\ proper (e_u env8) (pr_of doc12) o12 (str "loop") (str "loop") /\ unused occs12 o12 (str "loop")) /\
  proper (e_u env8) (pr_of doc12) o12 (str "a_1") (o_name o12) /\ renamed_at doc12 48 (str "loop") = doc12_renamed /\
  (plain_document doc12_renamed /\ opened env8 (with_doc doc12_renamed) (str "f") doc12_renamed (doc_of env8 doc12_renamed)) /\
  In o12r (occs_of doc12_renamed) /\ covers (o_span o12r) 48 /\ in_scope o12 o12r /\ o_name o12r = str "loop".
Proof.
  split; [apply opened12|]. split; [apply opened12|]. split; [exact clean12|]. split; [split; [apply o12_at|]; split; [apply o12_at|]; split; [exact (proj1 proper12)|exact unused12]|].
  split; [exact (proj2 (proj2 proper12))|]. split; [exact (proj1 orders12)|]. split; [exact opened12r|exact o12r_at].
Qed.
(** the name a symbol has already: nothing changes *)
Theorem C81_same : forall e s uri src d, plain_document src -> opened e s uri src d ->
  exists pr, parse_from_str (e_u e) src = Val pr /\ pr_stmts pr = doc_stmts d /\
  forall o p new, tokenize (e_u e) src = Val (Some (pr_tokens pr), []) ->
    In o (recorded (pr_stmts pr) (pr_tokens pr)) -> covers (o_span o) p -> proper (e_u e) pr o new (o_name o) ->
    exists edits, rename e s uri (lsp_position src p) new = Val (Reply edits) /\ edits <> [] /\ patched src edits = src.
Proof. exact rename_same. Qed.
Print Assumptions C81_same.
Example C81_same_ex : plain_document doc12 /\ opened env8 s12 (str "f") doc12 d12 /\ tokenize (e_u env8) doc12 = Val (Some (pr_tokens (pr_of doc12)), []) /\
  In o12 occs12 /\ covers (o_span o12) 48 /\ proper (e_u env8) (pr_of doc12) o12 (str "a_1") (o_name o12).
Proof. split; [apply opened12|]. split; [apply opened12|]. split; [exact clean12|]. split; [apply o12_at|]. split; [apply o12_at|exact (proj2 (proj2 proper12))]. Qed.
