(** Property theorems C11-C15: the parser. *)
From Verif Require Import Text Chumsky Tokenizer Parser SpecParse PParseProps PLocal.

(** C11 *)
Theorem C11_parser_total : forall src toks, exists o errs, parse_tokens src toks = Val (o, errs).
Proof. exact parse_tokens_total. Qed.
Print Assumptions C11_parser_total.
Theorem C11_document_total : forall u src, exists pr, parse_from_str u src = Val pr.
Proof. exact parse_from_str_total. Qed.
Print Assumptions C11_document_total.

(** C12 *)
Theorem C12_names_are_tokens : forall u src pr, parse_from_str u src = Val pr ->
  subseq (flat_map stmt_tokens (pr_stmts pr)) (pr_tokens pr).
Proof. exact provenance. Qed.
Print Assumptions C12_names_are_tokens.
(** ... and the statements are a reading of the tokens by the declarative grammar. *)
Theorem C12_grammar : forall src toks ss errs, parse_tokens src toks = Val (Some ss, errs) ->
  module_seg any_form ss (length errs) (without_comments toks).
Proof. exact parse_tokens_grammar. Qed.
Print Assumptions C12_grammar.
Definition doc1 : text := str "declare void @f() = 0xff
oops
define void @g(int1 %x) {
  br a
a: # comment
  br int1 %x, a, b
b:
  ret !1
}
!1 = 5".
Example C12_ex : forall u, exists pr, parse_from_str u doc1 = Val pr /\
  length (pr_errors pr) = 1 /\ length (pr_stmts pr) = 3 /\ length (flat_map stmt_tokens (pr_stmts pr)) = 23.
Proof. intros u. eexists. split; [vm_compute; reflexivity|]. vm_compute. auto. Qed.

(** C13 *)
Theorem C13_layout : forall u src pr, parse_from_str u src = Val pr ->
  Forall well_nested (pr_stmts pr) /\ ranges_in_order 0 (flat_map func_ranges (pr_stmts pr)) /\
  ranges_in_order 0 (map snd (flat_map stmt_tokens (pr_stmts pr))).
Proof. exact layout. Qed.
Print Assumptions C13_layout.
Example C13_ex : forall u, exists pr, parse_from_str u doc1 = Val pr /\
  flat_map func_ranges (pr_stmts pr) = [mkSpan 30 108].
Proof. intros u. eexists. split; vm_compute; reflexivity. Qed.

(** C14: every layout of a list of statements, with newlines and comments
    anywhere the grammar allows, is parsed back to exactly these statements. *)
Theorem C14_round_trip : forall src toks ss n, stmts_seg proper_form ss n (without_comments toks) [] ->
  parse_tokens src toks = Val (Some ss, []).
Proof. exact parse_round_trip. Qed.
Print Assumptions C14_round_trip.
Theorem C14_document : forall u src toks ss n, tokenize u src = Val (Some toks, []) ->
  stmts_seg proper_form ss n (without_comments toks) [] ->
  parse_from_str u src = Val (mkPR toks ss []).
Proof. exact document_round_trip. Qed.
Print Assumptions C14_document.
Theorem C14_unambiguous : forall toks ss n ss' n',
  stmts_seg proper_form ss n toks [] -> stmts_seg proper_form ss' n' toks [] -> ss = ss'.
Proof. exact grammar_unambiguous. Qed.
Print Assumptions C14_unambiguous.
Example C14_ex : stmts_seg proper_form [ex_stmt] 0 (without_comments ex_toks) [] /\
  forall u, tokenize u ex_src = Val (Some ex_toks, []).
Proof. split; [exact (ex_segs [])|intros u; vm_compute; reflexivity]. Qed.

(** C15: complete statements in front do not change what is made of the rest. *)
Theorem C15_statements_before : forall src ss n toks rest,
  stmts_seg proper_form ss n (without_comments toks) (without_comments rest) -> ss <> [] -> ~ newlines (without_comments rest) ->
  (exists l e1 e2, parse_tokens src rest = Val (Some l, e1) /\ parse_tokens src (toks ++ rest) = Val (Some (ss ++ l), e2) /\
     length e1 = length e2) \/
  (exists e1 e2, parse_tokens src rest = Val (None, e1) /\ parse_tokens src (toks ++ rest) = Val (None, e2)).
Proof. exact parse_in_front. Qed.
Print Assumptions C15_statements_before.
(** Junk in front of a statement costs one error and no statement. *)
Theorem C15_junk_before : forall src g ss n toks rest, junk (without_comments g) ->
  stmts_seg proper_form ss n (without_comments toks) (without_comments rest) -> ss <> [] ->
  (exists l e1 e2, parse_tokens src (toks ++ rest) = Val (Some l, e1) /\ parse_tokens src (g ++ toks ++ rest) = Val (Some l, e2) /\
     length e2 = S (length e1)) \/
  (exists e1 e2, parse_tokens src (toks ++ rest) = Val (None, e1) /\ parse_tokens src (g ++ toks ++ rest) = Val (None, e2)).
Proof. exact parse_garbage. Qed.
Print Assumptions C15_junk_before.
(** Junk at the end loses everything. *)
Theorem C15_junk_at_end : forall src ss n toks g, junk (without_comments g) ->
  stmts_seg proper_form ss n (without_comments toks) (without_comments g) ->
  exists errs, parse_tokens src (toks ++ g) = Val (None, errs) /\ errs <> [].
Proof. exact parse_trailing. Qed.
Print Assumptions C15_junk_at_end.
Example C15_ex : exists e1 e2,
  stmts_seg proper_form [ex_stmt] 0 (without_comments ex_toks) (without_comments [(TNum (str "1"), mkSpan 40 41)]) /\
  junk [(TNum (str "1"), mkSpan 40 41)] /\
  parse_tokens [] (ex_toks ++ (TNum (str "1"), mkSpan 40 41) :: ex_toks) = Val (Some [ex_stmt; ex_stmt], [e1]) /\
  parse_tokens [] (ex_toks ++ [(TNum (str "1"), mkSpan 40 41)]) = Val (None, [e2]).
Proof.
  do 2 eexists. split; [exact (ex_segs _)|]. split; [split; [repeat constructor; exact (fun x => x)|]; eexists; split; [left; reflexivity|discriminate]|].
  split; vm_compute; reflexivity.
Qed.
(** The full claim (an error loses no complete statement) is false. *)
Theorem C15_no_statement_lost_refuted : exists src toks g ss errs,
  parse_tokens src toks = Val (Some ss, []) /\ ss <> [] /\ junk g /\ parse_tokens src (toks ++ g) = Val (None, errs).
Proof.
  exists [], ex_toks, [(TNum (str "1"), mkSpan 40 41)], [ex_stmt]. eexists. split; [vm_compute; reflexivity|].
  split; [discriminate|]. split; [split; [repeat constructor; exact (fun x => x)|]; eexists; split; [left; reflexivity|discriminate]|].
  vm_compute. reflexivity.
Qed.
Print Assumptions C15_no_statement_lost_refuted.
