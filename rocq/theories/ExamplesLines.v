(** Examples for PropertiesLines.v. *)
From Verif Require Import Text Rope Chumsky Tokenizer Parser Numbers Index SemTok Diag Rename Cfg Backtrace Server SpecText SpecLex SpecParse SpecIndex SpecDiag SpecBacktrace SpecNumbers SpecCfg SpecView SpecRename SpecPatch SpecSimilar SpecRebind SpecLayout SpecLines
  PLexProps PTokens PLocal PExact PIdle ExamplesIndex ExamplesCfg ExamplesView ExamplesRename ExamplesPatch ExamplesRebind ExamplesLabel.

(** two lines without a meaning between the blocks of a function *)
Definition head14 : text := str "define void @f() {
br a
".
Definition tail14 : text := str "a:
ret
}
".
Definition idle14 : list text := [str " # note, with a comma," ++ [LF]; [TAB; CR; LF]].
Definition thead14 : list stoken := firstn 10 ex_toks.
Definition doc14 : text := head14 ++ concat idle14 ++ tail14.
Lemma lines14 : full_lines head14 /\ tokenize (e_u env8) head14 = Val (Some thead14, []) /\ place_after (without_comments thead14) = LineStart /\
  Forall idle_line idle14 /\ parse_from_str (e_u env8) (head14 ++ tail14) = Val (mkPR ex_toks [ex_stmt] []).
Proof.
  split; [right; eexists (removelast head14); reflexivity|]. split; [vm_compute; reflexivity|]. split; [reflexivity|]. split.
  - constructor; [|constructor; [|constructor]].
    + apply (il_comment [SPACE] (str " note, with a comma,")); [constructor; [left; reflexivity|constructor]|]. vm_compute. intuition discriminate.
    + apply (il_blank [TAB] [CR; LF]); [constructor; [right; reflexivity|constructor]|right; reflexivity].
  - vm_compute; reflexivity.
Qed.
Definition toks14 : list stoken := pr_tokens (pr_of doc14).
Definition ss14 : list statement := pr_stmts (pr_of doc14).
Lemma relined14 : tokenize (e_u env8) doc14 = Val (Some toks14, []) /\ relined LineStart (without_comments ex_toks) (without_comments toks14) /\
  relined LineStart (without_comments toks14) (without_comments ex_toks).
Proof.
  split; [vm_compute; reflexivity|]. pose proof lines14 as (Hf & Ht & Hpl & Hi & Hp). destruct (proj1 (document_exact _ _ _ _) Hp) as [Et _]. pose proof (tokenize_lexes0 _ _ _ Et) as L.
  destruct (lexes_app_inv _ _ _ _ _ (tokenize_lexes0 _ _ _ Ht) Hf _ _ L) as (tb & Lb).
  destruct (both_lex _ _ _ _ _ Hf Ht Hi _ Lb) as (tl & H1 & H2 & H3 & H4). destruct (lexes_det _ _ _ _ _ L _ _ H3) as [E _]. rewrite E.
  assert (tokenize (e_u env8) doc14 = Val (Some toks14, [])) as Et14 by (vm_compute; reflexivity). destruct (lexes_det _ _ _ _ _ (tokenize_lexes0 _ _ _ Et14) _ _ H4) as [E4 _]. rewrite E4.
  exact (more_lines _ _ Hpl tb tl H2).
Qed.

(** the server on both documents *)
Definition d14 : doc := doc_of env8 ex_src.
Definition d14' : doc := doc_of env8 doc14.
Definition s14 : server := mkServer [root8] false [(str "f", d14)].
Definition s14' : server := mkServer [root8] false [(str "f", d14')].
Definition o14 : occurrence := mkOcc (mkSpan 24 25) Def KLabel (str "a") (Some 0).
Definition moved14 : nat := 24 + length (concat idle14).
Definition o14' : occurrence := mkOcc (mkSpan moved14 (moved14 + 1)) Def KLabel (str "a") (Some 0).
Lemma alike14 : plain_document ex_src /\ plain_document doc14 /\ opened env8 s14 (str "f") ex_src d14 /\ opened env8 s14' (str "f") doc14 d14' /\
  roots s14' = roots s14 /\ can_resolve (roots s14) /\ lines_from_1 [ex_stmt] /\
  In (o14, o14') (combine (recorded [ex_stmt] ex_toks) (recorded ss14 toks14)) /\ covers (o_span o14) 24 /\ covers (o_span o14') moved14 /\ ~ global (o_kind o14).
Proof.
  split; [split; [|split]; vm_compute; reflexivity|]. split; [split; [|split]; vm_compute; reflexivity|].
  split; [split; [reflexivity|]; exists (match analyze env8 (str "f") ex_src with Val (_, ds) => ds | Panic => [] end); vm_compute; reflexivity|].
  split; [split; [reflexivity|]; exists (match analyze env8 (str "f") doc14 with Val (_, ds) => ds | Panic => [] end); vm_compute; reflexivity|].
  split; [reflexivity|]. split; [intros r [<-|[]]; reflexivity|]. split; [intros f x Hx; vm_compute in Hx; contradiction|].
  split; [vm_compute; auto 10|]. split; [split; vm_compute; lia|]. split; [split; vm_compute; lia|]. intros [H|H]; discriminate H.
Qed.

(** ** Where it does not hold *)
(** an empty document is well-formed, but with a comment line it is not *)
Lemma empty_not_alike : exists u a l toks ss, full_lines a /\ idle_line l /\ parse_from_str u a = Val (mkPR toks ss []) /\
  exists pr, parse_from_str u (a ++ l) = Val pr /\ pr_errors pr <> [].
Proof.
  exists (e_u env8), [], (str "# note" ++ [LF]), [], []. split; [left; reflexivity|].
  split; [apply (il_comment [] (str " note")); [constructor|vm_compute; intuition discriminate]|]. split; [vm_compute; reflexivity|].
  exists (pr_of (str "# note" ++ [LF])). split; [vm_compute; reflexivity|]. vm_compute. discriminate.
Qed.
(** behind a comma the next token is skipped, whatever it is *)
Definition head15 : text := str "define void @f() {
addbr 1,
".
Definition tail15 : text := str "2, cont=a, overflow=b
a:
b:
}
".
Lemma comma_matters : exists u a b l pr pr', full_lines a /\ idle_line l /\ parse_from_str u (a ++ b) = Val pr /\ parse_from_str u (a ++ l ++ b) = Val pr' /\
  pr_errors pr = [] /\ pr_errors pr' <> [].
Proof.
  exists (e_u env8), head15, tail15, [LF], (pr_of (head15 ++ tail15)), (pr_of (head15 ++ [LF] ++ tail15)).
  split; [right; eexists (removelast head15); reflexivity|]. split; [apply (il_blank [] [LF]); [constructor|left; reflexivity]|].
  split; [vm_compute; reflexivity|]. split; [vm_compute; reflexivity|]. split; [vm_compute; reflexivity|]. vm_compute. discriminate.
Qed.
