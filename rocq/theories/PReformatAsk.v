(** Requests in documents laid out in different ways. *)
From Verif Require Import Text Rope Chumsky Tokenizer Parser Numbers Index SemTok Diag Rename Cfg Backtrace Server SpecText SpecLex SpecParse SpecIndex SpecDiag SpecCfg SpecView SpecRename SpecPatch SpecSimilar SpecValues SpecLayout SpecReformat SpecValued
  PRetree PLayout PValues.

Lemma respaced_valued u src src' : respaced u None src src' -> ~ Forall blank src -> revalued_text u src src'.
Proof.
  intros Hr Hb. destruct (respaced_tokens _ _ _ Hr Hb) as (toks & toks' & E & E' & Em). exists toks, toks'. split; [exact E|]. split; [exact E'|].
  eapply forall2_impl; [|exact (map_fst_similar _ _ Em)]. intros a b H. left. exact H.
Qed.
Lemma respaced_requests e s s' uri src src' d d' : plain_document src -> plain_document src' -> opened e s uri src d -> opened e s' uri src' d' -> respaced (e_u e) None src src' -> ~ Forall blank src ->
  exists pr pr', parse_from_str (e_u e) src = Val pr /\ parse_from_str (e_u e) src' = Val pr' /\
    forall a b p p', counterparts (pr_tokens pr) (pr_tokens pr') a b -> covers (snd a) p -> covers (snd b) p' ->
    requests_alike (counterparts (pr_tokens pr) (pr_tokens pr')) uri src src' e s s' a b (lsp_position src p) (lsp_position src' p').
Proof. intros P1 P2 Ho Ho' Hr Hb. eapply valued_requests; try eassumption. apply respaced_valued; assumption. Qed.
