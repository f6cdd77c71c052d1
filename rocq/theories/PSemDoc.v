(** Semantic tokens of whole documents. *)
From Verif Require Import Text Rope Chumsky Tokenizer Parser SemTok SpecText SpecSemTok SpecLex
  PText PRope PSemTok PTokens PLexProps.

Lemma spans_sorted t hi : forall toks lo hs, spans_in lo hi toks -> hi <= length t ->
  Forall2 matches_highlight (filter_map highlighted toks) hs ->
  sorted_from lo hs /\ Forall (in_doc t) hs.
Proof.
  induction toks as [|[tok sp] toks IH]; intros lo hs H Hhi HF; cbn [filter_map] in HF.
  - inversion HF; subst. split; [exact Logic.I | constructor].
  - destruct H as (H1 & H2 & H3). unfold highlighted at 1 in HF. cbn [fst snd] in HF.
    assert (Hmono : forall lo' hs', lo <= lo' -> sorted_from lo' hs' -> sorted_from lo hs').
    { intros lo' [|h hs'] Hl Hs; [exact Logic.I|]. destruct Hs as [Hs1 Hs2]. split; [lia | exact Hs2]. }
    assert (Hend : sp_end sp <= hi).
    { clear - H3. revert H3. generalize (sp_end sp). induction toks as [|[tk s] toks IH]; cbn; [auto|].
      intros n (Ha & Hb & Hc). specialize (IH _ Hc). lia. }
    destruct (highlight tok) as [ty|].
    + inversion HF as [|x h ? hs' Hm HF']; subst. destruct (IH _ _ H3 Hhi HF') as [I1 I2].
      destruct Hm as (E1 & E2 & E3). split.
      * split; [lia|]. destruct hs' as [|h2 hs']; [exact Logic.I|]. destruct I1 as [I1 I1']. split; [lia | exact I1'].
      * constructor; [|exact I2]. unfold in_doc. rewrite E1, E2. pose proof (length_le_byte_len t).
        split; [lia|]. split; [lia|]. apply (nth_error_Some LEGEND_TYPE). congruence.
    + destruct (IH _ _ H3 Hhi HF) as [I1 I2]. split; [|exact I2]. eapply Hmono; [|exact I1]. lia.
Qed.

Lemma document_semantic_tokens u src toks errs (pos : nat -> position_) :
  small src -> (forall p, p <= length src -> offset_to_lsp_pos src p = Some (pos p)) ->
  tokenize u src = Val (Some toks, errs) ->
  exists hs out, semantic_tokens_from_tokens toks = Val hs /\ convert_to_lsp_tokens src hs = Val out /\
    Forall2 (shows pos) (filter_map highlighted toks) (decode out).
Proof.
  intros Hs Hpos H. apply tokenize_spans in H.
  destruct (semantic_tokens_spec toks) as (hs & E & HF).
  destruct (spans_sorted src _ _ _ _ H (le_n _) HF) as [Hsort Hdoc].
  destruct (convert_spec src hs Hs Hsort Hdoc) as (out & Eo & Hd).
  exists hs, out. split; [exact E|]. split; [exact Eo|].
  assert (Hle : Forall (fun x => fst (fst x) <= length src) (filter_map highlighted toks)).
  { clear - H. revert H. generalize 0. induction toks as [|[tk sp] toks IH]; intros lo H; cbn [filter_map]; [constructor|].
    destruct H as (H1 & H2 & H3). unfold highlighted at 1. cbn [fst snd].
    assert (Hend : sp_end sp <= length src).
    { clear - H3. revert H3. generalize (sp_end sp). induction toks as [|[tk s] toks IH]; cbn; [auto|].
      intros n (Ha & Hb & Hc). specialize (IH _ Hc). lia. }
    destruct (highlight tk); [constructor; [cbn; lia|]|]; eapply IH; exact H3. }
  clear - Hd HF Hpos Hle. revert Hd Hle. generalize (decode out) as ds.
  induction HF as [|x h xs hs Hm HF IH]; intros ds Hd Hle.
  - destruct ds; [constructor | discriminate].
  - destruct ds as [|d ds]; [discriminate|]. cbn in Hd. injection Hd as Hd Hds.
    inversion_clear Hle as [|? ? Hx Hxs]. constructor; [|apply IH; assumption].
    destruct x as [[s l] ty]. destruct Hm as (E1 & E2 & E3). unfold abs_of in Hd. rewrite E1, Hpos in Hd by exact Hx.
    cbn in Hd. injection Hd as ->. cbn. auto.
Qed.

Lemma unicode_ascii src p : ascii_text src = true -> small src -> p <= length src ->
  offset_to_lsp_pos src p = Some (unicode_position src p).
Proof.
  intros Ha Hs Hp. rewrite <- positions_are_unicode by assumption.
  rewrite byte_len_ascii by (apply ascii_firstn; exact Ha). rewrite firstn_length_le by exact Hp. reflexivity.
Qed.
Lemma document_semantic_tokens_ascii u src toks errs : ascii_text src = true -> small src ->
  tokenize u src = Val (Some toks, errs) ->
  exists hs out, semantic_tokens_from_tokens toks = Val hs /\ convert_to_lsp_tokens src hs = Val out /\
    Forall2 (shows (unicode_position src)) (filter_map highlighted toks) (decode out).
Proof.
  intros Ha Hs H. eapply document_semantic_tokens; [exact Hs | | exact H].
  intros p Hp. apply unicode_ascii; assumption.
Qed.
Lemma document_semantic_tokens_lsp u src toks errs : ascii_text src = true -> lsp_plain src = true -> small src ->
  tokenize u src = Val (Some toks, errs) ->
  exists hs out, semantic_tokens_from_tokens toks = Val hs /\ convert_to_lsp_tokens src hs = Val out /\
    Forall2 (shows (lsp_position src)) (filter_map highlighted toks) (decode out).
Proof.
  intros Ha Hp Hs H. eapply document_semantic_tokens; [exact Hs | | exact H].
  intros p Hl. apply positions_are_lsp_ascii; assumption.
Qed.
(** any document: no panic *)
Lemma document_semantic_tokens_total u src toks errs : small src -> tokenize u src = Val (Some toks, errs) ->
  exists hs out, semantic_tokens_from_tokens toks = Val hs /\ convert_to_lsp_tokens src hs = Val out /\
    length out = length (filter_map highlighted toks).
Proof.
  intros Hs H. apply tokenize_spans in H.
  destruct (semantic_tokens_spec toks) as (hs & E & HF).
  destruct (spans_sorted src _ _ _ _ H (le_n _) HF) as [Hsort Hdoc].
  destruct (convert_spec src hs Hs Hsort Hdoc) as (out & Eo & Hd).
  exists hs, out. split; [exact E|]. split; [exact Eo|].
  apply (f_equal (@length _)) in Hd. rewrite !map_length in Hd.
  assert (Hdec : forall l a b, length (decode_from a b l) = length l).
  { induction l; intros; cbn; [reflexivity|]. rewrite IHl. reflexivity. }
  unfold decode in Hd. rewrite Hdec in Hd. rewrite Hd. clear - HF. induction HF; cbn; [reflexivity|]. rewrite IHHF. reflexivity.
Qed.
