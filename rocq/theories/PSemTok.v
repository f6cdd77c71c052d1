(** Proofs about src/semantic_token.rs. *)
From Verif Require Import Text Rope Tokenizer Parser SemTok SpecText SpecSemTok PRope.

Lemma create_semantic_token_spec sp ty : exists i,
  create_semantic_token sp ty = Val (mkHST (sp_start sp) (sp_end sp - sp_start sp) i) /\
  nth_error LEGEND_TYPE i = Some ty.
Proof. destruct ty; eexists; (split; [reflexivity | reflexivity]). Qed.

Lemma sem_type_highlight t : sem_type_of_token t = highlight t.
Proof. destruct t; reflexivity. Qed.

Lemma semantic_tokens_spec toks : exists hs,
  semantic_tokens_from_tokens toks = Val hs /\
  Forall2 matches_highlight (filter_map highlighted toks) hs.
Proof.
  induction toks as [|[t sp] toks (hs & IH1 & IH2)]; cbn [semantic_tokens_from_tokens filter_map].
  - eexists. split; [reflexivity | constructor].
  - unfold highlighted at 1. cbn [fst snd]. rewrite sem_type_highlight.
    destruct (highlight t) as [ty|]; [|eauto].
    destruct (create_semantic_token_spec sp ty) as (i & -> & Hi). cbn [rbind].
    rewrite IH1. cbn [rbind]. eexists. split; [reflexivity|].
    constructor; [|exact IH2]. cbn. auto.
Qed.

Lemma as_u32_small n m : (N.of_nat m < U32)%N -> n <= m -> as_u32 n = n.
Proof.
  intros H1 H2. unfold as_u32. rewrite N.mod_small by lia. lia.
Qed.

Lemma pos_of_offset t p : small t -> p <= byte_len t -> exists a, offset_to_lsp_pos t p = Some a.
Proof. intros. eexists. apply offset_to_lsp_pos_eq; assumption. Qed.

Definition abs_of (t : rope) (h : hir_sem_token) : option (position_ * nat * nat) :=
  option_map (fun p => (p, hs_length h, hs_type h)) (offset_to_lsp_pos t (hs_start h)).

Lemma convert_from_spec t : small t -> forall l p prev,
  offset_to_lsp_pos t p = Some prev -> sorted_from p l -> Forall (in_doc t) l ->
  exists out, convert_from t (p_line prev) (p_char prev) l = Val out /\
    map Some (decode_from (p_line prev) (p_char prev) out) = map (abs_of t) l.
Proof.
  intros Hs. induction l as [|h l IH]; intros p prev Hp Hsort Hin.
  - exists []. split; reflexivity.
  - destruct Hsort as [Hle Hsort]. inversion_clear Hin as [|? ? [Hd [Hlen Hty]] Hl].
    pose proof (offset_to_lsp_pos_eq t (hs_start h) Hs Hd) as Hpos.
    destruct (IH (hs_start h) _ Hpos Hsort Hl) as (rest & Hrest & Hdec).
    cbn [p_line p_char] in Hrest, Hdec.
    pose proof (position_mono t p (hs_start h) prev _ Hle Hp Hpos) as Hmono.
    cbn [convert_from]. unfold try_byte_to_line, try_byte_to_char.
    destruct (Nat.leb_spec (hs_start h) (byte_len t)) as [_|]; [|lia].
    set (c := byte_to_char t (hs_start h)) in *.
    assert (Hc : c <= length t) by apply byte_to_char_le.
    assert (Hnb : nbreaks t 0 c <= length t) by apply nbreaks_le.
    pose proof (line_start_le t c) as Hls.
    rewrite char_to_line_nbreaks, (as_u32_small _ _ Hs Hnb).
    rewrite <- char_to_line_nbreaks, try_line_to_char_line, char_to_line_nbreaks.
    rewrite (as_u32_small c _ Hs Hc).
    rewrite (as_u32_small (line_start t 0 c 0) _ Hs) by lia.
    unfold u32_sub at 1. destruct (Nat.leb_spec (line_start t 0 c 0) c) as [_|]; [|lia]. cbn [rbind].
    unfold pos_le in Hmono. cbn [p_line p_char] in Hmono.
    unfold u32_sub at 1. destruct (Nat.leb_spec (p_line prev) (nbreaks t 0 c)) as [_|]; [|lia]. cbn [rbind].
    assert (Hty32 : as_u32 (hs_type h) = hs_type h).
    { unfold as_u32. rewrite N.mod_small by (unfold U32; lia). lia. }
    rewrite Hty32, (as_u32_small (hs_length h) _ Hs Hlen).
    assert (Habs : abs_of t h = Some (mkPos (nbreaks t 0 c) (c - line_start t 0 c 0), hs_length h, hs_type h)).
    { unfold abs_of. rewrite Hpos. reflexivity. }
    destruct (Nat.eqb_spec (nbreaks t 0 c - p_line prev) 0) as [Hz|Hz].
    + unfold u32_sub at 1.
      destruct (Nat.leb_spec (p_char prev) (c - line_start t 0 c 0)) as [_|]; [|lia]. cbn [rbind].
      rewrite Hrest. cbn [rbind]. eexists. split; [reflexivity|].
      cbn [decode_from map delta_line delta_start lt_length lt_type].
      rewrite (proj2 (Nat.eqb_eq _ 0) Hz).
      replace (p_line prev + (nbreaks t 0 c - p_line prev)) with (nbreaks t 0 c) by lia.
      replace (p_char prev + (c - line_start t 0 c 0 - p_char prev)) with (c - line_start t 0 c 0) by lia.
      rewrite Habs, Hdec. reflexivity.
    + cbn [rbind]. rewrite Hrest. cbn [rbind]. eexists. split; [reflexivity|].
      cbn [decode_from map delta_line delta_start lt_length lt_type].
      rewrite (proj2 (Nat.eqb_neq _ 0) Hz).
      replace (p_line prev + (nbreaks t 0 c - p_line prev)) with (nbreaks t 0 c) by lia.
      rewrite Habs, Hdec. reflexivity.
Qed.

Lemma offset_zero t : small t -> offset_to_lsp_pos t 0 = Some (mkPos 0 0).
Proof.
  intros Hs. rewrite offset_to_lsp_pos_eq by (assumption || lia).
  replace (byte_to_char t 0) with 0.
  - rewrite nbreaks_before, line_start_before by lia. reflexivity.
  - destruct t as [|c t]; [reflexivity|]. cbn. pose proof (utf8_len_pos c).
    destruct (Nat.leb_spec (utf8_len c) 0); [lia | reflexivity].
Qed.

Lemma convert_spec t l : small t -> sorted_from 0 l -> Forall (in_doc t) l ->
  exists out, convert_to_lsp_tokens t l = Val out /\ map Some (decode out) = map (abs_of t) l.
Proof.
  intros Hs H1 H2. apply (convert_from_spec t Hs l 0 (mkPos 0 0)); try assumption.
  apply offset_zero; exact Hs.
Qed.
