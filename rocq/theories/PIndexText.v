(** Texts of indexed names, values of debug annotations, totality of the analysis. *)
From Verif Require Import Text Rope Chumsky Tokenizer Parser Numbers Index SemTok Diag Rename Cfg Backtrace Server SpecText SpecLex SpecParse SpecIndex
  PText PRope PLexSpec PLexProps PTokens PParse PParseProps PIndex PIndexDoc PSemTok.

Definition token_name (t : token) : option text :=
  match t with
  | TGlobalName n | TLocalName n | TDebugRef n | TIdent n => Some n
  | _ => None
  end.
Lemma lexeme_name u t w n : lexeme u t w -> token_name t = Some n -> w = n.
Proof.
  intros H E. destruct H; try discriminate E; try (injection E as <-; reflexivity).
  destruct H1 as [H1|[_ ->]]; [|cbn in E; congruence].
  assert (Forall (fun p => token_name (snd p) = None) reserved) as Hr by (repeat constructor).
  rewrite Forall_forall in Hr. apply Hr in H1. cbn in H1. congruence.
Qed.

Lemma lexes_texts_errors u : forall i t toks n, lexes u i t toks n -> forall pre, i = length pre ->
  forall tok sp, In (tok, sp) toks -> exists g w, text_at (pre ++ t) sp = g ++ w /\ lexeme u tok w.
Proof.
  induction 1 as [i bl Hb|i bl t w r toks n Hb Hl H IH|i bl g t w r toks n Hb Hg Hgb Hun Hl H IH]; intros pre -> tok sp Hin.
  - contradiction.
  - destruct Hin as [E|Hin].
    + injection E as <- <-. exists [], w. destruct Hl as [Hw _]. split; [|exact Hw].
      rewrite app_assoc, <- app_length. apply text_at_split.
    + specialize (IH (pre ++ bl ++ w)). rewrite !app_length in IH. specialize (IH ltac:(lia) _ _ Hin).
      rewrite <- !app_assoc in IH. exact IH.
  - destruct Hin as [E|Hin].
    + injection E as <- <-. exists g, w. destruct Hl as [Hw _]. split; [|exact Hw].
      rewrite app_assoc, <- app_length. rewrite (app_assoc g), <- Nat.add_assoc, <- (app_length g). apply text_at_split.
    + specialize (IH (pre ++ bl ++ g ++ w)). rewrite !app_length in IH. specialize (IH ltac:(lia) _ _ Hin).
      rewrite <- !app_assoc in IH. exact IH.
Qed.
Lemma occ_token_name o : token_name (fst (occ_token o)) = Some (o_name o).
Proof. unfold occ_token. destruct (o_kind o); reflexivity. Qed.

Lemma listed_text u src pr ix toks o : indexed u src pr ix -> tokenize u src = Val (Some toks, []) -> listed ix o ->
  text_at src (o_span o) = o_name o.
Proof.
  intros H Ht Ho. pose proof (listed_token _ _ _ _ _ H Ho) as Hin. destruct H as [H _].
  apply parse_from_str_cases in H as [(errs & E & _)|(toks' & errs & E & Ep & _)]; [congruence|].
  rewrite Ep in Hin. assert (toks' = toks) as -> by congruence. apply tokenize_texts in Ht as [Ht _].
  pose proof (occ_token_name o) as Hn. destruct (occ_token o) as [t sp] eqn:Eo.
  assert (sp = o_span o) as -> by (unfold occ_token in Eo; congruence).
  eapply lexeme_name; [apply Ht; exact Hin|exact Hn].
Qed.
Lemma listed_text_errors u src pr ix o : indexed u src pr ix -> listed ix o ->
  exists g, text_at src (o_span o) = g ++ o_name o.
Proof.
  intros H Ho. pose proof (listed_token _ _ _ _ _ H Ho) as Hin. destruct H as [H _].
  apply parse_from_str_cases in H as [(errs & E & Ep & _)|(toks' & errs & E & Ep & _)]; [rewrite Ep in Hin; contradiction|].
  rewrite Ep in Hin. apply tokenize_lexes in E.
  pose proof (occ_token_name o) as Hn. destruct (occ_token o) as [t sp] eqn:Eo.
  assert (sp = o_span o) as -> by (unfold occ_token in Eo; congruence).
  destruct (lexes_texts_errors _ _ _ _ _ E [] eq_refl _ _ Hin) as (g & w & E1 & E2). exists g.
  cbn [app] in E1. rewrite E1. f_equal. eapply lexeme_name; [exact E2|exact Hn].
Qed.

(** ** Slices *)
Lemma drop_bytes_ascii : forall t b, ascii_text t = true -> b <= length t -> drop_bytes b t = Some (skipn b t).
Proof.
  induction t as [|c t IH]; intros [|b] Ha Hb; cbn in *; try reflexivity; try lia.
  apply andb_true_iff in Ha as [Hc Ha]. rewrite (utf8_len_ascii c Hc). cbn. rewrite Nat.sub_0_r. apply IH; [exact Ha|lia].
Qed.
Lemma take_bytes_ascii : forall t b, ascii_text t = true -> b <= length t -> take_bytes b t = Some (firstn b t).
Proof.
  induction t as [|c t IH]; intros [|b] Ha Hb; cbn in *; try reflexivity; try lia.
  apply andb_true_iff in Ha as [Hc Ha]. rewrite (utf8_len_ascii c Hc). cbn. rewrite Nat.sub_0_r, IH by (assumption || lia). reflexivity.
Qed.
Lemma ascii_skipn t p : ascii_text t = true -> ascii_text (skipn p t) = true.
Proof.
  revert p. induction t as [|c t IH]; intros [|p] H; cbn in *; try reflexivity; try exact H. apply andb_true_iff in H as [_ H]. auto.
Qed.
Lemma byte_slice_ascii src a b : ascii_text src = true -> a <= b -> b <= length src -> byte_slice src a b = Val (text_at src (mkSpan a b)).
Proof.
  intros Ha H1 H2. unfold byte_slice. assert (a <=? b = true) as -> by (apply Nat.leb_le; exact H1).
  rewrite drop_bytes_ascii by (assumption || lia). rewrite take_bytes_ascii; [reflexivity|apply ascii_skipn; exact Ha|].
  rewrite skipn_length. lia.
Qed.
Lemma value_range_bounds toks ss hi s n a b : spans_in 0 hi toks -> subseq (flat_map stmt_tokens ss) toks -> In s ss ->
  value_range s = Some (n, a, b) -> a <= b /\ b <= hi.
Proof.
  intros Hsp Hsub Hs Hv. destruct s; try discriminate. unfold value_range in Hv. destruct def as [|[t sp] r]; [discriminate|].
  assert (a = sp_start sp) as -> by congruence.
  assert (b = sp_end (snd (last ((t, sp) :: r) (t, sp)))) as -> by congruence. clear Hv.
  assert (subseq ((t, sp) :: r) toks) as Hd.
  { eapply subseq_trans; [|exact Hsub]. apply in_split in Hs as (l1 & l2 & ->). rewrite flat_map_app. apply subseq_app_l. cbn [flat_map].
    apply subseq_app_r. cbn [stmt_tokens]. apply sub_skip. apply subseq_refl. }
  pose proof (spans_in_sub _ _ Hd _ _ Hsp) as H.
  destruct (@exists_last _ ((t, sp) :: r)) as (q & x & E); [discriminate|].
  assert (last ((t, sp) :: r) (t, sp) = x) as ->.
  { unfold stoken in *. rewrite E. apply last_last. }
  unfold stoken in *. rewrite E in H. destruct q as [|y q].
  - cbn [app] in E. injection E as <- _. cbn in *. lia.
  - cbn [app] in E. injection E as <- _. cbn in H. destruct H as (H1 & H2 & H3). apply spans_in_app in H3 as (mid & H3 & H4).
    apply spans_in_le in H3. destruct x as [t1 sp1]. cbn in *. lia.
Qed.
Lemma ascii_sliceable u src pr : ascii_text src = true -> parse_from_str u src = Val pr ->
  Forall (fun s => ~ bad_slice src s) (pr_stmts pr).
Proof.
  intros Ha H. pose proof (provenance _ _ _ H) as Hsub. apply parse_from_str_module in H as [Hsp _].
  apply Forall_forall. intros s Hs Hb. unfold bad_slice in Hb. destruct (value_range s) as [[[n a] b]|] eqn:E; [|contradiction].
  destruct (value_range_bounds _ _ _ _ _ _ _ Hsp Hsub Hs E) as [H1 H2]. rewrite byte_slice_ascii in Hb by assumption. discriminate.
Qed.

(** ** The analysis *)
Lemma analyze_cases e uri src : exists pr, parse_from_str (e_u e) src = Val pr /\
  ((Exists (bad_slice src) (pr_stmts pr) /\ analyze e uri src = Panic) \/
   (Forall (fun s => ~ bad_slice src s) (pr_stmts pr) /\ exists d diags, analyze e uri src = Val (d, diags) /\
      doc_rope d = src /\ doc_stmts d = pr_stmts pr /\ indexed (e_u e) src pr (doc_index d))).
Proof.
  destruct (parse_from_str_total (e_u e) src) as (pr & E). exists pr. split; [exact E|].
  unfold analyze. rewrite E. cbn [rbind]. destruct (semantic_tokens_spec (pr_tokens pr)) as (hs & -> & _). cbn [rbind].
  pose proof (layout _ _ _ E) as (_ & Hr & _).
  destruct (create_index_ok src (pr_tokens pr) (pr_stmts pr) Hr) as [[H1 H2]|[H1 (ix & H2 & _)]]; rewrite H2; cbn [rbind]; [left; auto|].
  right. split; [exact H1|]. do 2 eexists. split; [reflexivity|]. cbn. split; [reflexivity|]. split; [reflexivity|]. split; assumption.
Qed.
Lemma analyze_ascii e uri src : ascii_text src = true -> exists d diags, analyze e uri src = Val (d, diags).
Proof.
  intros Ha. destruct (analyze_cases e uri src) as (pr & E & [[H _]|[_ (d & diags & H & _)]]); [|eauto].
  exfalso. apply (ascii_sliceable _ _ _ Ha) in E. apply Exists_exists in H as (s & Hs & H). rewrite Forall_forall in E. exact (E s Hs H).
Qed.
Lemma analyze_panics e uri src : analyze e uri src = Panic <->
  exists pr, parse_from_str (e_u e) src = Val pr /\ Exists (bad_slice src) (pr_stmts pr).
Proof.
  destruct (analyze_cases e uri src) as (pr & E & H). split.
  - intros Hp. exists pr. split; [exact E|]. destruct H as [[H _]|[_ (d & diags & H & _)]]; [exact H|congruence].
  - intros (pr' & E' & Hx). assert (pr' = pr) as -> by congruence. destruct H as [[_ H]|[H _]]; [exact H|].
    exfalso. apply Exists_exists in Hx as (s & Hs & Hb). rewrite Forall_forall in H. exact (H s Hs Hb).
Qed.
