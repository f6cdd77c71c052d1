(** Folding ranges. *)
From Verif Require Import Text Rope Chumsky Tokenizer Parser Numbers Index SemTok Diag Rename Cfg Backtrace Server SpecText SpecLex SpecParse SpecIndex SpecDiag SpecBacktrace SpecCfg SpecView
  PText PRope PLexSpec PLexProps PTokens PGram PParse PSound PParseProps PIndex PIndexDoc PIndexText PDiag PDiagDoc PCfg PHints PView.

(** ** Newlines between parts *)
Definition nlb (toks : list stoken) (p q : nat) : Prop :=
  exists sp, In (TNewline, sp) toks /\ p <= sp_start sp /\ sp_end sp <= q.
Lemma nlb_weaken toks toks' p q p' q' : nlb toks p q -> (forall t, In t toks -> In t toks') -> p' <= p -> q <= q' -> nlb toks' p' q'.
Proof. intros (sp & H & H1 & H2) Hs Hp Hq. exists sp. split; [apply Hs; exact H|lia]. Qed.
Lemma newlines_nlb nls lo hi : newlines nls -> nls <> [] -> spans_in lo hi nls -> nlb nls lo hi.
Proof.
  intros H Hn Hs. destruct nls as [|[t sp] nls]; [congruence|]. inversion H as [|? ? H1 H2]; subst. cbn in H1. subst t.
  cbn in Hs. destruct Hs as (S1 & S2 & S3). apply spans_in_le in S3. exists sp. split; [left; reflexivity|lia].
Qed.
Lemma body_nonempty f m refs body : body_seg f m refs body -> body <> [].
Proof. intros H. destruct H; discriminate. Qed.
Lemma instr_nonempty ok i n seg : instr_seg ok i n seg -> seg <> [].
Proof.
  intros (f & tgt & body & _ & Hb & -> & _). apply body_nonempty in Hb. destruct body; [congruence|]. destruct tgt; discriminate.
Qed.
Lemma last_end_cons i l d : last_end_of (i :: l) d = match l with [] => sp_end (i_span i) | _ => last_end_of l d end.
Proof.
  destruct l as [|j l]; [reflexivity|]. unfold last_end_of. change (rev (i :: j :: l)) with (rev (j :: l) ++ [i]).
  destruct (rev (j :: l)) as [|k r] eqn:E; [|reflexivity]. apply (f_equal (@length _)) in E. rewrite rev_length in E. discriminate.
Qed.
Lemma instrs_nlb ok l n seg : instrs_seg ok l n seg -> forall d lo hi, l <> [] -> spans_in lo hi seg -> nlb seg (last_end_of l d) hi.
Proof.
  induction 1 as [|i l n m pre seg post rest Hpre Hi Hpost Hne Hl IH]; intros d lo hi H Hs; [congruence|].
  apply spans_in_app in Hs as (m1 & _ & Hs). apply spans_in_app in Hs as (m2 & S1 & Hs). apply spans_in_app in Hs as (m3 & S2 & S3).
  rewrite last_end_cons. destruct l as [|j l].
  - pose proof (instr_nonempty _ _ _ _ Hi) as Hn. destruct Hi as (f & tgt & body & Ht & Hb & E & Esp & Hr). rewrite Esp.
    pose proof (cover_bounds seg Hn _ _ S1) as (B1 & B2 & B3). apply spans_in_le in S3.
    eapply nlb_weaken; [exact (newlines_nlb _ _ _ Hpost Hne S2)| |exact B3|exact S3].
    intros t Ht'. rewrite !in_app_iff. tauto.
  - eapply nlb_weaken; [apply (IH d m3 hi); [discriminate|exact S3]| |apply le_n|apply le_n]. intros t Ht. rewrite !in_app_iff. tauto.
Qed.
Lemma block_nlb b n seg lo hi : block_seg any_form b n seg -> spans_in lo hi seg ->
  nlb seg (sp_end (bb_span b)) hi /\ lo <= sp_start (bb_span b).
Proof.
  intros (label & comma & nls & rest & _ & _ & Hn & Hne & Hi & -> & ->) Hs. cbn [spans_in tident tp sp_start sp_end] in *.
  destruct Hs as (S1 & S2 & S3 & S4 & Hs). apply spans_in_app in Hs as (m & S5 & S6). split; [|exact S1].
  destruct (bb_instrs b) as [|i l] eqn:E.
  - cbn [last_end_of rev]. eapply nlb_weaken; [exact (newlines_nlb _ _ _ Hn Hne S5)| |lia|exact (spans_in_le _ _ _ S6)].
    intros t Ht. right. right. apply in_or_app. auto.
  - eapply nlb_weaken; [eapply (instrs_nlb _ _ _ _ Hi _ _ _ ltac:(discriminate) S6)| |apply le_n|apply le_n].
    intros t Ht. right. right. apply in_or_app. auto.
Qed.
Definition apart (toks : list stoken) (a b : span) : Prop := nlb toks (sp_end a) (sp_start b).
Lemma sorted_incl {A} (R R' : A -> A -> Prop) l : (forall a b, R a b -> R' a b) -> StronglySorted R l -> StronglySorted R' l.
Proof. intros H. induction 1 as [|a l _ IH HF]; constructor; [exact IH|]. eapply Forall_impl; [|exact HF]. auto. Qed.
Lemma blocks_apart l n seg : blocks_seg any_form l n seg -> forall lo hi, spans_in lo hi seg ->
  StronglySorted (apart seg) (map bb_span l) /\ Forall (fun b => lo <= sp_start b /\ nlb seg (sp_end b) hi) (map bb_span l).
Proof.
  induction 1 as [|b l n m seg rest Hb _ IH]; intros lo hi Hs; [split; constructor|].
  apply spans_in_app in Hs as (mid & S1 & S2). destruct (block_nlb _ _ _ _ _ Hb S1) as [H1 H2]. destruct (IH _ _ S2) as [I1 I2].
  cbn [map]. assert (forall t, In t seg -> In t (seg ++ rest)) as Hin1 by (intros; apply in_or_app; auto).
  assert (forall t, In t rest -> In t (seg ++ rest)) as Hin2 by (intros; apply in_or_app; auto). pose proof (spans_in_le _ _ _ S2). pose proof (spans_in_le _ _ _ S1). split.
  - constructor.
    + eapply sorted_incl; [|exact I1]. intros x y Hx. eapply nlb_weaken; [exact Hx|exact Hin2|lia|lia].
    + eapply Forall_impl; [|exact I2]. intros x [Hx _]. eapply nlb_weaken; [exact H1|exact Hin1|lia|exact Hx].
  - constructor; [split; [exact H2|eapply nlb_weaken; [exact H1|exact Hin1|lia|lia]]|].
    eapply Forall_impl; [|exact I2]. intros x [Hx Hy]. split; [lia|eapply nlb_weaken; [exact Hy|exact Hin2|lia|lia]].
Qed.
Lemma fbody_apart b n seg lo hi : fbody_seg any_form b n seg -> spans_in lo hi seg ->
  StronglySorted (apart seg) (map bb_span (fb_blocks b)) /\
  Forall (fun x => nlb seg lo (sp_start x) /\ nlb seg (sp_end x) (sp_end (fb_close b))) (map bb_span (fb_blocks b)).
Proof.
  intros (nls & o & n1 & s1 & bbs & n2 & s2 & Hn & Hne & Ho & Hb & E & _ & ->) Hs. cbn [spans_in tp] in Hs. destruct Hs as (S0 & S1 & Hs).
  apply spans_in_app in Hs as (m1 & T1 & Hs). apply spans_in_app in Hs as (m2 & T2 & Hs). apply spans_in_app in Hs as (m3 & T3 & T4).
  cbn in T4. destruct T4 as (T5 & T6 & T7). pose proof (spans_in_le _ _ _ T1). pose proof (spans_in_le _ _ _ T2). pose proof (spans_in_le _ _ _ T3).
  set (seg := tp (ch "{") (fb_open b) :: nls ++ s1 ++ s2 ++ [tp (ch "}") (fb_close b)]).
  assert (forall t, In t nls -> In t seg) as Hin0 by (intros; right; rewrite !in_app_iff; auto).
  assert (forall t, In t s1 -> In t seg) as Hin1 by (intros; right; rewrite !in_app_iff; auto).
  assert (forall t, In t s2 -> In t seg) as Hin2 by (intros; right; rewrite !in_app_iff; auto).
  pose proof (newlines_nlb _ _ _ Hn Hne T1) as Hnl. destruct (blocks_apart _ _ _ Hb _ _ T3) as [B1 B2].
  assert (StronglySorted (apart seg) (map bb_span bbs)) as B1' by (eapply sorted_incl; [|exact B1]; intros x y Hx; eapply nlb_weaken; [exact Hx|exact Hin2|lia|lia]).
  assert (Forall (fun x => nlb seg lo (sp_start x) /\ nlb seg (sp_end x) (sp_end (fb_close b))) (map bb_span bbs)) as B2'.
  { eapply Forall_impl; [|exact B2]. intros x [Hx Hy]. split; [eapply nlb_weaken; [exact Hnl|exact Hin0|lia|lia]|eapply nlb_weaken; [exact Hy|exact Hin2|lia|lia]]. }
  rewrite E. destruct o as [b0|]; [|split; assumption]. destruct Ho as (_ & _ & Hi & i & r & Ei & Esp).
  assert (nlb s1 (sp_end (bb_span b0)) m2) as F1.
  { rewrite Esp. cbn [sp_end]. eapply instrs_nlb; [exact Hi|rewrite Ei; discriminate|exact T2]. }
  assert (m1 <= sp_start (bb_span b0)) as F2.
  { rewrite Esp. cbn [sp_start]. rewrite Ei in Hi. inversion Hi as [|? ? ? ? pre seg' post rest Hp Hse Hpo Hpn Hr]; subst. apply spans_in_app in T2 as (k1 & U1 & U2). apply spans_in_app in U2 as (k2 & U2 & U3).
    pose proof (instr_nonempty _ _ _ _ Hse) as Hn'. destruct Hse as (f & tgt & body & _ & _ & _ & Ec & _). rewrite Ec.
    pose proof (cover_bounds _ Hn' _ _ U2) as (C1 & _). apply spans_in_le in U1. lia. }
  cbn [map]. split.
  - constructor; [exact B1'|]. eapply Forall_impl; [|exact B2]. intros x [Hx _]. eapply nlb_weaken; [exact F1|exact Hin1|lia|lia].
  - constructor; [|exact B2']. split; [eapply nlb_weaken; [exact Hnl|exact Hin0|lia|lia]|eapply nlb_weaken; [exact F1|exact Hin1|lia|lia]].
Qed.
(** a function is written on lines of its own *)
Definition func_layout (toks : list stoken) (s : statement) : Prop :=
  match s with
  | SFuncDef kw sig body =>
      StronglySorted (apart toks) (map bb_span (fb_blocks body)) /\
      Forall (fun x => nlb toks (sp_start kw) (sp_start x) /\ nlb toks (sp_end x) (sp_end (fb_close body))) (map bb_span (fb_blocks body))
  | _ => True
  end.
Lemma stmt_nonempty ok s n seg rest : stmt_seg ok s n seg rest -> seg <> [].
Proof. intros H. destruct H; discriminate. Qed.
Lemma module_empty ok ss n : module_seg ok ss n [] -> ss = [].
Proof.
  intros H. inversion H as [|? ? ? ? pre seg post rest _ _ Hs _ E|? ? ? ? ? ? pre seg post rest Hg _ _ Hs _ E]; [reflexivity| |];
    apply stmt_nonempty in Hs; destruct seg; try congruence; destruct pre; try destruct g; discriminate.
Qed.
Lemma func_layout_weaken toks toks' s : func_layout toks s -> (forall t, In t toks -> In t toks') -> func_layout toks' s.
Proof.
  destruct s; try (intros; exact I). intros [H1 H2] Hs. split.
  - eapply sorted_incl; [|exact H1]. intros x y Hx. eapply nlb_weaken; [exact Hx|exact Hs|lia|lia].
  - eapply Forall_impl; [|exact H2]. intros x [Hx Hy]. split; [eapply nlb_weaken; [exact Hx|exact Hs|lia|lia]|eapply nlb_weaken; [exact Hy|exact Hs|lia|lia]].
Qed.
Lemma stmt_apart s n seg rest lo hi : stmt_seg any_form s n seg rest -> spans_in lo hi seg ->
  func_layout seg s /\ (rest = [] \/ Forall (fun f => nlb seg (sp_end f) hi) (func_ranges s)).
Proof.
  intros H Hs. inversion H; subst; try (split; [exact I|right; constructor]). cbn [func_layout func_ranges].
  cbn in Hs. destruct Hs as (K1 & K2 & Hs). apply spans_in_app in Hs as (m1 & Hs1 & Hs). apply spans_in_app in Hs as (m2 & Hs2 & Hs3).
  assert (forall t, In t bseg -> In t ((TDefine, kw) :: sseg ++ bseg ++ e)) as Hin by (intros; right; rewrite !in_app_iff; auto).
  destruct (fbody_apart _ _ _ _ _ H1 Hs2) as [B1 B2]. pose proof (spans_in_le _ _ _ Hs1). split.
  - split; [eapply sorted_incl; [|exact B1]; intros x y Hx; eapply nlb_weaken; [exact Hx|exact Hin|lia|lia]|].
    eapply Forall_impl; [|exact B2]. intros x [Hx Hy]. split; [eapply nlb_weaken; [exact Hx|exact Hin|lia|lia]|eapply nlb_weaken; [exact Hy|exact Hin|lia|lia]].
  - destruct H2 as [[sp ->]|[_ ->]]; [right|auto]. constructor; [|constructor]. cbn [sp_end].
    destruct H1 as (nls & o & n1 & s1 & bbs & n2 & s2 & _ & _ & _ & _ & _ & _ & ->).
    assert (sp_end (fb_close body) <= m2) as Hc.
    { cbn [spans_in tp] in Hs2. destruct Hs2 as (_ & _ & Hs2). rewrite !app_assoc in Hs2. apply spans_in_app in Hs2 as (k & _ & Hs2).
      cbn in Hs2. destruct Hs2 as (_ & _ & Hs2). exact Hs2. }
    cbn in Hs3. destruct Hs3 as (U1 & U2 & U3). exists sp. split; [right; apply in_or_app; right; apply in_or_app; right; left; reflexivity|lia].
Qed.
Lemma module_apart ss n toks : module_seg any_form ss n toks -> forall lo hi, spans_in lo hi toks ->
  StronglySorted (apart toks) (flat_map func_ranges ss) /\ Forall (func_layout toks) ss /\ Forall (fun f => lo <= sp_start f) (flat_map func_ranges ss).
Proof.
  assert (Hone : forall s n ss m pre seg post rest lo hi, stmt_seg any_form s n seg (post ++ rest) -> module_seg any_form ss m rest ->
    (forall lo hi, spans_in lo hi rest ->
      StronglySorted (apart rest) (flat_map func_ranges ss) /\ Forall (func_layout rest) ss /\ Forall (fun f => lo <= sp_start f) (flat_map func_ranges ss)) ->
    spans_in lo hi (pre ++ seg ++ post ++ rest) ->
    StronglySorted (apart (pre ++ seg ++ post ++ rest)) (flat_map func_ranges (s :: ss)) /\ Forall (func_layout (pre ++ seg ++ post ++ rest)) (s :: ss) /\
    Forall (fun f => lo <= sp_start f) (flat_map func_ranges (s :: ss))).
  { clear. intros s n ss m pre seg post rest lo hi Hst Hm IH Hs. apply spans_in_app in Hs as (m1 & S0 & Hs). apply spans_in_app in Hs as (m2 & S1 & Hs). apply spans_in_app in Hs as (m3 & S2 & S3).
    destruct (IH _ _ S3) as (I1 & I2 & I3). destruct (stmt_apart _ _ _ _ _ _ Hst S1) as [L1 L2].
    pose proof (spans_in_le _ _ _ S0). pose proof (spans_in_le _ _ _ S1). pose proof (spans_in_le _ _ _ S2).
    assert (forall t, In t seg -> In t (pre ++ seg ++ post ++ rest)) as Hin1 by (intros; rewrite !in_app_iff; auto).
    assert (forall t, In t rest -> In t (pre ++ seg ++ post ++ rest)) as Hin2 by (intros; rewrite !in_app_iff; auto).
    assert (Forall (fun f => m1 <= sp_start f) (func_ranges s)) as Hge.
    { destruct (stmt_core _ _ _ _ _ _ Hst S1) as [_ HT]. pose proof (in_order_inside _ _ _ _ HT S1) as HF. eapply Forall_impl; [|exact HF]. cbn. intros x Hx. lia. }
    split; [|split].
    - cbn [flat_map]. assert (StronglySorted (apart (pre ++ seg ++ post ++ rest)) (flat_map func_ranges ss)) as I1'
        by (eapply sorted_incl; [|exact I1]; intros x y Hx; eapply nlb_weaken; [exact Hx|exact Hin2|lia|lia]).
      destruct s as [| | kw sig body | |]; cbn [func_ranges app] in *; try exact I1'. constructor; [exact I1'|].
      destruct L2 as [L2|L2].
      + apply app_eq_nil in L2 as [_ ->]. apply module_empty in Hm as ->. constructor.
      + inversion L2 as [|? ? L3 _]; subst. eapply Forall_impl; [|exact I3]. cbn beta. intros x Hx. eapply nlb_weaken; [exact L3|exact Hin1|lia|lia].
    - constructor; [eapply func_layout_weaken; [exact L1|exact Hin1]|]. eapply Forall_impl; [|exact I2]. intros x Hx. eapply func_layout_weaken; [exact Hx|exact Hin2].
    - cbn [flat_map]. apply Forall_app. split; [eapply Forall_impl; [|exact Hge]; cbn; intros x Hx; lia|]. eapply Forall_impl; [|exact I3]. cbn. intros x Hx. lia. }
  induction 1 as [|s n ss m pre seg post rest _ _ Hs Hm IH|g k s n ss m pre seg post rest _ _ _ Hs Hm IH]; intros lo hi H.
  - split; [constructor|]. split; constructor.
  - eapply Hone; eassumption.
  - apply spans_in_app in H as (m0 & H0 & H). destruct (Hone _ _ _ _ _ _ _ _ _ _ Hs Hm IH H) as (G1 & G2 & G3). pose proof (spans_in_le _ _ _ H0).
    assert (forall t, In t (pre ++ seg ++ post ++ rest) -> In t (g ++ pre ++ seg ++ post ++ rest)) as Hin by (intros; apply in_or_app; auto).
    split; [eapply sorted_incl; [|exact G1]; intros x y Hx; eapply nlb_weaken; [exact Hx|exact Hin|lia|lia]|].
    split; [eapply Forall_impl; [|exact G2]; intros x Hx; eapply func_layout_weaken; [exact Hx|exact Hin]|]. eapply Forall_impl; [|exact G3]. cbn. intros x Hx. lia.
Qed.
Lemma document_apart u src pr : parse_from_str u src = Val pr ->
  StronglySorted (apart (pr_tokens pr)) (flat_map func_ranges (pr_stmts pr)) /\ Forall (func_layout (pr_tokens pr)) (pr_stmts pr).
Proof.
  intros H. apply parse_from_str_module in H as [Hs [E|[n Hm]]].
  - rewrite E. split; constructor.
  - assert (spans_in 0 (length src) (filter not_comment (pr_tokens pr))) as Hs' by (eapply spans_in_sub; [apply subseq_filter|exact Hs]).
    destruct (module_apart _ _ _ Hm _ _ Hs') as (G1 & G2 & _).
    assert (forall t, In t (filter not_comment (pr_tokens pr)) -> In t (pr_tokens pr)) as Hin by (intros t Ht; apply filter_In in Ht; tauto).
    split; [eapply sorted_incl; [|exact G1]; intros x y Hx; eapply nlb_weaken; [exact Hx|exact Hin|lia|lia]|].
    eapply Forall_impl; [|exact G2]. intros x Hx. eapply func_layout_weaken; [exact Hx|exact Hin].
Qed.

(** ** Lines *)
Lemma scan_ge t : forall p l c, l <= p_line (lsp_scan t p l c).
Proof.
  induction t as [|a t IH]; intros [|p] l c; cbn [lsp_scan p_line]; try apply le_n. destruct (lsp_eol a t); [|apply IH].
  specialize (IH p (S l) 0). lia.
Qed.
Lemma scan_step t : forall p q p' l c, nth_error t q = Some LF -> p <= q -> q < p' -> p_line (lsp_scan t p l c) < p_line (lsp_scan t p' l c).
Proof.
  induction t as [|a t IH]; intros p q p' l c Hn H1 H2; [destruct q; discriminate|]. destruct p' as [|p']; [lia|]. cbn [lsp_scan].
  destruct q as [|q].
  - assert (p = 0) as -> by lia. cbn in Hn. injection Hn as ->. cbn [p_line]. change (lsp_eol LF t) with true. cbn iota. pose proof (scan_ge t p' (S l) 0). lia.
  - destruct p as [|p].
    + cbn [p_line]. cbn in Hn. destruct (lsp_eol a t).
      * pose proof (scan_ge t p' (S l) 0). lia.
      * pose proof (IH 0 q p' l (c + utf16_len a) Hn ltac:(lia) ltac:(lia)) as G. destruct t; cbn [lsp_scan p_line] in G |- *; exact G.
    + cbn in Hn. destruct (lsp_eol a t); apply (IH p q p'); try assumption; lia.
Qed.
Lemma nth_firstn {A} (l : list A) : forall n k, k < n -> nth_error (firstn n l) k = nth_error l k.
Proof. induction l as [|a l IH]; intros [|n] k H; try lia; [destruct k; reflexivity|]. destruct k as [|k]; [reflexivity|]. cbn. apply IH. lia. Qed.
Lemma nth_skipn {A} (l : list A) : forall n k, nth_error (skipn n l) k = nth_error l (n + k).
Proof. induction l as [|a l IH]; intros [|n] k; cbn; try reflexivity; [destruct k; reflexivity|]. apply IH. Qed.
Lemma Forall2_map_l {A B C} (f : A -> B) (R : B -> C -> Prop) l : forall m, Forall2 R (map f l) m <-> Forall2 (fun a c => R (f a) c) l m.
Proof.
  induction l as [|a l IH]; intros m; split; intros H; inversion H; subst; constructor; try assumption; apply IH; assumption.
Qed.
Lemma newline_lf u src pr sp : parse_from_str u src = Val pr -> In (TNewline, sp) (pr_tokens pr) ->
  exists q, nth_error src q = Some LF /\ sp_start sp <= q < sp_end sp.
Proof.
  intros H Hin. pose proof (parse_from_str_module _ _ _ H) as [Hsp _]. pose proof (spans_in_each _ _ _ _ Hsp Hin) as (B1 & B2 & B3). cbn [snd] in *.
  apply parse_from_str_cases in H as [(errs & E & Ep & _)|(toks' & errs & E & Ep & _)]; [rewrite Ep in Hin; contradiction|].
  rewrite Ep in Hin. apply tokenize_lexes in E. destruct (lexes_texts_errors _ _ _ _ _ E [] eq_refl _ _ Hin) as (g & w & E1 & E2). cbn [app] in E1.
  assert (exists w', w = w' ++ [LF]) as [w' ->].
  { inversion E2 as [| | | | |? ? ? ? ? Hw| | | |? Hw]; subst.
    - destruct Hw as [Hw|[_ Hw]]; [|discriminate]. unfold reserved in Hw. cbn [In] in Hw. repeat (destruct Hw as [Hw|Hw]; [discriminate (f_equal snd Hw)|]). contradiction.
    - destruct Hw as [->| ->]; [exists []; reflexivity|exists [CR]; reflexivity]. }
  unfold text_at in E1. rewrite app_assoc in E1. exists (sp_start sp + length (g ++ w')).
  assert (length (g ++ w') < sp_end sp - sp_start sp) as Hl.
  { apply (f_equal (@length _)) in E1. rewrite firstn_length, (app_length (g ++ w')) in E1. cbn [length] in E1. lia. }
  assert (nth_error (firstn (sp_end sp - sp_start sp) (skipn (sp_start sp) src)) (length (g ++ w')) = Some LF) as Hn.
  { rewrite E1, nth_error_app2, Nat.sub_diag by apply le_n. reflexivity. }
  split; [|lia]. rewrite nth_firstn in Hn by exact Hl. rewrite nth_skipn in Hn. exact Hn.
Qed.
Lemma nlb_lines u src pr p q : parse_from_str u src = Val pr -> nlb (pr_tokens pr) p q ->
  p_line (lsp_position src p) < p_line (lsp_position src q).
Proof.
  intros H (sp & Hin & H1 & H2). destruct (newline_lf _ _ _ _ H Hin) as (k & Hk & H3). unfold lsp_position. apply (scan_step src p k q); [exact Hk|lia|lia].
Qed.
Lemma nlb_le u src pr p q : parse_from_str u src = Val pr -> nlb (pr_tokens pr) p q -> p <= q.
Proof. intros H (sp & Hin & H1 & H2). destruct (newline_lf _ _ _ _ H Hin) as (k & Hk & H3). lia. Qed.

(** ** The ranges *)
Definition fold_at (src : text) (sp : span) (x : folding) : Prop :=
  exists r, range_to_lsp src sp = Some r /\ fo_start x = p_line (r_start r) /\ fo_end x = p_line (r_end r).
Lemma fold_forall2 {A} src (g : A -> span) (txt : A -> text) l : (forall a, In a l -> exists r, range_to_lsp src (g a) = Some r) ->
  Forall2 (fold_at src) (map g l) (filter_map (fun a => obind (range_to_lsp src (g a)) (fun r => Some (mkFold (p_line (r_start r)) (p_line (r_end r)) (txt a)))) l).
Proof.
  induction l as [|a l IH]; intros H; [constructor|]. cbn [map filter_map]. destruct (H a (or_introl eq_refl)) as [r Hr].
  specialize (IH (fun b Hb => H b (or_intror Hb))). rewrite Hr. cbn [obind]. constructor; [exists r; auto|exact IH].
Qed.
Lemma forall2_sorted {A B} (R : A -> B -> Prop) (P : A -> A -> Prop) (Q : B -> B -> Prop) l m : Forall2 R l m -> StronglySorted P l ->
  (forall a b x y, R a x -> R b y -> P a b -> Q x y) -> StronglySorted Q m.
Proof.
  intros HF HS H. revert HS. induction HF as [|a x l m Hax HF IH]; intros HS; [constructor|]. inversion HS as [|? ? HS1 HS2]; subst.
  constructor; [apply IH; exact HS1|]. clear - Hax HF HS2 H. induction HF as [|b y l m Hby HF IH]; [constructor|]. inversion HS2; subst.
  constructor; [eapply H; eassumption|apply IH; assumption].
Qed.
Lemma filter_map_flat {A B C} (f : B -> option C) (g : A -> list B) l : filter_map f (flat_map g l) = concat (map (fun a => filter_map f (g a)) l).
Proof. induction l as [|a l IH]; [reflexivity|]. cbn [flat_map map concat]. rewrite filter_map_app, IH. reflexivity. Qed.

Definition defs3 (ss : list statement) : list (span * (func_sig * func_body)) :=
  flat_map (fun s => match s with SFuncDef kw sig body => [(kw, (sig, body))] | _ => [] end) ss.
Definition range3 (d : span * (func_sig * func_body)) : span := mkSpan (sp_start (fst d)) (sp_end (fb_close (snd (snd d)))).
Definition blocks3 (d : span * (func_sig * func_body)) : list span := map bb_span (fb_blocks (snd (snd d))).
Lemma ranges3 ss : flat_map func_ranges ss = map range3 (defs3 ss).
Proof. induction ss as [|s ss IH]; [reflexivity|]. change (defs3 (s :: ss)) with (match s with SFuncDef kw sig body => [(kw, (sig, body))] | _ => [] end ++ defs3 ss). cbn [flat_map]. rewrite map_app, <- IH. destruct s; reflexivity. Qed.
Lemma blocks3_eq ss : block_spans ss = map blocks3 (defs3 ss).
Proof. unfold block_spans. induction ss as [|s ss IH]; [reflexivity|]. change (defs3 (s :: ss)) with (match s with SFuncDef kw sig body => [(kw, (sig, body))] | _ => [] end ++ defs3 ss). rewrite map_app, <- IH. destruct s; reflexivity. Qed.
Lemma in_defs3 ss d : In d (defs3 ss) -> In (SFuncDef (fst d) (fst (snd d)) (snd (snd d))) ss.
Proof. intros H. apply in_flat_map in H as (s & Hs & H). destruct s; try contradiction. destruct H as [<-|[]]. exact Hs. Qed.

Section Fold.
Variables (e : env) (s : server) (uri src : text) (d : doc) (pr : parser_result).
Hypothesis Hix : indexed (e_u e) src pr (doc_index d).
Hypothesis Hrope : doc_rope d = src.
Hypothesis Hget : get_doc s uri = Some d.
Hypothesis Hsmall : small src.

Lemma span_range sp : sp_start sp <= sp_end sp -> sp_end sp <= length src -> exists r, range_to_lsp src sp = Some r.
Proof.
  intros H1 H2. assert (length src <= byte_len src) as Hb by apply length_le_byte_len.
  unfold range_to_lsp. rewrite !offset_to_lsp_pos_eq by (assumption || lia). cbn. eauto.
Qed.
Lemma def3_bounds x : In x (defs3 (pr_stmts pr)) -> sp_start (range3 x) < sp_end (range3 x) /\ sp_end (range3 x) <= length src /\
  Forall (fun b => sp_start (range3 x) <= sp_start b /\ sp_start b < sp_end b /\ sp_end b <= sp_end (range3 x)) (blocks3 x).
Proof.
  intros H. apply in_defs3 in H as Hs. destruct x as [kw [sig body]]. cbn [fst snd] in *. destruct Hix as [Hp _].
  pose proof (layout _ _ _ Hp) as (W & _ & _). rewrite Forall_forall in W. pose proof (W _ Hs) as [W1 _].
  assert (sp_end (fb_close body) <= length src) as Hc.
  { pose proof (tree_token_in _ _ _ _ (tp (ch "}") (fb_close body)) Hp Hs) as Ht. 
    assert (In (tp (ch "}") (fb_close body)) (pr_tokens pr)) as Hin by (apply Ht; unfold stmt_tokens; right; apply in_or_app; right; apply in_or_app; right; apply in_or_app; right; left; reflexivity).
    apply (token_range _ _ _ _ Hix) in Hin. cbn in Hin. tauto. }
  cbn [range3 blocks3 fst snd sp_start sp_end]. 
  cbn [app] in W1. inversion W1 as [|? ? ? _ K1 K2]; subst. inversion K2 as [|? ? ? K3 K4 K5]; subst. inversion K5 as [|? ? ? K6 K7 K8]; subst.
  assert (forall l n, ranges_in_order n (l ++ [fb_close body]) -> n <= sp_end (fb_close body) /\ n < sp_end (fb_close body) /\
    Forall (fun b => n <= sp_start b /\ sp_start b < sp_end b /\ sp_end b <= sp_end (fb_close body)) l) as Hl.
  { induction l as [|b l IH]; intros n Hr; inversion Hr as [|? ? ? R1 R2 R3]; subst.
    - split; [lia|]. split; [lia|constructor].
    - destruct (IH _ R3) as (I1 & I2 & I3). split; [lia|]. split; [lia|]. constructor; [lia|]. eapply Forall_impl; [|exact I3]. cbn. intros x Hx. lia. }
  destruct (Hl _ _ K8) as (L1 & L2 & L3). split; [lia|]. split; [exact Hc|]. eapply Forall_impl; [|exact L3]. cbn. intros x Hx. lia.
Qed.
Lemma folding_eq : exists fs bss, folding_range s uri = Some (fs ++ concat bss) /\
  Forall2 (fun x f => fold_at src (range3 x) f) (defs3 (pr_stmts pr)) fs /\ Forall2 (fun x bs => Forall2 (fold_at src) (blocks3 x) bs) (defs3 (pr_stmts pr)) bss.
Proof.
  unfold folding_range. rewrite Hget. cbn [obind]. rewrite Hrope, filter_map_flat. eexists _, _. split; [reflexivity|].
  destruct (indexed_ok _ _ _ _ Hix) as (Ho & _). pose proof (io_ranges _ _ _ _ Ho) as Hr. pose proof (io_blocks _ _ _ _ Ho) as Hb.
  assert (map (fun fb => map bb_span (basic_blocks fb)) (function_bodies (doc_index d)) = map blocks3 (defs3 (pr_stmts pr))) as Hb'.
  { rewrite <- blocks3_eq. unfold block_spans. rewrite <- (map_map basic_blocks (map bb_span)), Hb. unfold function_defs. clear. 
    induction (pr_stmts pr) as [|x ss IH]; [reflexivity|]. cbn [flat_map]. rewrite !map_app, IH. destruct x; reflexivity. }
  rewrite ranges3 in Hr.
  assert (forall x, In x (defs3 (pr_stmts pr)) -> (exists r, range_to_lsp src (range3 x) = Some r) /\ forall b, In b (blocks3 x) -> exists r, range_to_lsp src b = Some r) as Hall.
  { intros x Hx. destruct (def3_bounds _ Hx) as (B1 & B2 & B3). split; [apply span_range; lia|]. intros b Hbb. rewrite Forall_forall in B3. apply B3 in Hbb. apply span_range; lia. }
  split.
  - apply (proj1 (Forall2_map_l range3 (fold_at src) _ _)). rewrite <- Hr. apply (fold_forall2 src complete_range (fun f => render_N (N.of_nat (length (labels f))) ++ str " basic blocks")).
    intros fb Hfb. assert (In (complete_range fb) (map range3 (defs3 (pr_stmts pr)))) as Hi by (rewrite <- Hr; apply in_map; exact Hfb).
    apply in_map_iff in Hi as (x & <- & Hx). apply Hall. exact Hx.
  - assert (Forall2 (fun l bs => Forall2 (fold_at src) l bs) (map blocks3 (defs3 (pr_stmts pr)))
      (map (fun fb => filter_map (fun bb => obind (range_to_lsp src (bb_span bb)) (fun r => Some (mkFold (p_line (r_start r)) (p_line (r_end r)) (render_N (N.of_nat (length (bb_instrs bb))) ++ str " instructions")))) (basic_blocks fb)) (function_bodies (doc_index d)))) as G.
    2:{ apply (proj1 (Forall2_map_l blocks3 (fun l bs => Forall2 (fold_at src) l bs) _ _)) in G. exact G. }
    rewrite <- Hb'. assert (forall fb bb, In fb (function_bodies (doc_index d)) -> In bb (basic_blocks fb) -> exists r, range_to_lsp src (bb_span bb) = Some r) as Hbb.
    { intros fb bb Hfb Hbb. assert (In (map bb_span (basic_blocks fb)) (map blocks3 (defs3 (pr_stmts pr)))) as Hi by (rewrite <- Hb'; apply (in_map (fun fb => map bb_span (basic_blocks fb))); exact Hfb).
      apply in_map_iff in Hi as (x & Ex & Hx). apply (proj2 (Hall x Hx)). rewrite Ex. apply in_map. exact Hbb. }
    clear - Hbb. induction (function_bodies (doc_index d)) as [|fb l IH]; [constructor|]. cbn [map]. constructor.
    + apply (fold_forall2 src bb_span (fun bb => render_N (N.of_nat (length (bb_instrs bb))) ++ str " instructions")). intros bb Hb. eapply Hbb; [left; reflexivity|exact Hb].
    + apply IH. intros. eapply Hbb; [right; eassumption|assumption].
Qed.
End Fold.

Lemma fold_at_plain src sp x : plain_document src -> sp_start sp <= sp_end sp -> sp_end sp <= length src -> fold_at src sp x -> folds src sp x.
Proof.
  intros Hp H1 H2 (r & Hr & H3 & H4). rewrite plain_range in Hr by assumption. injection Hr as <-. split; assumption.
Qed.
Lemma folding_plain e s uri src d : plain_document src -> opened e s uri src d ->
  exists fs bss, folding_range s uri = Some (fs ++ concat bss) /\
    Forall2 (folds src) (flat_map func_ranges (doc_stmts d)) fs /\
    Forall2 (Forall2 (folds src)) (block_spans (doc_stmts d)) bss /\
    StronglySorted above fs /\
    Forall2 (fun f bs => fo_start f <= fo_end f /\ StronglySorted above bs /\
      Forall (fun b => fo_start f < fo_start b /\ fo_start b <= fo_end b /\ fo_end b < fo_end f) bs) fs bss.
Proof.
  intros Hsrc Ho. apply opened_indexed in Ho as (pr & Hix & Hrope & -> & Hg).
  destruct (folding_eq e s uri src d pr Hix Hrope Hg (proj2 (proj2 Hsrc))) as (fs & bss & E & HF & HB). exists fs, bss. split; [exact E|].
  rewrite ranges3, blocks3_eq, !Forall2_map_l. destruct Hix as [Hp Hc]. pose proof (conj Hp Hc : indexed _ _ _ _) as Hix. destruct (document_apart _ _ _ Hp) as [A1 A2]. rewrite ranges3 in A1.
  pose proof (def3_bounds e src d pr Hix Hrope (proj2 (proj2 Hsrc))) as Hb.
  assert (Forall2 (fun x f => folds src (range3 x) f) (defs3 (pr_stmts pr)) fs) as HF'.
  { revert Hb. clear - HF Hsrc. induction HF as [|x f l m H HF IH]; intros Hb; constructor.
    - destruct (Hb x (or_introl eq_refl)) as (B1 & B2 & _). apply fold_at_plain; [exact Hsrc|lia|lia|exact H].
    - apply IH. intros. apply Hb. right. assumption. }
  assert (Forall2 (fun x bs => Forall2 (folds src) (blocks3 x) bs) (defs3 (pr_stmts pr)) bss) as HB'.
  { revert Hb. clear - HB Hsrc. induction HB as [|x f l m H HB IH]; intros Hb; constructor.
    - destruct (Hb x (or_introl eq_refl)) as (B1 & B2 & B3). revert B3. induction H as [|b y bl ym Hy H' IH']; intros B3; constructor; inversion B3; subst.
      + apply fold_at_plain; [exact Hsrc|lia|lia|exact Hy].
      + apply IH'. assumption.
    - apply IH. intros. apply Hb. right. assumption. }
  split; [exact HF'|]. split; [exact HB'|]. split.
  - eapply (forall2_sorted (folds src)); [exact (proj2 (Forall2_map_l range3 (folds src) (defs3 (pr_stmts pr)) fs) HF')|exact A1|]. intros a b x y [_ Hx] [Hy _] Hab. unfold above. rewrite Hx, Hy. eapply nlb_lines; eassumption.
  - assert (forall x, In x (defs3 (pr_stmts pr)) -> StronglySorted (apart (pr_tokens pr)) (blocks3 x) /\
      Forall (fun b => nlb (pr_tokens pr) (sp_start (range3 x)) (sp_start b) /\ nlb (pr_tokens pr) (sp_end b) (sp_end (range3 x))) (blocks3 x)) as Hl.
    { intros x Hx. apply in_defs3 in Hx. rewrite Forall_forall in A2. apply A2 in Hx. exact Hx. }
    assert (forall p q, p <= q -> q <= length src -> p_line (lsp_position src p) <= p_line (lsp_position src q)) as Hm.
    { intros p q H1 H2. destruct Hsrc as (Ha & Hpl & Hs). pose proof (position_mono src p q _ _ H1 (positions_are_lsp_ascii src p Ha Hpl Hs ltac:(lia)) (positions_are_lsp_ascii src q Ha Hpl Hs H2)) as [G|[G _]]; lia. }
    revert HF' HB' Hl Hb. clear - Hp Hm. intros HF'. revert bss. induction HF' as [|x f l fs [H1 H2] HF IH]; intros bss HB Hl Hb; inversion HB as [|? bs ? bss' H3 H4]; subst; constructor.
    + destruct (Hl x (or_introl eq_refl)) as [L1 L2]. destruct (Hb x (or_introl eq_refl)) as (B1 & B2 & B3). split; [rewrite H1, H2; apply Hm; lia|]. split.
      * eapply forall2_sorted; [exact H3|exact L1|]. intros a b y z [_ Ha] [Hb' _] Hab. unfold above. rewrite Ha, Hb'. eapply nlb_lines; eassumption.
      * revert L2 B3. clear - H3 H1 H2 Hp Hm B2. induction H3 as [|b y bl ym [Hy1 Hy2] H' IH']; intros L2 B3; constructor; inversion L2 as [|? ? [L3 L4] L5]; inversion B3 as [|? ? B4 B5]; subst.
        -- rewrite H1, H2, Hy1, Hy2. split; [eapply nlb_lines; eassumption|]. split; [apply Hm; lia|eapply nlb_lines; eassumption].
        -- apply IH'; assumption.
    + apply IH; [exact H4| |]; intros; [apply Hl|apply Hb]; right; assumption.
Qed.
Lemma folding_small e s uri src d : small src -> opened e s uri src d ->
  exists fs bss, folding_range s uri = Some (fs ++ concat bss) /\
    map (@length _) bss = map (fun f => length (fb_blocks (snd f))) (function_defs (doc_stmts d)) /\
    StronglySorted above_eq fs /\
    Forall2 (fun f bs => fo_start f <= fo_end f /\ StronglySorted above_eq bs /\
      Forall (fun b => fo_start f <= fo_start b /\ fo_start b <= fo_end b /\ fo_end b <= fo_end f) bs) fs bss.
Proof.
  intros Hs Ho. apply opened_indexed in Ho as (pr & Hix & Hrope & -> & Hg).
  destruct (folding_eq e s uri src d pr Hix Hrope Hg Hs) as (fs & bss & E & HF & HB). exists fs, bss. split; [exact E|].
  destruct Hix as [Hp Hc]. pose proof (conj Hp Hc : indexed _ _ _ _) as Hix. destruct (document_apart _ _ _ Hp) as [A1 A2]. rewrite ranges3 in A1.
  pose proof (def3_bounds e src d pr Hix Hrope Hs) as Hb.
  assert (forall p q p' q', p <= q -> offset_to_lsp_pos src p = Some p' -> offset_to_lsp_pos src q = Some q' -> p_line p' <= p_line q') as Hm.
  { intros p q p' q' H1 H2 H3. pose proof (position_mono src p q _ _ H1 H2 H3) as [G|[G _]]; lia. }
  split.
  { assert (map (fun f => length (fb_blocks (snd f))) (function_defs (pr_stmts pr)) = map (fun x => length (blocks3 x)) (defs3 (pr_stmts pr))) as ->.
    { rewrite <- (map_map blocks3 (@length _)), <- blocks3_eq. unfold block_spans. rewrite map_map. apply map_ext. intros f. symmetry. apply map_length. }
    clear - HB. induction HB as [|x bs l m H HB IH]; [reflexivity|]. cbn [map]. rewrite IH. f_equal. clear - H. induction H as [|? ? ? ? _ _ IH]; cbn; congruence. }
  split.
  - eapply (forall2_sorted (fold_at src)); [exact (proj2 (Forall2_map_l range3 (fold_at src) (defs3 (pr_stmts pr)) fs) HF)|exact A1|]. intros a b x y (r & Hr & _ & Hx) (r' & Hr' & Hy & _) Hab. unfold above_eq. rewrite Hx, Hy.
    apply range_inv in Hr as [_ Hr]. apply range_inv in Hr' as [Hr' _]. eapply Hm; [|exact Hr|exact Hr']. eapply nlb_le; eassumption.
  - assert (forall x, In x (defs3 (pr_stmts pr)) -> StronglySorted (apart (pr_tokens pr)) (blocks3 x)) as Hl.
    { intros x Hx. apply in_defs3 in Hx. rewrite Forall_forall in A2. apply A2 in Hx. apply Hx. }
    clear E. revert bss HB Hl Hb. clear - Hp Hm HF. induction HF as [|x f l fs (r & Hr & H1 & H2) HF IH]; intros bss HB Hl Hb; inversion HB as [|? bs ? bss' H3 H4]; subst; constructor.
    + destruct (Hb x (or_introl eq_refl)) as (B1 & B2 & B3). apply range_inv in Hr as [R1 R2]. split; [rewrite H1, H2; eapply Hm; [|exact R1|exact R2]; lia|]. split.
      * eapply forall2_sorted; [exact H3|exact (Hl x (or_introl eq_refl))|]. intros a b y z (r1 & Hr1 & _ & Ha) (r2 & Hr2 & Hb' & _) Hab. unfold above_eq. rewrite Ha, Hb'.
        apply range_inv in Hr1 as [_ Hr1]. apply range_inv in Hr2 as [Hr2 _]. eapply Hm; [|exact Hr1|exact Hr2]. eapply nlb_le; eassumption.
      * revert B3. clear - H3 H1 H2 R1 R2 Hm. induction H3 as [|b y bl ym (r1 & Hr1 & Hy1 & Hy2) H' IH']; intros B3; constructor; inversion B3 as [|? ? B4 B5]; subst; [|apply IH'; assumption].
        apply range_inv in Hr1 as [S1 S2]. rewrite H1, H2, Hy1, Hy2. split; [eapply Hm; [|exact R1|exact S1]; lia|]. split; [eapply Hm; [|exact S1|exact S2]; lia|eapply Hm; [|exact S2|exact R2]; lia].
    + apply IH with (bss := bss'); [exact H4| |]; intros; [apply Hl|apply Hb]; right; assumption.
Qed.
