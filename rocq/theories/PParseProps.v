(** Consequences of the segment grammar: provenance, order and nesting. *)
From Verif Require Import Text Chumsky Tokenizer Parser PChumsky PGram SpecLex SpecParse PParse PSound PTokens PLexProps.

(** ** Subsequences *)
Lemma subseq_nil {A} (l : list A) : subseq [] l.
Proof. induction l; constructor; assumption. Qed.
Lemma subseq_refl {A} (l : list A) : subseq l l.
Proof. induction l; constructor; assumption. Qed.
Lemma subseq_app {A} (a b c d : list A) : subseq a b -> subseq c d -> subseq (a ++ c) (b ++ d).
Proof. induction 1; cbn; intros; [assumption|apply sub_skip; auto|apply sub_keep; auto]. Qed.
Lemma subseq_app_l {A} (a b c : list A) : subseq a b -> subseq a (c ++ b).
Proof. intros H. induction c; cbn; [assumption|constructor; assumption]. Qed.
Lemma subseq_app_r {A} (a b c : list A) : subseq a b -> subseq a (b ++ c).
Proof. intros H. rewrite <- (app_nil_r a). apply subseq_app; [assumption|apply subseq_nil]. Qed.
Lemma subseq_trans {A} (a b c : list A) : subseq a b -> subseq b c -> subseq a c.
Proof.
  intros H1 H2. revert a H1. induction H2 as [|l x r _ IH|x l r _ IH]; intros a H1.
  - assumption.
  - constructor. apply IH. exact H1.
  - inversion H1; subst; constructor; apply IH; assumption.
Qed.
Lemma subseq_in {A} (a b : list A) x : subseq a b -> In x a -> In x b.
Proof. induction 1; cbn; intros Hi; [contradiction|auto|destruct Hi; auto]. Qed.
Lemma subseq_filter {A} (f : A -> bool) (l : list A) : subseq (filter f l) l.
Proof. induction l as [|x l IH]; cbn; [constructor|]. destruct (f x); [apply sub_keep|apply sub_skip]; exact IH. Qed.
Lemma subseq_one {A} (x : A) l : In x l -> subseq [x] l.
Proof.
  induction l as [|y l IH]; cbn; [contradiction|]. intros [->|H]; [apply sub_keep, subseq_nil|apply sub_skip; auto].
Qed.

Ltac ss := repeat first [apply sub_keep | apply subseq_nil | apply subseq_refl | apply sub_skip | apply subseq_app_l].

Lemma comma_sep_sub {A} (item : A -> list stoken -> Prop) (f : A -> list stoken) l seg :
  (forall a x, item a x -> subseq (f a) x) -> comma_sep item l seg -> subseq (flat_map f l) seg.
Proof.
  intros Hi. induction 1 as [|a x H|a x sp b l xs H _ IH]; cbn [flat_map]; [constructor| |].
  - rewrite app_nil_r. apply Hi. exact H.
  - apply subseq_app; [apply Hi; exact H|]. constructor. exact IH.
Qed.
Lemma flat_map_single {A B} (f : A -> B) l : flat_map (fun a => [f a]) l = map f l.
Proof. induction l; cbn; congruence. Qed.

Lemma sig_sub s seg : sig_seg s seg -> subseq (sig_tokens s) seg.
Proof.
  intros (o & c & args & Ha & ->). unfold sig_tokens. apply subseq_app; [apply subseq_refl|].
  cbn [app]. apply sub_keep, sub_keep, sub_skip, subseq_app_r.
  eapply comma_sep_sub; [|exact Ha]. intros a x ->. apply subseq_refl.
Qed.
Lemma body_sub f m refs body : body_seg f m refs body -> subseq (tident m :: map tident refs) body.
Proof.
  intros H. inversion H; subst; cbn [map]; try solve [ss].
  - apply sub_keep, subseq_app_l. do 3 apply sub_skip. apply sub_keep, sub_skip. rewrite <- flat_map_single.
    eapply comma_sep_sub; [|eassumption]. intros a x (ty & v & k & e & ->). ss.
  - apply sub_keep. rewrite <- flat_map_single.
    eapply comma_sep_sub; [|eassumption]. intros a x (o & comma & v & c & _ & ->). ss.
Qed.
Lemma instr_sub i n seg : (instr_seg any_form) i n seg -> subseq (instr_tokens i) seg.
Proof.
  intros (f & tgt & body & Ht & Hb & -> & _ & _). unfold instr_tokens. apply subseq_app.
  - destruct (i_target i) as [x|]; cbn in *; [destruct Ht as (ty & e & ->); ss|subst; constructor].
  - rewrite app_assoc. apply subseq_app; [|apply subseq_refl]. cbn [app]. apply body_sub in Hb. exact Hb.
Qed.
Lemma instrs_sub l n seg : (instrs_seg any_form) l n seg -> subseq (flat_map instr_tokens l) seg.
Proof.
  induction 1 as [|i l n m pre seg post rest _ Hi _ _ _ IH]; cbn [flat_map]; [constructor|].
  apply subseq_app_l, subseq_app; [eapply instr_sub; exact Hi|]. apply subseq_app_l. exact IH.
Qed.
Lemma block_sub b n seg : (block_seg any_form) b n seg -> subseq (bb_tokens b) seg.
Proof.
  intros (label & comma & nls & rest & Hl & Hc & _ & _ & Hi & -> & _). unfold bb_tokens. rewrite Hl, Hc. cbn [opt_seg app].
  apply sub_keep, sub_keep, subseq_app_l. eapply instrs_sub. exact Hi.
Qed.
Lemma blocks_sub l n seg : (blocks_seg any_form) l n seg -> subseq (flat_map bb_tokens l) seg.
Proof.
  induction 1 as [|b l n m seg rest Hb _ IH]; cbn [flat_map]; [constructor|].
  apply subseq_app; [eapply block_sub; exact Hb|exact IH].
Qed.
Lemma fbody_sub b n seg : (fbody_seg any_form) b n seg ->
  subseq ([tp (ch "{") (fb_open b)] ++ flat_map bb_tokens (fb_blocks b) ++ [tp (ch "}") (fb_close b)]) seg.
Proof.
  intros (nls & o & n1 & s1 & bbs & n2 & s2 & _ & _ & Ho & Hb & -> & _ & ->). cbn [app].
  apply sub_keep, subseq_app_l. rewrite app_assoc. apply subseq_app; [|apply subseq_refl].
  apply blocks_sub in Hb. destruct o as [b0|]; cbn [flat_map].
  - apply subseq_app; [|exact Hb]. destruct Ho as (H1 & H2 & H3 & _). unfold bb_tokens. rewrite H1, H2. cbn [opt_seg app].
    eapply instrs_sub. exact H3.
  - destruct Ho as [-> _]. exact Hb.
Qed.
Lemma stmt_sub s n seg rest : (stmt_seg any_form) s n seg rest -> subseq (stmt_tokens s) seg.
Proof.
  intros H. inversion H; subst; cbn [stmt_tokens].
  - apply sub_keep, sub_skip, subseq_app_r, subseq_refl.
  - apply sub_skip. apply subseq_app; [apply sig_sub; assumption|]. rewrite app_assoc.
    apply subseq_app_r, subseq_app; [|apply subseq_refl].
    destruct addr; [destruct H1 as (eq & ->); ss|subst; constructor].
  - apply sub_keep. apply subseq_app; [apply sig_sub; assumption|]. apply subseq_app_r. eapply fbody_sub. eassumption.
  - apply sub_keep, sub_skip, sub_skip. rewrite <- flat_map_single. eapply comma_sep_sub; [|eassumption].
    intros a0 x0 ->. ss.
  - apply sub_keep, sub_skip, subseq_app_r, subseq_refl.
Qed.
Lemma module_sub ss n toks : (module_seg any_form) ss n toks -> subseq (flat_map stmt_tokens ss) toks.
Proof.
  induction 1 as [|s n ss m pre seg post rest _ _ Hs _ IH|g k s n ss m pre seg post rest _ _ _ Hs _ IH]; cbn [flat_map]; [constructor| |].
  - apply subseq_app_l, subseq_app; [eapply stmt_sub; exact Hs|]. apply subseq_app_l. exact IH.
  - apply subseq_app_l, subseq_app_l, subseq_app; [eapply stmt_sub; exact Hs|]. apply subseq_app_l. exact IH.
Qed.

(** ** The parser entry points *)
Lemma parse_tokens_total src toks : exists o errs, parse_tokens src toks = Val (o, errs).
Proof.
  unfold parse_tokens, parse_recovery.
  destruct (good_module (mkSpan (byte_len src) (byte_len src + 1))) as [_ Hn].
  specialize (Hn (filter not_comment toks)). cbv beta in Hn.
  destruct (g_module _ _); eauto. cbn in Hn. congruence.
Qed.
Lemma parse_from_str_total u src : exists pr, parse_from_str u src = Val pr.
Proof.
  unfold parse_from_str. destruct (tokenize_total u src) as (o & errs & ->). cbn [rbind].
  destruct o as [toks|]; [|cbn; eauto]. destruct (parse_tokens_total src toks) as (o2 & e2 & ->). cbn. eauto.
Qed.
Lemma parse_tokens_module src toks ss errs : parse_tokens src toks = Val (Some ss, errs) ->
  (module_seg any_form) ss (length errs) (filter not_comment toks).
Proof.
  unfold parse_tokens, parse_recovery. destruct (g_module _ _) as [es a alt r|es e|] eqn:E; try discriminate.
  intros H; injection H as <- <-. rewrite map_length.
  apply (inv_module (mkSpan (byte_len src) (byte_len src + 1)) _ _ _ r). unfold stoken in *. rewrite E. reflexivity.
Qed.
Lemma drop_comments toks : filter not_comment toks = without_comments toks.
Proof. unfold without_comments. apply filter_ext. intros [t sp]. destruct t; reflexivity. Qed.
Lemma parse_tokens_grammar src toks ss errs : parse_tokens src toks = Val (Some ss, errs) ->
  (module_seg any_form) ss (length errs) (without_comments toks).
Proof. rewrite <- drop_comments. apply parse_tokens_module. Qed.
Lemma parse_from_str_cases u src pr : parse_from_str u src = Val pr ->
  (exists errs, tokenize u src = Val (None, errs) /\ pr_tokens pr = [] /\ pr_stmts pr = []) \/
  (exists toks errs, tokenize u src = Val (Some toks, errs) /\ pr_tokens pr = toks /\
     (pr_stmts pr = [] \/ exists errs2, parse_tokens src toks = Val (Some (pr_stmts pr), errs2))).
Proof.
  unfold parse_from_str. destruct (tokenize_total u src) as (o & errs & E). rewrite E. cbn [rbind].
  destruct o as [toks|].
  - destruct (parse_tokens_total src toks) as (o2 & e2 & E2). rewrite E2. cbn [rbind]. intros H; injection H as <-.
    right. exists toks, errs. split; [reflexivity|]. split; [reflexivity|]. cbn [pr_stmts].
    destruct o2; [right; eauto|left; reflexivity].
  - cbn [rbind]. intros H; injection H as <-. left. exists errs. auto.
Qed.
(** The statements of a document are a module over (a filtered copy of) its tokens. *)
Lemma parse_from_str_module u src pr : parse_from_str u src = Val pr ->
  spans_in 0 (length src) (pr_tokens pr) /\
  (pr_stmts pr = [] \/ exists n, (module_seg any_form) (pr_stmts pr) n (filter not_comment (pr_tokens pr))).
Proof.
  intros H. apply parse_from_str_cases in H as [(errs & E & -> & ->)|(toks & errs & E & -> & Hs)].
  - split; [cbn; lia|auto].
  - split; [eapply tokenize_spans; exact E|]. destruct Hs as [->|(errs2 & Hp)]; [auto|]. right.
    eexists. eapply parse_tokens_module. exact Hp.
Qed.
Lemma provenance u src pr : parse_from_str u src = Val pr ->
  subseq (flat_map stmt_tokens (pr_stmts pr)) (pr_tokens pr).
Proof.
  intros H. apply parse_from_str_module in H as [_ [->|[n Hm]]]; [apply subseq_nil|].
  eapply subseq_trans; [eapply module_sub; exact Hm|apply subseq_filter].
Qed.

(** ** Spans *)
Lemma spans_in_le toks : forall lo hi, spans_in lo hi toks -> lo <= hi.
Proof. induction toks as [|[t sp] r IH]; cbn; intros lo hi H; [exact H|]. destruct H as (H1 & H2 & H3). apply IH in H3. lia. Qed.
Lemma spans_in_weaken toks : forall lo lo' hi hi', spans_in lo hi toks -> lo' <= lo -> hi <= hi' -> spans_in lo' hi' toks.
Proof.
  induction toks as [|[t sp] r IH]; cbn; intros lo lo' hi hi' H Hlo Hhi; [lia|].
  destruct H as (H1 & H2 & H3). split; [lia|]. split; [exact H2|]. eapply IH; [exact H3|lia|lia].
Qed.
Lemma spans_in_sub toks toks' : subseq toks' toks -> forall lo hi, spans_in lo hi toks -> spans_in lo hi toks'.
Proof.
  induction 1 as [|l [t sp] r _ IH|[t sp] l r _ IH]; intros lo hi H; [exact H| |].
  - destruct H as (H1 & H2 & H3). apply IH. eapply spans_in_weaken; [exact H3|lia|lia].
  - destruct H as (H1 & H2 & H3). split; [exact H1|]. split; [exact H2|]. apply IH. exact H3.
Qed.
Lemma spans_in_app a b : forall lo hi, spans_in lo hi (a ++ b) -> exists mid, spans_in lo mid a /\ spans_in mid hi b.
Proof.
  induction a as [|[t sp] a IH]; cbn; intros lo hi H.
  - exists lo. auto.
  - destruct H as (H1 & H2 & H3). apply IH in H3 as (mid & H3 & H4). exists mid. auto.
Qed.
Lemma cover_snoc t0 sp0 pre t sp : cover ((t0, sp0) :: pre ++ [(t, sp)]) = mkSpan (sp_start sp0) (sp_end sp).
Proof.
  unfold cover, stoken in *. change ((t0, sp0) :: pre ++ [(t, sp)]) with (((t0, sp0) :: pre) ++ [(t, sp)]).
  rewrite rev_app_distr. reflexivity.
Qed.
Lemma cover_last (pre : list stoken) t sp : sp_end (cover (pre ++ [(t, sp)])) = sp_end sp.
Proof. destruct pre as [|[t0 sp0] pre]; [reflexivity|]. cbn [app]. rewrite cover_snoc. reflexivity. Qed.
Lemma cover_ends t sp mid (core : list stoken) : core <> [] ->
  cover ((t, sp) :: mid ++ core) = mkSpan (sp_start sp) (sp_end (cover core)).
Proof.
  intros H. destruct (exists_last H) as (c' & [t2 sp2] & ->). rewrite app_assoc, cover_snoc, cover_last. reflexivity.
Qed.
Lemma cover_bounds seg : seg <> [] -> forall lo hi, spans_in lo hi seg ->
  lo <= sp_start (cover seg) /\ sp_start (cover seg) < sp_end (cover seg) /\ sp_end (cover seg) <= hi.
Proof.
  intros Hne lo hi H. destruct (exists_last Hne) as (pre & [t sp] & ->).
  apply spans_in_app in H as (mid & Ha & Hb). cbn in Hb.
  destruct pre as [|[t0 sp0] pre]; cbn [app].
  - rewrite cover_one. cbn in *. lia.
  - rewrite cover_snoc. cbn in *. destruct Ha as (H1 & H2 & H3). apply spans_in_le in H3. lia.
Qed.

(** [tiles l seg]: the spans [l] cover consecutive parts of [seg]. *)
Inductive tiles : list span -> list stoken -> Prop :=
| ti_nil seg : tiles [] seg
| ti_skip l t seg : tiles l seg -> tiles l (t :: seg)
| ti_cons a l seg : a <> [] -> tiles l seg -> tiles (cover a :: l) (a ++ seg).
Lemma tiles_order l seg : tiles l seg -> forall lo hi, spans_in lo hi seg -> ranges_in_order lo l.
Proof.
  induction 1 as [seg|l [t sp] seg _ IH|a l seg Ha _ IH]; intros lo hi H.
  - constructor.
  - destruct H as (H1 & H2 & H3). apply (IH lo hi). eapply spans_in_weaken; [exact H3|lia|lia].
  - apply spans_in_app in H as (mid & H1 & H2). pose proof (cover_bounds a Ha _ _ H1) as (B1 & B2 & B3).
    constructor; [exact B1|exact B2|]. apply (IH _ hi). eapply spans_in_weaken; [exact H2|lia|lia].
Qed.
Lemma tiles_skips l a seg : tiles l seg -> tiles l (a ++ seg).
Proof. intros H. induction a; cbn; [exact H|constructor; assumption]. Qed.
Lemma tiles_app l1 l2 a b : tiles l1 a -> tiles l2 b -> tiles (l1 ++ l2) (a ++ b).
Proof.
  induction 1 as [seg|l t seg _ IH|x l seg Hx _ IH]; cbn [app]; intros H.
  - apply tiles_skips. exact H.
  - constructor. apply IH. exact H.
  - rewrite <- app_assoc. constructor; [exact Hx|]. apply IH. exact H.
Qed.
Lemma tiles_tok l t sp seg : tiles l seg -> tiles (sp :: l) ((t, sp) :: seg).
Proof.
  intros H. change ((t, sp) :: seg) with ([(t, sp)] ++ seg).
  replace sp with (cover [(t, sp)]) at 1 by (rewrite cover_one; apply span_eta). constructor; [discriminate|exact H].
Qed.
Lemma tiles_sub l seg : subseq l seg -> tiles (map snd l) seg.
Proof.
  induction 1 as [|l x r _ IH|[t sp] l r _ IH]; cbn [map]; [constructor|constructor; exact IH|apply tiles_tok; exact IH].
Qed.

Lemma in_order_inside l : forall lo hi seg, tiles l seg -> spans_in lo hi seg -> Forall (fun s => lo <= sp_start s /\ sp_end s <= hi) l.
Proof.
  intros lo hi seg H. revert lo hi. induction H as [seg|l [t sp] seg _ IH|a l seg Ha _ IH]; intros lo hi H.
  - constructor.
  - destruct H as (H1 & H2 & H3). apply IH. eapply spans_in_weaken; [exact H3|lia|lia].
  - apply spans_in_app in H as (mid & H1 & H2). pose proof (cover_bounds a Ha _ _ H1) as (B1 & B2 & B3).
    pose proof (spans_in_le _ _ _ H2). constructor; [lia|]. apply IH. eapply spans_in_weaken; [exact H2|lia|lia].
Qed.

(** spans inside the cover of a segment *)
Lemma spans_in_cover seg : seg <> [] -> forall lo hi, spans_in lo hi seg ->
  spans_in (sp_start (cover seg)) (sp_end (cover seg)) seg.
Proof.
  intros Hne lo hi H. destruct (exists_last Hne) as (pre & [t sp] & ->).
  destruct pre as [|[t0 sp0] pre]; cbn [app] in *.
  - rewrite cover_one. cbn in *. lia.
  - rewrite cover_snoc. cbn in H |- *. destruct H as (H1 & H2 & H3). split; [lia|]. split; [exact H2|].
    clear H1 H2 Hne. revert H3. generalize (sp_end sp0). induction pre as [|[t1 sp1] pre IH]; cbn [app]; intros n H.
    + cbn in *. lia.
    + destruct H as (A & B & C). split; [exact A|]. split; [exact B|]. apply IH. exact C.
Qed.

Definition instr_ok (i : instruction) : Prop :=
  ranges_in_order (sp_start (i_span i)) (map snd (instr_tokens i)) /\
  Forall (fun t => inside (snd t) (i_span i)) (instr_tokens i).
Definition block_ok (b : basic_block) : Prop :=
  ranges_in_order (sp_start (bb_span b)) (label_spans b ++ map i_span (bb_instrs b)) /\
  Forall (fun i => inside (i_span i) (bb_span b)) (bb_instrs b) /\
  forall i, In i (bb_instrs b) -> instr_ok i.

Lemma instr_ok_seg i n seg lo hi : (instr_seg any_form) i n seg -> spans_in lo hi seg -> instr_ok i.
Proof.
  intros H Hs. pose proof (instr_seg_ne _ _ _ H) as Hne. pose proof (instr_sub _ _ _ H) as Hsub.
  destruct H as (f & tgt & body & _ & _ & _ & Hc & _). unfold instr_ok. rewrite Hc.
  pose proof (spans_in_cover seg Hne _ _ Hs) as Hs'. apply tiles_sub in Hsub.
  split; [eapply tiles_order; eassumption|].
  pose proof (in_order_inside _ _ _ _ Hsub Hs') as HF. rewrite Forall_map in HF. exact HF.
Qed.
Lemma instrs_ok l n seg : (instrs_seg any_form) l n seg -> forall lo hi, spans_in lo hi seg -> forall i, In i l -> instr_ok i.
Proof.
  induction 1 as [|i l n m pre seg post rest _ Hi _ _ _ IH]; intros lo hi H j Hj; [contradiction|].
  apply spans_in_app in H as (m1 & _ & H). apply spans_in_app in H as (m2 & Hs & H). apply spans_in_app in H as (m3 & _ & H).
  destruct Hj as [<-|Hj]; [eapply instr_ok_seg; eassumption|eapply IH; eassumption].
Qed.
Lemma instrs_tiles l n seg : (instrs_seg any_form) l n seg -> tiles (map i_span l) seg.
Proof.
  induction 1 as [|i l n m pre seg post rest _ Hi _ _ _ IH]; cbn [map]; [constructor|].
  apply tiles_skips. pose proof (instr_seg_ne _ _ _ Hi) as Hne. destruct Hi as (f & tgt & body & _ & _ & _ & -> & _).
  constructor; [exact Hne|]. apply tiles_skips. exact IH.
Qed.
(** without the newlines around, the instructions end with the last one *)
Lemma instrs_core l n seg : (instrs_seg any_form) l n seg -> l <> [] ->
  exists pre core post, seg = pre ++ core ++ post /\ core <> [] /\ tiles (map i_span l) core /\
    cover core = mkSpan (match l with i :: _ => sp_start (i_span i) | [] => 0 end) (last_end_of l 0).
Proof.
  induction 1 as [|i l n m pre seg post rest _ Hi _ _ Hl IH]; intros Hne; [congruence|]. clear Hne.
  pose proof (instr_seg_ne _ _ _ Hi) as Hn. destruct Hi as (f & tgt & body & _ & _ & _ & Hc & _).
  destruct l as [|j l].
  - inversion Hl; subst. exists pre, seg, post. rewrite app_nil_r. split; [reflexivity|]. split; [exact Hn|].
    split; [cbn; rewrite Hc; rewrite <- (app_nil_r seg) at 2; constructor; [exact Hn|constructor]|].
    cbn. rewrite Hc. rewrite span_eta. reflexivity.
  - destruct IH as (pre2 & core & post2 & -> & Hcn & Ht & Hcc); [discriminate|].
    exists pre, (seg ++ post ++ pre2 ++ core), post2.
    split; [rewrite <- !app_assoc; reflexivity|]. split; [destruct seg; [congruence|discriminate]|].
    split.
    + change (map i_span (i :: j :: l)) with (i_span i :: map i_span (j :: l)). rewrite Hc. constructor; [exact Hn|].
      apply tiles_skips, tiles_skips. exact Ht.
    + assert (last_end_of (i :: j :: l) 0 = last_end_of (j :: l) 0) as ->.
      { unfold last_end_of. cbn [rev]. destruct (rev l); reflexivity. }
      rewrite Hc. destruct seg as [|[t0 sp0] seg]; [congruence|].
      rewrite !app_assoc. cbn [app]. rewrite cover_ends by exact Hcn. rewrite Hcc. cbn [sp_end].
      unfold cover, stoken in *. destruct (rev ((t0, sp0) :: seg)) as [|[]] eqn:E; [|reflexivity].
      apply (f_equal (@length _)) in E. rewrite rev_length in E. discriminate.
Qed.
Lemma last_end_dflt l d : l <> [] -> last_end_of l d = last_end_of l 0.
Proof.
  intros H. unfold last_end_of. destruct (rev l) eqn:E; [|reflexivity].
  apply (f_equal (@rev _)) in E. rewrite rev_involutive in E. cbn in E. congruence.
Qed.

Lemma block_core b n seg lo hi : (block_seg any_form) b n seg -> spans_in lo hi seg ->
  block_ok b /\ exists core post, seg = core ++ post /\ core <> [] /\ bb_span b = cover core.
Proof.
  intros (label & comma & nls & rest & Hl & Hc & _ & _ & Hi & -> & Hsp) Hs.
  pose proof Hs as Hall. cbn in Hs. destruct Hs as (L1 & L2 & L3 & L4 & Hs).
  apply spans_in_app in Hs as (mid & Hn & Hr).
  pose proof (spans_in_le _ _ _ Hn) as Hle.
  assert (forall i, In i (bb_instrs b) -> instr_ok i) as Hok by (intros; eapply instrs_ok; eassumption).
  destruct (bb_instrs b) as [|i l] eqn:El.
  - split.
    + unfold block_ok, label_spans. rewrite El, Hl, Hc, Hsp. cbn [last_end_of rev sp_start sp_end map app].
      split; [|split; [constructor|exact Hok]]. constructor; [lia|exact L2|]. constructor; [lia|exact L4|constructor].
    + exists [tident label], (tp (ch ":") comma :: nls ++ rest). split; [reflexivity|]. split; [discriminate|].
      rewrite Hsp. unfold tident. rewrite cover_one. reflexivity.
  - destruct (instrs_core _ _ _ Hi ltac:(discriminate)) as (pre & core & post & -> & Hcn & Ht & Hcc).
    set (C := tident label :: tp (ch ":") comma :: nls ++ pre ++ core).
    assert (bb_span b = cover C) as HC.
    { rewrite Hsp. unfold C, tident. rewrite app_assoc.
      change (tp (ch ":") comma :: (nls ++ pre) ++ core) with ((tp (ch ":") comma :: nls ++ pre) ++ core).
      rewrite cover_ends by exact Hcn. rewrite Hcc. cbn [sp_end]. f_equal. apply last_end_dflt. discriminate. }
    assert (tident label :: tp (ch ":") comma :: nls ++ pre ++ core ++ post = C ++ post) as Eseg
      by (unfold C; cbn [app]; rewrite <- !app_assoc; reflexivity).
    split; [|exists C, post; split; [exact Eseg|split; [discriminate|exact HC]]].
    unfold block_ok, label_spans. rewrite El, Hl, Hc.
    rewrite Eseg in Hall. apply spans_in_app in Hall as (m2 & HCs & _).
    pose proof (spans_in_cover C ltac:(discriminate) _ _ HCs) as HCs'. rewrite <- HC in HCs'.
    assert (tiles ([snd label; comma] ++ map i_span (i :: l)) C) as HT.
    { unfold C, tident, tp. cbn [app]. apply tiles_tok, tiles_tok, tiles_skips, tiles_skips. exact Ht. }
    split; [eapply tiles_order; [exact HT|exact HCs']|]. split; [|exact Hok].
    pose proof (in_order_inside _ _ _ _ HT HCs') as HF. cbn [app] in HF. inversion HF as [|? ? _ HF1]; subst.
    inversion HF1 as [|? ? _ HF2]; subst. change (i_span i :: map i_span l) with (map i_span (i :: l)) in HF2; rewrite Forall_map in HF2. exact HF2.
Qed.
Lemma blocks_core l n seg : (blocks_seg any_form) l n seg -> forall lo hi, spans_in lo hi seg ->
  (forall b, In b l -> block_ok b) /\ tiles (map bb_span l) seg.
Proof.
  induction 1 as [|b l n m seg rest Hb _ IH]; intros lo hi Hs; [split; [contradiction|constructor]|].
  apply spans_in_app in Hs as (mid & H1 & H2). destruct (block_core _ _ _ _ _ Hb H1) as (Hok & core & post & -> & Hc & Hsp).
  destruct (IH _ _ H2) as [IH1 IH2]. split; [intros x [<-|Hx]; auto|].
  cbn [map]. rewrite Hsp, <- app_assoc. constructor; [exact Hc|]. apply tiles_skips. exact IH2.
Qed.
Lemma first_block_core o n seg lo hi : (first_block_seg any_form) o n seg -> spans_in lo hi seg ->
  match o with Some b => block_ok b /\ tiles [bb_span b] seg | None => True end.
Proof.
  destruct o as [b|]; [|trivial]. intros (Hl & Hc & Hi & i & r & El & Hsp) Hs. rewrite El in *.
  destruct (instrs_core _ _ _ Hi ltac:(discriminate)) as (pre & core & post & -> & Hcn & Ht & Hcc).
  assert (bb_span b = cover core) as HC by (rewrite Hsp, Hcc; reflexivity).
  split; [|apply tiles_skips; rewrite HC; constructor; [exact Hcn|constructor]].
  assert (forall j, In j (i :: r) -> instr_ok j) as Hok by (intros; eapply instrs_ok; eassumption).
  unfold block_ok, label_spans. rewrite Hl, El. cbn [app].
  apply spans_in_app in Hs as (m1 & _ & Hs). apply spans_in_app in Hs as (m2 & Hs & _).
  pose proof (spans_in_cover core Hcn _ _ Hs) as Hs'. rewrite <- HC in Hs'.
  split; [eapply tiles_order; [exact Ht|exact Hs']|]. split; [|exact Hok].
  pose proof (in_order_inside _ _ _ _ Ht Hs') as HF. rewrite Forall_map in HF. exact HF.
Qed.

Lemma fbody_core b n seg lo hi : (fbody_seg any_form) b n seg -> spans_in lo hi seg ->
  (forall x, In x (fb_blocks b) -> block_ok x) /\
  tiles (fb_open b :: map bb_span (fb_blocks b) ++ [fb_close b]) seg.
Proof.
  intros (nls & o & n1 & s1 & bbs & n2 & s2 & _ & _ & Ho & Hb & -> & _ & ->) Hs.
  cbn in Hs. destruct Hs as (_ & _ & Hs). apply spans_in_app in Hs as (m1 & _ & Hs).
  apply spans_in_app in Hs as (m2 & Hs1 & Hs). apply spans_in_app in Hs as (m3 & Hs2 & _).
  pose proof (first_block_core _ _ _ _ _ Ho Hs1) as F. destruct (blocks_core _ _ _ Hb _ _ Hs2) as [B1 B2].
  destruct o as [b0|].
  - destruct F as [F1 F2]. split; [intros x [<-|Hx]; auto|].
    unfold tp. apply tiles_tok, tiles_skips. cbn [map]. 
    change ((bb_span b0 :: map bb_span bbs) ++ [fb_close b]) with ([bb_span b0] ++ map bb_span bbs ++ [fb_close b]).
    apply tiles_app; [exact F2|]. apply tiles_app; [exact B2|]. apply tiles_tok. constructor.
  - split; [exact B1|]. unfold tp. apply tiles_tok, tiles_skips, tiles_skips.
    apply tiles_app; [exact B2|]. apply tiles_tok. constructor.
Qed.
Lemma stmt_core s n seg rest lo hi : (stmt_seg any_form) s n seg rest -> spans_in lo hi seg -> well_nested s /\ tiles (func_ranges s) seg.
Proof.
  intros H Hs. inversion H; subst; try (split; [exact I|constructor]).
  - pose proof Hs as Hall. cbn in Hs. destruct Hs as (K1 & K2 & Hs). apply spans_in_app in Hs as (m1 & Hs1 & Hs).
    apply spans_in_app in Hs as (m2 & Hs2 & _). destruct (fbody_core _ _ _ _ _ H1 Hs2) as [B1 B2].
    split.
    + split; [|intros b Hb; exact (B1 b Hb)].
      assert (tiles ([kw; snd (fs_name sig); fb_open body] ++ map bb_span (fb_blocks body) ++ [fb_close body])
                    ((TDefine, kw) :: sseg ++ bseg ++ e)) as HT.
      { cbn [app]. apply tiles_tok.
        change (snd (fs_name sig) :: fb_open body :: map bb_span (fb_blocks body) ++ [fb_close body])
          with (([snd (fs_name sig)] ++ (fb_open body :: map bb_span (fb_blocks body) ++ [fb_close body]))).
        apply tiles_app.
        - destruct H0 as (o & c & args & _ & ->). apply tiles_skips. cbn [app]. apply ti_skip. unfold tglobal. apply tiles_tok. constructor.
        - rewrite <- (app_nil_r (_ :: _)). apply tiles_app; [exact B2|constructor]. }
      eapply tiles_order; [exact HT|]. eapply spans_in_weaken; [exact Hall|lia|apply le_n].
    + cbn [func_ranges]. destruct H1 as (nls & o & n1 & s1 & bbs & n2 & s2 & _ & _ & _ & _ & _ & _ & ->).
      set (F := (TDefine, kw) :: (sseg ++ tp (ch "{") (fb_open body) :: nls ++ s1 ++ s2) ++ [tp (ch "}") (fb_close body)]).
      assert (mkSpan (sp_start kw) (sp_end (fb_close body)) = cover F) as ->.
      { unfold F. rewrite cover_ends by discriminate. unfold tp. rewrite cover_one. reflexivity. }
      replace ((TDefine, kw) :: sseg ++ (tp (ch "{") (fb_open body) :: nls ++ s1 ++ s2 ++ [tp (ch "}") (fb_close body)]) ++ e)
        with (F ++ e) by (unfold F; repeat first [progress cbn [app] | rewrite <- app_assoc]; reflexivity).
      constructor; [discriminate|constructor].
Qed.
Lemma module_core ss n toks : (module_seg any_form) ss n toks -> forall lo hi, spans_in lo hi toks ->
  Forall well_nested ss /\ tiles (flat_map func_ranges ss) toks.
Proof.
  induction 1 as [|s n ss m pre seg post rest _ _ Hs _ IH|g k s n ss m pre seg post rest _ _ _ Hs _ IH]; intros lo hi H; cbn [flat_map].
  - split; constructor.
  - apply spans_in_app in H as (m1 & _ & H). apply spans_in_app in H as (m2 & H1 & H). apply spans_in_app in H as (m3 & _ & H).
    destruct (IH _ _ H) as [I1 I2]. destruct (stmt_core _ _ _ _ _ _ Hs H1) as [S1 S2].
    split; [constructor; assumption|]. apply tiles_skips, tiles_app; [exact S2|apply tiles_skips; exact I2].
  - apply spans_in_app in H as (m0 & _ & H).
    apply spans_in_app in H as (m1 & _ & H). apply spans_in_app in H as (m2 & H1 & H). apply spans_in_app in H as (m3 & _ & H).
    destruct (IH _ _ H) as [I1 I2]. destruct (stmt_core _ _ _ _ _ _ Hs H1) as [S1 S2].
    split; [constructor; assumption|]. apply tiles_skips, tiles_skips, tiles_app; [exact S2|apply tiles_skips; exact I2].
Qed.
Lemma layout u src pr : parse_from_str u src = Val pr ->
  Forall well_nested (pr_stmts pr) /\ ranges_in_order 0 (flat_map func_ranges (pr_stmts pr)) /\
  ranges_in_order 0 (map snd (flat_map stmt_tokens (pr_stmts pr))).
Proof.
  intros H. pose proof (provenance _ _ _ H) as Hp. apply parse_from_str_module in H as [Hs Hm].
  assert (ranges_in_order 0 (map snd (flat_map stmt_tokens (pr_stmts pr)))) as Ho
    by (eapply tiles_order; [apply tiles_sub; exact Hp|exact Hs]).
  destruct Hm as [E|[n Hm]].
  - rewrite E in *. split; [constructor|]. split; [constructor|exact Ho].
  - assert (spans_in 0 (length src) (filter not_comment (pr_tokens pr))) as Hs'
      by (eapply spans_in_sub; [apply subseq_filter|exact Hs]).
    destruct (module_core _ _ _ Hm _ _ Hs') as [W T].
    split; [exact W|]. split; [eapply tiles_order; [exact T|exact Hs']|exact Ho].
Qed.
