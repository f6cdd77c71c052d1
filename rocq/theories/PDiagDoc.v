(** The diagnostics of a document. *)
From Verif Require Import Text Rope Chumsky Tokenizer Parser Numbers Index SemTok Diag Rename Cfg Backtrace Server SpecText SpecLex SpecParse SpecIndex SpecDiag
  PText PRope PSemTok PChumsky PParse PParseProps PIndex PIndexDoc PIndexText PDiag PErrors PLexProps PTokens.

(** ** Occurrences in the tree *)
Lemma in_tree_occs ss : forall id o, In o (tree_occs id ss) <->
  exists pre s post, ss = pre ++ s :: post /\ In o (stmt_occs (id + length (function_defs pre)) s).
Proof.
  induction ss as [|s ss IH]; intros id o; cbn [tree_occs].
  - split; [contradiction|]. intros ([|] & ? & ? & E & _); discriminate.
  - rewrite in_app_iff, IH. split.
    + intros [H|(pre & s' & post & -> & H)].
      * exists [], s, ss. cbn. rewrite Nat.add_0_r. auto.
      * exists (s :: pre), s', post. split; [reflexivity|].
        replace (id + length (function_defs (s :: pre))) with (id + is_def s + length (function_defs pre)); [exact H|].
        unfold function_defs. cbn [flat_map]. rewrite app_length. destruct s; cbn; lia.
    + intros ([|s' pre] & x & post & E & H); injection E as -> ->.
      * left. cbn in H. rewrite Nat.add_0_r in H. exact H.
      * right. exists pre, x, post. split; [reflexivity|].
        replace (id + is_def s' + length (function_defs pre)) with (id + length (function_defs (s' :: pre))); [exact H|].
        unfold function_defs. cbn [flat_map]. rewrite app_length. destruct s'; cbn; lia.
Qed.
Lemma function_defs_nth ss id sig body : nth_error (function_defs ss) id = Some (sig, body) <->
  exists pre kw post, ss = pre ++ SFuncDef kw sig body :: post /\ length (function_defs pre) = id.
Proof.
  revert id. induction ss as [|s ss IH]; intros id; cbn [function_defs flat_map].
  - split; [destruct id; discriminate|]. intros ([|] & ? & ? & E & _); discriminate.
  - fold (function_defs ss).
    assert (Hskip : (forall kw sg b, s <> SFuncDef kw sg b) -> match s with SFuncDef _ sig0 body0 => [(sig0, body0)] | _ => [] end = [] ->
       (nth_error (function_defs ss) id = Some (sig, body) <-> exists pre kw post, s :: ss = pre ++ SFuncDef kw sig body :: post /\ length (function_defs pre) = id)).
    { intros Hne Hs. rewrite IH. split.
      - intros (pre & kw & post & -> & E). exists (s :: pre), kw, post. split; [reflexivity|]. unfold function_defs. cbn [flat_map]. rewrite Hs. exact E.
      - intros ([|x pre] & kw & post & E & En); injection E as -> ->; [exfalso; eapply Hne; reflexivity|].
        exists pre, kw, post. split; [reflexivity|]. unfold function_defs in En. cbn [flat_map] in En. rewrite Hs in En. exact En. }
    destruct s; cbn [app]; try (apply Hskip; [intros; discriminate|reflexivity]).
    destruct id as [|id]; cbn [nth_error].
    + split.
      * intros E. injection E as -> ->. exists [], define_kw, ss. auto.
      * intros ([|x pre] & kw & post & E & En); injection E; intros; subst; [reflexivity|]. cbn in En. lia.
    + rewrite IH. split.
      * intros (pre & kw & post & -> & E). exists (SFuncDef define_kw sig0 body0 :: pre), kw, post. split; [reflexivity|]. cbn. f_equal. exact E.
      * intros ([|x pre] & kw & post & E & En); [discriminate|]. injection E as <- ->. exists pre, kw, post. split; [reflexivity|]. injection En as En. exact En.
Qed.

Lemma in_block_defs id blocks o : In o (flat_map (block_occs id) blocks) -> o_ud o <> Use ->
  o_body o = Some id /\ ((o_kind o = KLocalVar /\ o_ud o = Def /\ In (o_name o) (flat_map block_defs blocks)) \/
                         (o_kind o = KLabel /\ o_ud o = Def /\ In (o_name o) (flat_map block_labels blocks))).
Proof.
  intros H Hu. apply in_flat_map in H as (b & Hb & H). unfold block_occs in H. apply in_app_iff in H as [H|H].
  - unfold label_occs in H. destruct (bb_label b) as [x|] eqn:E; [|contradiction]. destruct H as [<-|[]]. cbn. split; [reflexivity|]. right.
    split; [reflexivity|]. split; [reflexivity|]. apply in_flat_map. exists b. split; [exact Hb|]. unfold block_labels. rewrite E. left. reflexivity.
  - apply in_flat_map in H as (i & Hi & H). unfold instr_occs in H. apply in_app_iff in H as [H|H].
    + unfold target_occs in H. destruct (i_target i) as [x|] eqn:E; [|contradiction]. destruct H as [<-|[]]. cbn. split; [reflexivity|]. left.
      split; [reflexivity|]. split; [reflexivity|]. apply in_flat_map. exists b. split; [exact Hb|]. unfold block_defs. apply in_flat_map. exists i.
      split; [exact Hi|]. rewrite E. left. reflexivity.
    + apply in_map_iff in H as (x & <- & _). cbn in Hu. congruence.
Qed.
Lemma block_defs_in id blocks n : In n (flat_map block_defs blocks) ->
  exists o, In o (flat_map (block_occs id) blocks) /\ o_ud o = Def /\ o_kind o = KLocalVar /\ o_body o = Some id /\ o_name o = n.
Proof.
  intros H. apply in_flat_map in H as (b & Hb & H). apply in_flat_map in H as (i & Hi & H).
  destruct (i_target i) as [x|] eqn:E; [|contradiction]. destruct H as [<-|[]]. exists (occ Def KLocalVar (Some id) x).
  split; [|auto]. apply in_flat_map. exists b. split; [exact Hb|]. unfold block_occs. apply in_app_iff. right. apply in_flat_map. exists i.
  split; [exact Hi|]. unfold instr_occs, target_occs. rewrite E. left. reflexivity.
Qed.
Lemma block_labels_in id blocks n : In n (flat_map block_labels blocks) ->
  exists o, In o (flat_map (block_occs id) blocks) /\ o_ud o = Def /\ o_kind o = KLabel /\ o_body o = Some id /\ o_name o = n.
Proof.
  intros H. apply in_flat_map in H as (b & Hb & H). unfold block_labels in H.
  destruct (bb_label b) as [x|] eqn:E; [|contradiction]. destruct H as [<-|[]]. exists (occ Def KLabel (Some id) x).
  split; [|auto]. apply in_flat_map. exists b. split; [exact Hb|]. unfold block_occs, label_occs. rewrite E. left. reflexivity.
Qed.

(** The tree declares or defines a symbol exactly when the document introduces it. *)
Lemma introduced_iff ss o : introduced ss o <-> exists x, In x (tree_occs 0 ss) /\ o_ud x <> Use /\ same_symbol x o.
Proof.
  split.
  - unfold introduced. destruct (o_kind o) eqn:Ek, (o_body o) as [id|] eqn:Eb; try contradiction.
    + intros (d & x & Hin & En). exists (occ Def KGlobalVar None x). split; [|split; [discriminate|repeat split; cbn; congruence]].
      apply in_tree_occs. apply in_split in Hin as (pre & post & ->). exists pre, (SGlobalVar x d), post. split; [reflexivity|]. left. reflexivity.
    + intros (s & Hin & En). apply in_split in Hin as (pre & post & ->).
      destruct s; try discriminate; cbn in En; (destruct (text_eqb_spec (fst (fs_name sig)) (o_name o)) as [E|]; [|discriminate]).
      * exists (occ Decl KFunction None (fs_name sig)). split; [|split; [discriminate|repeat split; cbn; congruence]].
        apply in_tree_occs. eexists pre, _, post. split; [reflexivity|]. left. reflexivity.
      * exists (occ Def KFunction None (fs_name sig)). split; [|split; [discriminate|repeat split; cbn; congruence]].
        apply in_tree_occs. eexists pre, _, post. split; [reflexivity|]. left. reflexivity.
    + intros (d & x & Hin & En). exists (occ Def KDbgAnnotation None x). split; [|split; [discriminate|repeat split; cbn; congruence]].
      apply in_tree_occs. apply in_split in Hin as (pre & post & ->). exists pre, (SDbgAnnotation x d), post. split; [reflexivity|]. left. reflexivity.
    + intros (sig & body & Hn & H). apply function_defs_nth in Hn as (pre & kw & post & -> & <-).
      destruct (block_labels_in (length (function_defs pre)) _ _ H) as (x & Hx & E1 & E2 & E3 & E4). exists x. split; [|split; [congruence|repeat split; congruence]].
      apply in_tree_occs. exists pre, (SFuncDef kw sig body), post. split; [reflexivity|]. cbn [stmt_occs Nat.add]. right. apply in_app_iff. right. exact Hx.
    + intros (sig & body & Hn & H). apply function_defs_nth in Hn as (pre & kw & post & -> & <-). destruct H as [H|H].
      * apply in_map_iff in H as (a & En & Ha). exists (occ Def KLocalVar (Some (length (function_defs pre))) (fa_name a)).
        split; [|split; [discriminate|repeat split; cbn; congruence]].
        apply in_tree_occs. exists pre, (SFuncDef kw sig body), post. split; [reflexivity|]. cbn [stmt_occs Nat.add]. right. apply in_app_iff. left.
        unfold param_occs. apply in_map_iff. exists a. auto.
      * destruct (block_defs_in (length (function_defs pre)) _ _ H) as (x & Hx & E1 & E2 & E3 & E4). exists x. split; [|split; [congruence|repeat split; congruence]].
        apply in_tree_occs. exists pre, (SFuncDef kw sig body), post. split; [reflexivity|]. cbn [stmt_occs Nat.add]. right. apply in_app_iff. right. exact Hx.
  - intros (x & Hx & Hu & E1 & E2 & E3). apply in_tree_occs in Hx as (pre & s & post & -> & Hx). unfold introduced. rewrite <- E1, <- E2, <- E3. clear o E1 E2 E3.
    destruct s; cbn [stmt_occs] in Hx.
    + destruct Hx as [<-|[]]. cbn. exists def, name. split; [apply in_elt|reflexivity].
    + destruct Hx as [<-|[]]. cbn. eexists. split; [apply in_elt|]. cbn. apply text_eqb_refl.
    + destruct Hx as [<-|Hx]; [cbn; eexists; split; [apply in_elt|]; cbn; apply text_eqb_refl|].
      assert (nth_error (function_defs (pre ++ SFuncDef define_kw sig body :: post)) (length (function_defs pre)) = Some (sig, body)) as Hn.
      { apply function_defs_nth. eauto. }
      apply in_app_iff in Hx as [Hx|Hx].
      * apply in_map_iff in Hx as (a & <- & Ha). cbn. exists sig, body. split; [exact Hn|]. left. apply in_map_iff. eauto.
      * destruct (in_block_defs _ _ _ Hx Hu) as (-> & [(-> & _ & Hx')|(-> & _ & Hx')]); exists sig, body; (split; [exact Hn|]); [right|]; exact Hx'.
    + contradiction.
    + destruct Hx as [<-|[]]. cbn. exists def, name. split; [apply in_elt|reflexivity].
Qed.

(** ** Undefined uses and redefinitions *)
Section Tree.
Variables (ss : list statement) (toks : list stoken) (hi : nat).
Hypothesis Hsp : spans_in 0 hi toks.
Hypothesis Hsub : subseq (flat_map stmt_tokens ss) toks.
Hypothesis Hr : ranges_in_order 0 (flat_map func_ranges ss).

Lemma token_occs_use t o : In o (token_occs ss t) -> o_ud o = Use /\ o_kind o <> KLabel.
Proof.
  unfold token_occs. destruct (fst t); try contradiction.
  - destruct (containing _ _); [|contradiction]. intros [<-|[]]. split; [reflexivity|discriminate].
  - intros [<-|[]]. split; [reflexivity|]. cbn. destruct (is_function ss n); discriminate.
  - intros [<-|[]]. split; [reflexivity|discriminate].
Qed.
Lemma tree_use_label o : In o (tree_occs 0 ss) -> o_ud o = Use -> o_kind o = KLabel.
Proof.
  intros H Hu. apply in_tree_occs in H as (pre & s & post & _ & H). cbn [Nat.add] in H. destruct s; cbn [stmt_occs] in H.
  - destruct H as [<-|[]]; discriminate.
  - destruct H as [<-|[]]; discriminate.
  - destruct H as [<-|H]; [discriminate|]. apply in_app_iff in H as [H|H].
    + apply in_map_iff in H as (a & <- & _). discriminate.
    + apply in_flat_map in H as (b & Hb & H). unfold block_occs in H. apply in_app_iff in H as [H|H].
      * unfold label_occs in H. destruct (bb_label b); [|contradiction]. destruct H as [<-|[]]. discriminate.
      * apply in_flat_map in H as (i & Hi & H). unfold instr_occs in H. apply in_app_iff in H as [H|H].
        -- unfold target_occs in H. destruct (i_target i); [|contradiction]. destruct H as [<-|[]]. discriminate.
        -- apply in_map_iff in H as (x & <- & _). reflexivity.
  - contradiction.
  - destruct H as [<-|[]]; discriminate.
Qed.
Lemma recorded_nonuse o : o_ud o <> Use -> In o (recorded ss toks) <-> In o (tree_occs 0 ss).
Proof.
  intros Hu. rewrite (recorded_eq _ _ _ Hsp Hsub), in_app_iff, filter_In. split; [|tauto]. intros [H|[H _]]; [exact H|]. exfalso.
  apply in_flat_map in H as (t & _ & H). apply token_occs_use in H as [H _]. contradiction.
Qed.
Lemma undefined_meaning o : In o (undefined_uses (recorded ss toks)) <->
  o_ud o = Use /\ ~ introduced ss o /\ (In o (tree_occs 0 ss) \/ exists t, In t toks /\ In o (token_occs ss t)).
Proof.
  unfold undefined_uses. rewrite filter_In, andb_true_iff, negb_true_iff.
  assert (Hint : existsb (fun x => negb (is_use x) && same_symbolb x o) (recorded ss toks) = true <-> introduced ss o).
  { rewrite existsb_exists, introduced_iff. split.
    - intros (x & Hx & H). apply andb_true_iff in H as [H1 H2]. apply same_symbolb_spec in H2. apply negb_true_iff in H1.
      assert (o_ud x <> Use) as Hu by (unfold is_use in H1; destruct (o_ud x); congruence). exists x. split; [apply recorded_nonuse; assumption|]. auto.
    - intros (x & Hx & Hu & Hs). exists x. split; [apply recorded_nonuse; assumption|]. apply andb_true_iff. split; [|apply same_symbolb_spec; exact Hs].
      unfold is_use. destruct (o_ud x); [reflexivity|reflexivity|congruence]. }
  split.
  - intros (Hin & Hu & Hno). split; [unfold is_use in Hu; destruct (o_ud o); congruence|]. split; [rewrite <- Hint; congruence|].
    rewrite (recorded_eq _ _ _ Hsp Hsub), in_app_iff, filter_In in Hin. destruct Hin as [Hin|[Hin _]]; [left; exact Hin|]. right. apply in_flat_map in Hin. exact Hin.
  - intros (Hu & Hno & Hin). rewrite <- Hint in Hno. apply not_true_iff_false in Hno. split; [|split; [unfold is_use; rewrite Hu; reflexivity|exact Hno]].
    rewrite (recorded_eq _ _ _ Hsp Hsub), in_app_iff, filter_In. destruct Hin as [Hin|(t & Ht & Hin)]; [left; exact Hin|]. right.
    split; [apply in_flat_map; eauto|]. unfold fresh. apply negb_true_iff. apply existsb_false. intros x Hx.
    destruct (same_place o x) eqn:Es; [|reflexivity]. exfalso. apply same_place_spec in Es as (E1 & E2 & E3 & E4).
    apply token_occs_use in Hin as [_ Hk]. assert (o_ud x <> Use) as Hux by (intros E; apply Hk; rewrite E1; apply tree_use_label; assumption).
    apply not_true_iff_false in Hno. apply Hno. apply Hint. apply introduced_iff. exists x. split; [exact Hx|]. split; [exact Hux|]. repeat split; congruence.
Qed.

Lemma spans_of_tree ud k b n : ud <> Use -> spans_of (recorded ss toks) ud k b n = spans_of (tree_occs 0 ss) ud k b n.
Proof.
  intros Hu. rewrite (recorded_eq _ _ _ Hsp Hsub). unfold spans_of. rewrite filter_app, map_app.
  replace (filter (entry_is ud k b n) (filter _ _)) with (@nil occurrence); [apply app_nil_r|]. symmetry.
  destruct (filter (entry_is ud k b n) _) as [|x r] eqn:E; [reflexivity|]. exfalso.
  assert (In x (filter (entry_is ud k b n) (filter (fresh ss) (flat_map (token_occs ss) toks)))) as Hx by (rewrite E; left; reflexivity).
  apply filter_In in Hx as [Hx He]. apply filter_In in Hx as [Hx _]. apply in_flat_map in Hx as (t & _ & Hx). apply token_occs_use in Hx as [Hx _].
  apply entry_is_spec in He. destruct He as [He _]. congruence.
Qed.
Lemma order_sub l : forall lo l', ranges_in_order lo l -> subseq l' l -> ranges_in_order lo l'.
Proof.
  induction l as [|s l IH]; intros lo l' H Hs.
  - inversion Hs; subst. constructor.
  - inversion H as [|n s' r H1 H2 H3 E1]; subst. inversion Hs as [|x y z H4|x y z H4]; subst.
    + apply IH; [|exact H4]. inversion H3; subst; constructor; [lia|assumption|assumption].
    + constructor; [assumption|assumption|]. apply IH; assumption.
Qed.
Lemma subseq_filter {A} (f : A -> bool) l : subseq (filter f l) l.
Proof. induction l as [|a l IH]; cbn; [constructor|]. destruct (f a); constructor; exact IH. Qed.
Lemma tree_spans_order ud k b n : ranges_in_order 0 (spans_of (tree_occs 0 ss) ud k b n).
Proof.
  eapply order_sub; [exact (tree_order _ _ _ Hsp Hsub)|]. unfold spans_of.
  replace (map o_span (filter (entry_is ud k b n) (tree_occs 0 ss))) with (map snd (map occ_token (filter (entry_is ud k b n) (tree_occs 0 ss)))) by (rewrite map_map; reflexivity).
  apply subseq_map. eapply subseq_trans; [apply subseq_map, subseq_filter|apply tree_occ_tokens].
Qed.
Lemma order_first l : forall lo d ds sp, ranges_in_order lo (d :: ds) -> l = d :: ds -> In sp ds -> sp_start d < sp_start sp.
Proof.
  intros lo d ds sp H _ Hin. inversion H; subst. assert (sp_end d <= sp_start sp); [|lia].
  eapply in_order_start; [eassumption|exact Hin].
Qed.
Lemma redefinition_meaning o f : In (o, f) (redefinitions (recorded ss toks)) <->
  In o (tree_occs 0 ss) /\ In f (tree_occs 0 ss) /\ o_ud o = Def /\ o_ud f = Def /\ same_symbol o f /\ o <> f /\
  forall g, In g (tree_occs 0 ss) -> o_ud g = Def -> same_symbol g o -> sp_start (o_span f) <= sp_start (o_span g).
Proof.
  rewrite in_redefinitions by (eapply recorded_nodup; eassumption).
  assert (Ho : ranges_in_order 0 (spans_of (tree_occs 0 ss) Def (o_kind o) (o_body o) (o_name o))) by apply tree_spans_order.
  split.
  - intros (Hin & Eu & d & ds & E & -> & Hds). rewrite spans_of_tree in E by discriminate. rewrite E in Ho.
    split; [apply recorded_nonuse; congruence|]. split; [apply (in_span_occ (tree_occs 0 ss) (mkOcc d Def (o_kind o) (o_name o) (o_body o))); cbn; rewrite E; left; reflexivity|].
    split; [exact Eu|]. split; [reflexivity|]. split; [repeat split|].
    pose proof (order_first _ _ _ _ _ Ho eq_refl Hds) as Hlt. split; [intros Eo; rewrite Eo in Hlt; cbn in Hlt; lia|].
    intros g Hg Eg (E1 & E2 & E3). cbn. apply (in_span_occ (tree_occs 0 ss)) in Hg. rewrite Eg, E1, E2, E3, E in Hg.
    destruct Hg as [<-|Hg]; [lia|]. pose proof (order_first _ _ _ _ _ Ho eq_refl Hg). lia.
  - intros (Hin & Hf & Eu & Ef & (E1 & E2 & E3) & Hne & Hmin). split; [apply recorded_nonuse; [congruence|exact Hin]|]. split; [exact Eu|].
    apply (in_span_occ (tree_occs 0 ss)) in Hf as Hf'. rewrite Ef, <- E1, <- E2, <- E3 in Hf'. apply (in_span_occ (tree_occs 0 ss)) in Hin as Hin'. rewrite Eu in Hin'.
    rewrite spans_of_tree by discriminate. destruct (spans_of (tree_occs 0 ss) Def _ _ _) as [|d ds] eqn:E; [contradiction|]. exists d, ds. split; [reflexivity|].
    assert (o_span f = d) as Ed.
    { destruct Hf' as [Hf'|Hf']; [congruence|]. pose proof (order_first _ _ _ _ _ Ho eq_refl Hf') as Hlt.
      specialize (Hmin (mkOcc d Def (o_kind o) (o_name o) (o_body o))). cbn in Hmin. exfalso. assert (sp_start (o_span f) <= sp_start d); [|lia]. apply Hmin; [|reflexivity|repeat split].
      apply (in_span_occ (tree_occs 0 ss)). cbn. rewrite E. left. reflexivity. }
    split; [destruct f; cbn in *; congruence|]. destruct Hin' as [Hin'|Hin']; [|exact Hin']. exfalso. apply Hne. destruct o, f; cbn in *; congruence.
Qed.
End Tree.

(** ** Places of errors *)
Lemma enum_spans t : forall i, Forall (fun x => sp_start (snd x) < sp_end (snd x) <= i + length t) (enum_from i t).
Proof.
  induction t as [|c t IH]; intros i; cbn; [constructor|]. constructor; [cbn; lia|]. eapply Forall_impl; [|apply IH]. intros x H. cbv beta in *. cbn [length]. lia.
Qed.
Lemma error_spans u src pr : parse_from_str u src = Val pr ->
  Forall (fun e => sp_start (e_span e) < sp_end (e_span e) <= length src \/ e_span e = mkSpan (length src) (S (length src)) \/
                   e_span e = mkSpan (byte_len src) (S (byte_len src))) (pr_errors pr).
Proof.
  intros H. unfold parse_from_str in H. destruct (tokenize u src) as [[o terrs]|] eqn:Et; [|discriminate]. cbn [rbind] in H.
  assert (Ht : Forall (fun e => sp_start (e_span e) < sp_end (e_span e) <= length src \/ e_span e = mkSpan (length src) (S (length src)) \/
                   e_span e = mkSpan (byte_len src) (S (byte_len src))) terrs).
  { unfold tokenize in Et. set (P := fun sp => sp_start sp < sp_end sp <= length src \/ sp = mkSpan (length src) (S (length src)) \/ sp = mkSpan (byte_len src) (S (byte_len src))).
    change (Forall (fun e => P (e_span e)) terrs). assert (P (mkSpan (length src) (length src + 1))) as Pe by (right; left; f_equal; lia).
    eapply good_errors; [exact (good_tokenizer u _ P Pe)| |exact Et].
    unfold oks. eapply Forall_impl; [|apply enum_spans]. intros x Hx. left. exact Hx. }
  destruct o as [toks|]; cbn [rbind] in H.
  - destruct (parse_tokens src toks) as [[so perrs]|] eqn:Ep; [|discriminate]. cbn [rbind] in H. inversion H; subst. cbn [pr_errors]. apply Forall_app. split.
    + apply Forall_map. exact Ht.
    + apply Forall_map. cbn [simple_map e_span]. unfold parse_tokens in Ep.
      set (P := fun sp => sp_start sp < sp_end sp <= length src \/ sp = mkSpan (length src) (S (length src)) \/ sp = mkSpan (byte_len src) (S (byte_len src))).
      change (Forall (fun e => P (e_span e)) perrs).
      assert (P (mkSpan (byte_len src) (byte_len src + 1))) as Pe by (right; right; f_equal; lia).
      eapply good_errors; [exact (good_module _ P Pe)| |exact Ep].
      apply tokenize_spans in Et. unfold oks. apply Forall_forall. intros x Hx. apply filter_In in Hx as [Hx _].
        apply (spans_in_each _ _ _ _ Et) in Hx. left. lia.
  - inversion H; subst. cbn. rewrite app_nil_r. apply Forall_map. exact Ht.
Qed.

(** ** All diagnostics of a document *)
Lemma instructions_eq ss : all_instructions ss = instructions ss.
Proof.
  unfold all_instructions, instructions. induction ss as [|s ss IH]; [reflexivity|].
  cbn [flat_map function_defs]. unfold function_defs. cbn [flat_map]. fold (function_defs ss). rewrite !flat_map_app, IH. f_equal.
  destruct s; cbn; try reflexivity. rewrite app_nil_r. reflexivity.
Qed.
Lemma missing_refs_iff i : missing_refs i = true <-> needs_targets i /\ i_refs i = [].
Proof.
  unfold missing_refs, needs_targets, is_branching, mnemonic. rewrite andb_true_iff, !orb_true_iff, ends_with_spec.
  assert (Hn : (match i_refs i with [] => true | _ => false end) = true <-> i_refs i = []) by (destruct (i_refs i); split; congruence).
  rewrite Hn. destruct (text_eqb_spec (fst (i_instr i)) (str "switch")), (text_eqb_spec (fst (i_instr i)) (str "phi")); intuition congruence.
Qed.
Lemma mnemonic_token ss i : In i (instructions ss) -> In (tident (i_instr i)) (flat_map stmt_tokens ss).
Proof.
  unfold instructions. intros H. apply in_flat_map in H as ([sig body] & Hf & H). apply in_flat_map in H as (b & Hb & H). cbn [snd] in Hb.
  apply In_nth_error in Hf as (id & Hf). apply function_defs_nth in Hf as (pre & kw & post & -> & _).
  apply in_flat_map. exists (SFuncDef kw sig body). split; [apply in_elt|]. cbn [stmt_tokens]. right. rewrite !in_app_iff. right. right. left.
  apply in_flat_map. exists b. split; [exact Hb|]. unfold bb_tokens. rewrite !in_app_iff. right. right. apply in_flat_map. exists i. split; [exact H|].
  unfold instr_tokens. rewrite !in_app_iff. right. left. left. reflexivity.
Qed.
Lemma subseq_in {A} (a b : list A) x : subseq a b -> In x a -> In x b.
Proof. induction 1; cbn; intuition. Qed.
Lemma filter_map_filter {A B} (f : A -> bool) (g : A -> option B) l :
  filter_map (fun a => if f a then g a else None) l = filter_map g (filter f l).
Proof. induction l as [|a l IH]; cbn; [reflexivity|]. destruct (f a); cbn; [destruct (g a); rewrite IH|exact IH]; reflexivity. Qed.
Lemma filter_map_drop {A B} (f : A -> bool) (g : A -> option B) l : (forall a, In a l -> f a = true -> g a = None) ->
  filter_map g l = filter_map g (filter (fun a => negb (f a)) l).
Proof.
  induction l as [|a l IH]; cbn; intros H; [reflexivity|]. destruct (f a) eqn:E; cbn.
  - rewrite (H a (or_introl eq_refl) E). apply IH. intros; apply H; [right|]; assumption.
  - rewrite IH; [reflexivity|]. intros; apply H; [right|]; assumption.
Qed.

Lemma document_diagnostics e uri src d diags : plain_document src -> visits_all (e_ord e) -> analyze e uri src = Val (d, diags) ->
  exists pr, parse_from_str (e_u e) src = Val pr /\
    Permutation diags
      (map (syntax_diagnostic (e_xord e) src) (filter (fun x => negb (at_end src x)) (pr_errors pr)) ++
       map (missing_diagnostic src) (filter missing_refs (instructions (pr_stmts pr))) ++
       map (undefined_diagnostic src) (undefined_uses (recorded (pr_stmts pr) (pr_tokens pr))) ++
       map (redefinition_diagnostic src uri) (redefinitions (recorded (pr_stmts pr) (pr_tokens pr)))).
Proof.
  intros Hp Ho H. destruct (analyze_cases e uri src) as (pr & E & [[_ Hx]|[_ (d' & diags' & Hx & H1 & H2 & Hix)]]); [congruence|].
  assert (d' = d /\ diags' = diags) as [-> ->] by (split; congruence).
  exists pr. split; [exact E|]. pose proof (indexed_ok _ _ _ _ Hix) as (_ & Hi & Hsp & Hsub & Hr).
  unfold analyze in H. rewrite E in H. cbn [rbind] in H. destruct (semantic_tokens_from_tokens (pr_tokens pr)) as [sem|]; [|discriminate]. cbn [rbind] in H.
  destruct Hix as [_ Hc]. destruct (create_index src (pr_tokens pr) (pr_stmts pr)) as [ix|] eqn:Ec; [|discriminate]. cbn [rbind] in H.
  inversion H; subst d diags. cbn [doc_index] in *. clear H Hc Hx. pose proof Hp as (Ha & _ & Hs).
  assert (E1 : diagnostics_from_parser (e_xord e) src (pr_errors pr) = map (syntax_diagnostic (e_xord e) src) (filter (fun x => negb (at_end src x)) (pr_errors pr))).
  { unfold diagnostics_from_parser. rewrite (filter_map_drop (at_end src)).
    - apply filter_map_all. intros x Hin. apply filter_In in Hin as [Hin Hne]. pose proof (error_spans _ _ _ E) as He. rewrite Forall_forall in He.
      specialize (He x Hin). rewrite (byte_len_ascii _ Ha) in He. destruct He as [He|He].
      + rewrite plain_range by (assumption || lia). reflexivity.
      + apply negb_true_iff in Hne. unfold at_end in Hne. assert (span_eqb (e_span x) (mkSpan (length src) (S (length src))) = true) by (apply span_eqb_spec; tauto). congruence.
    - intros x Hin Hx. apply span_eqb_spec in Hx. rewrite Hx. unfold range_to_lsp. cbn [sp_start sp_end].
      rewrite (offset_to_lsp_pos_none src (S (length src))) by (rewrite byte_len_ascii by exact Ha; lia). destruct (offset_to_lsp_pos src (length src)); reflexivity. }
  assert (E2 : diagnostics_from_statements src (pr_stmts pr) = map (missing_diagnostic src) (filter missing_refs (instructions (pr_stmts pr)))).
  { unfold diagnostics_from_statements. rewrite filter_map_filter, instructions_eq. apply filter_map_all. intros i Hin. apply filter_In in Hin as [Hin _].
    apply mnemonic_token in Hin. apply (subseq_in _ _ _ Hsub) in Hin. apply (spans_in_each _ _ _ _ Hsp) in Hin. cbn [tident snd] in Hin.
    rewrite plain_range by (assumption || lia). reflexivity. }
  rewrite E1, E2. apply Permutation_app_head, Permutation_app_head. apply index_diagnostics; [exact Ho|exact Hi|eapply recorded_nodup; eassumption|].
  intros o Hin. apply (recorded_token _ _ _ Hsp Hsub) in Hin. apply (spans_in_each _ _ _ _ Hsp) in Hin. cbn [occ_token snd] in Hin. apply plain_range; [exact Hp|lia|lia].
Qed.
Lemma undefined_document u src pr o : parse_from_str u src = Val pr ->
  (In o (undefined_uses (recorded (pr_stmts pr) (pr_tokens pr))) <->
   o_ud o = Use /\ ~ introduced (pr_stmts pr) o /\
   (In o (tree_occs 0 (pr_stmts pr)) \/ exists t, In t (pr_tokens pr) /\ In o (token_occs (pr_stmts pr) t))).
Proof. intros H. pose proof (provenance _ _ _ H) as Hs. apply parse_from_str_module in H as [Hsp _]. eapply undefined_meaning; eassumption. Qed.
Lemma undefined_once u src pr : parse_from_str u src = Val pr -> NoDup (undefined_uses (recorded (pr_stmts pr) (pr_tokens pr))).
Proof.
  intros H. pose proof (provenance _ _ _ H) as Hs. pose proof (layout _ _ _ H) as (_ & Hr & _). apply parse_from_str_module in H as [Hsp _].
  apply NoDup_filter. eapply recorded_nodup; eassumption.
Qed.
Lemma redefinitions_document u src pr o f : parse_from_str u src = Val pr ->
  (In (o, f) (redefinitions (recorded (pr_stmts pr) (pr_tokens pr))) <->
   In o (tree_occs 0 (pr_stmts pr)) /\ In f (tree_occs 0 (pr_stmts pr)) /\ o_ud o = Def /\ o_ud f = Def /\
   same_symbol o f /\ o <> f /\
   forall g, In g (tree_occs 0 (pr_stmts pr)) -> o_ud g = Def -> same_symbol g o ->
     sp_start (o_span f) <= sp_start (o_span g)).
Proof.
  intros H. pose proof (provenance _ _ _ H) as Hs. pose proof (layout _ _ _ H) as (_ & Hr & _). apply parse_from_str_module in H as [Hsp _].
  eapply redefinition_meaning; eassumption.
Qed.
Lemma redefinitions_once u src pr : parse_from_str u src = Val pr -> NoDup (map fst (redefinitions (recorded (pr_stmts pr) (pr_tokens pr)))).
Proof.
  intros H. pose proof (provenance _ _ _ H) as Hs. pose proof (layout _ _ _ H) as (_ & Hr & _). apply parse_from_str_module in H as [Hsp _].
  assert (NoDup (recorded (pr_stmts pr) (pr_tokens pr))) as Hn by (eapply recorded_nodup; eassumption).
  apply nodup_map_injective; [|apply redefinitions_nodup; exact Hn].
  intros [a x] [b y] Ha Hb E. cbn in E. subst b. apply in_redefinitions in Ha as (_ & _ & d & ds & E1 & -> & _); [|exact Hn].
  apply in_redefinitions in Hb as (_ & _ & d' & ds' & E2 & -> & _); [|exact Hn]. congruence.
Qed.
Lemma error_places u src pr : ascii_text src = true -> parse_from_str u src = Val pr ->
  Forall (fun e => sp_start (e_span e) < sp_end (e_span e) <= length src \/ at_end src e = true) (pr_errors pr).
Proof.
  intros Ha H. apply error_spans in H. eapply Forall_impl; [|exact H]. intros e He. rewrite (byte_len_ascii _ Ha) in He.
  destruct He as [He|He]; [left; exact He|right]. apply span_eqb_spec. tauto.
Qed.
