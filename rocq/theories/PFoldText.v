(** The collapsed texts of folding ranges. *)
From Verif Require Import Text Rope Chumsky Tokenizer Parser Numbers Index SemTok Diag Rename Cfg Backtrace Server SpecText SpecNumbers SpecParse SpecIndex SpecDiag SpecBacktrace SpecCfg SpecView
  PNumbers PIndex PIndexDoc PDiagDoc PCfg PHints PView PNav PFold.

Lemma forall2_nth {A B} (R : A -> B -> Prop) : forall l m, length l = length m ->
  (forall i a b, nth_error l i = Some a -> nth_error m i = Some b -> R a b) -> Forall2 R l m.
Proof.
  induction l as [|a l IH]; intros [|b m] E H; try discriminate; constructor; [apply (H 0); reflexivity|].
  apply IH; [injection E as E; exact E|]. intros i x y H1 H2. apply (H (S i)); assumption.
Qed.

Lemma block_label_symbols id b n : symbol_in (block_occs id b) KLabel (Some id) n <->
  (exists l, bb_label b = Some l /\ fst l = n) \/ (exists i r, In i (bb_instrs b) /\ In r (i_refs i) /\ fst r = n).
Proof.
  unfold symbol_in, block_occs. split.
  - intros (o & Ho & Hk & Hb & <-). apply in_app_or in Ho as [Ho|Ho].
    + left. unfold label_occs in Ho. destruct (bb_label b) as [l|]; [|contradiction]. destruct Ho as [<-|[]]. exists l. auto.
    + right. apply in_flat_map in Ho as (i & Hi & Ho). unfold instr_occs in Ho. apply in_app_or in Ho as [Ho|Ho].
      * unfold target_occs in Ho. destruct (i_target i); [|contradiction]. destruct Ho as [<-|[]]. discriminate.
      * apply in_map_iff in Ho as (r & <- & Hr). exists i, r. auto.
  - intros [(l & El & <-)|(i & r & Hi & Hr & <-)].
    + exists (occ Def KLabel (Some id) l). rewrite El. split; [left; reflexivity|auto].
    + exists (occ Use KLabel (Some id) r). split; [|auto]. apply in_or_app. right. apply in_flat_map. exists i. split; [exact Hi|].
      unfold instr_occs. apply in_or_app. right. apply in_map. exact Hr.
Qed.
Lemma other_body_symbols id id' b n : id <> id' -> ~ symbol_in (block_occs id b) KLabel (Some id') n.
Proof.
  intros Hne (o & Ho & Hk & Hb & _). apply Hne. unfold block_occs in Ho. apply in_app_or in Ho as [Ho|Ho].
  - unfold label_occs in Ho. destruct (bb_label b); [|contradiction]. destruct Ho as [<-|[]]. cbn in Hb. congruence.
  - apply in_flat_map in Ho as (i & _ & Ho). unfold instr_occs in Ho. apply in_app_or in Ho as [Ho|Ho].
    + unfold target_occs in Ho. destruct (i_target i); [|contradiction]. destruct Ho as [<-|[]]. discriminate.
    + apply in_map_iff in Ho as (r & <- & _). cbn in Hb. congruence.
Qed.
Lemma stmt_label_symbols id id' s n : symbol_in (stmt_occs id s) KLabel (Some id') n <->
  id = id' /\ exists f, function_defs [s] = [f] /\ mentions_label (snd f) n.
Proof.
  split.
  - intros (o & Ho & Hk & Hb & Hn). destruct s; cbn [stmt_occs] in Ho; try (destruct Ho as [<-|[]]; discriminate); [|contradiction].
    destruct Ho as [<-|Ho]; [discriminate|]. apply in_app_or in Ho as [Ho|Ho].
    + unfold param_occs in Ho. apply in_map_iff in Ho as (a & <- & _). discriminate.
    + apply in_flat_map in Ho as (b & Hb' & Ho). assert (symbol_in (block_occs id b) KLabel (Some id') n) as Hsy by (exists o; auto).
      destruct (Nat.eq_dec id id') as [<-|Hne]; [|destruct (other_body_symbols _ _ _ _ Hne Hsy)]. split; [reflexivity|].
      eexists. split; [reflexivity|]. exists b. split; [exact Hb'|]. apply (block_label_symbols id). exact Hsy.
  - intros (<- & f & E & b & Hb & H). destruct s; cbn in E; try discriminate. injection E as <-. cbn [snd] in Hb.
    apply (block_label_symbols id) in H as (o & Ho & H). exists o. split; [|exact H]. cbn [stmt_occs]. right. apply in_or_app. right. apply in_flat_map. exists b. auto.
Qed.
Lemma tree_label_symbols n : forall ss k id, symbol_in (tree_occs k ss) KLabel (Some (k + id)) n <->
  exists f, nth_error (function_defs ss) id = Some f /\ mentions_label (snd f) n.
Proof.
  induction ss as [|s ss IH]; intros k id.
  - split; [intros (o & [] & _)|]. intros (f & E & _). destruct id; discriminate.
  - cbn [tree_occs]. assert (symbol_in (stmt_occs k s ++ tree_occs (k + is_def s) ss) KLabel (Some (k + id)) n <->
      symbol_in (stmt_occs k s) KLabel (Some (k + id)) n \/ symbol_in (tree_occs (k + is_def s) ss) KLabel (Some (k + id)) n) as ->.
    { unfold symbol_in. split.
      - intros (o & Ho & H). apply in_app_or in Ho as [Ho|Ho]; [left|right]; exists o; auto.
      - intros [(o & Ho & H)|(o & Ho & H)]; exists o; split; auto; apply in_or_app; auto. }
    rewrite stmt_label_symbols. assert (function_defs (s :: ss) = function_defs [s] ++ function_defs ss) as -> by (unfold function_defs; cbn [flat_map]; rewrite app_nil_r; reflexivity).
    destruct (Nat.eq_dec (is_def s) 0) as [E0|E0].
    + assert (function_defs [s] = []) as -> by (destruct s; try reflexivity; discriminate). rewrite E0, Nat.add_0_r. rewrite IH. cbn [app]. split; [|auto].
      intros [(_ & f & Ef & _)|H]; [discriminate|exact H].
    + destruct s; try (destruct (E0 eq_refl)). cbn [is_def function_defs flat_map app]. destruct id as [|id].
      * cbn [nth_error]. split.
        -- intros [(_ & f & Ef & H)|H]; [injection Ef as <-; eexists; split; [reflexivity|exact H]|].
           exfalso. destruct H as (o & Ho & Hk & Hb & _). clear - Ho Hb. revert Ho Hb.
           assert (forall ss m, m > k -> In o (tree_occs m ss) -> o_body o = Some (k + 0) -> False) as G.
           { induction ss0 as [|s ss0 IH]; intros m Hm Ho Hb; [contradiction|]. cbn [tree_occs] in Ho. apply in_app_or in Ho as [Ho|Ho]; [|apply (IH (m + is_def s)); auto; lia].
             destruct s; cbn [stmt_occs] in Ho; try (destruct Ho as [<-|[]]; discriminate); [|contradiction].
             destruct Ho as [<-|Ho]; [discriminate|]. apply in_app_or in Ho as [Ho|Ho].
             - unfold param_occs in Ho. apply in_map_iff in Ho as (a & <- & _). cbn in Hb. injection Hb as Hb. lia.
             - apply in_flat_map in Ho as (b & _ & Ho). unfold block_occs in Ho. apply in_app_or in Ho as [Ho|Ho].
               + unfold label_occs in Ho. destruct (bb_label b); [|contradiction]. destruct Ho as [<-|[]]. cbn in Hb. injection Hb as Hb. lia.
               + apply in_flat_map in Ho as (i & _ & Ho). unfold instr_occs in Ho. apply in_app_or in Ho as [Ho|Ho].
                 * unfold target_occs in Ho. destruct (i_target i); [|contradiction]. destruct Ho as [<-|[]]. cbn in Hb. injection Hb as Hb. lia.
                 * apply in_map_iff in Ho as (r & <- & _). cbn in Hb. injection Hb as Hb. lia. }
           apply G. lia.
        -- intros (f & Ef & H). injection Ef as <-. left. split; [lia|]. eexists. split; [reflexivity|exact H].
      * cbn [nth_error]. replace (k + S id) with (k + 1 + id) by lia. fold (function_defs ss). rewrite IH. split; [|auto].
        intros [(E & _)|H]; [lia|exact H].
Qed.

Section Text.
Variables (e : env) (src : text) (d : doc) (pr : parser_result).
Hypothesis Hix : indexed (e_u e) src pr (doc_index d).

Lemma label_symbols id n : symbol_in (recorded (pr_stmts pr) (pr_tokens pr)) KLabel (Some id) n <->
  exists f, nth_error (function_defs (pr_stmts pr)) id = Some f /\ mentions_label (snd f) n.
Proof.
  rewrite <- (tree_label_symbols n (pr_stmts pr) 0 id). cbn [Nat.add]. destruct (indexed_ok _ _ _ _ Hix) as (_ & _ & Hsp & Hsub & _).
  rewrite (recorded_eq _ _ _ Hsp Hsub). unfold symbol_in. split.
  - intros (o & Ho & Hk & H). exists o. apply in_app_or in Ho as [Ho|Ho]; [auto|]. exfalso.
    apply filter_In in Ho as [Ho _]. apply in_flat_map in Ho as (t & _ & Ho). apply token_occs_use in Ho. tauto.
  - intros (o & Ho & H). exists o. split; [apply in_or_app; left; exact Ho|exact H].
Qed.
Lemma bodies_defs : Forall2 (fun f fb => basic_blocks fb = fb_blocks (snd f) /\ numbers (mentions_label (snd f)) (length (labels fb)))
  (function_defs (pr_stmts pr)) (function_bodies (doc_index d)).
Proof.
  destruct (indexed_ok _ _ _ _ Hix) as (Ho & _). apply forall2_nth.
  - pose proof (f_equal (@length _) (io_blocks _ _ _ _ Ho)) as E. rewrite map_length in E. rewrite E. clear.
    unfold function_defs. induction (pr_stmts pr) as [|s ss IH]; [reflexivity|]. cbn [flat_map]. rewrite !app_length, IH. destruct s; reflexivity.
  - intros id f fb Hf Hfb. destruct (function_body_at _ _ _ _ _ _ Hix Hfb) as (kw & sig & body & _ & Hd & _ & Hb & _).
    rewrite Hf in Hd. injection Hd as ->. split; [exact Hb|].
    destruct (io_locals _ _ _ _ Ho id fb Hfb) as [[Hnd Ht] _]. exists (map fst (labels fb)). split; [exact Hnd|]. split; [|apply map_length].
    intros n. assert (mentions_label body n <-> symbol_in (recorded (pr_stmts pr) (pr_tokens pr)) KLabel (Some id) n) as Hm.
    { rewrite label_symbols, Hf. split; [intros H; eexists; split; [reflexivity|exact H]|]. intros (f & E & H). injection E as <-. exact H. }
    cbn [snd]. rewrite Hm. specialize (Ht n). destruct (alookup n (labels fb)) eqn:El.
    + split; [intros _; tauto|]. intros _. apply alookup_in in El. apply (in_map fst) in El. exact El.
    + split; [|intros H; contradiction]. intros Hin. apply in_map_iff in Hin as ([n' x] & <- & Hin). cbn in El. exfalso. apply (in_alookup _ _ _ Hnd) in Hin. congruence.
Qed.
End Text.

Lemma says_render n what x : fo_text x = render_N (N.of_nat n) ++ what -> says_count n what x.
Proof. intros H. exists (render_N (N.of_nat n)). split; [apply render_N_canonical|exact H]. Qed.
Lemma fold_texts {A} src (g : A -> span) (txt : A -> text) l : (forall a, In a l -> exists r, range_to_lsp src (g a) = Some r) ->
  Forall2 (fun a x => fo_text x = txt a) l (filter_map (fun a => obind (range_to_lsp src (g a)) (fun r => Some (mkFold (p_line (r_start r)) (p_line (r_end r)) (txt a)))) l).
Proof.
  induction l as [|a l IH]; intros H; [constructor|]. cbn [filter_map]. destruct (H a (or_introl eq_refl)) as [r Hr].
  specialize (IH (fun b Hb => H b (or_intror Hb))). rewrite Hr. cbn [obind]. constructor; [reflexivity|exact IH].
Qed.
Lemma forall2_trans {A B C} (R : A -> B -> Prop) (S : B -> C -> Prop) l m n : Forall2 R l m -> Forall2 S m n ->
  Forall2 (fun a c => exists b, R a b /\ S b c) l n.
Proof. intros H. revert n. induction H; intros k Hk; inversion Hk; subst; constructor; eauto. Qed.

Lemma folding_texts e s uri src d : small src -> opened e s uri src d ->
  exists fs bss, folding_range s uri = Some (fs ++ concat bss) /\
    Forall2 (fun f x => exists n, numbers (mentions_label (snd f)) n /\ says_count n (str " basic blocks") x) (function_defs (doc_stmts d)) fs /\
    Forall2 (fun f bs => Forall2 (fun b x => says_count (length (bb_instrs b)) (str " instructions") x) (fb_blocks (snd f)) bs) (function_defs (doc_stmts d)) bss.
Proof.
  intros Hs Ho. apply opened_indexed in Ho as (pr & Hix & Hrope & -> & Hg).
  pose proof (bodies_defs e src d pr Hix) as HB.
  unfold folding_range. rewrite Hg. cbn [obind]. rewrite Hrope, filter_map_flat. eexists _, _. split; [reflexivity|].
  pose proof (def3_bounds e src d pr Hix Hrope Hs) as Hb.
  destruct (indexed_ok _ _ _ _ Hix) as (Hio & _). pose proof (io_ranges _ _ _ _ Hio) as Hr. rewrite ranges3 in Hr.
  assert (map (fun fb => map bb_span (basic_blocks fb)) (function_bodies (doc_index d)) = map blocks3 (defs3 (pr_stmts pr))) as Hb'.
  { rewrite <- blocks3_eq. unfold block_spans. rewrite <- (map_map basic_blocks (map bb_span)), (io_blocks _ _ _ _ Hio). unfold function_defs. clear.
    induction (pr_stmts pr) as [|x ss IH]; [reflexivity|]. cbn [flat_map]. rewrite !map_app, IH. destruct x; reflexivity. }
  assert (forall sp, sp_start sp <= sp_end sp -> sp_end sp <= length src -> exists r, range_to_lsp src sp = Some r) as Hsr.
  { intros sp. apply (span_range src Hs). }
  split.
  - assert (Forall2 (fun fb x => fo_text x = render_N (N.of_nat (length (labels fb))) ++ str " basic blocks") (function_bodies (doc_index d))
      (filter_map (fun f => obind (range_to_lsp src (complete_range f)) (fun r => Some (mkFold (p_line (r_start r)) (p_line (r_end r))
         (render_N (N.of_nat (length (labels f))) ++ str " basic blocks")))) (function_bodies (doc_index d)))) as G.
    { apply (fold_texts src complete_range (fun f => render_N (N.of_nat (length (labels f))) ++ str " basic blocks")).
      intros fb Hfb. assert (In (complete_range fb) (map range3 (defs3 (pr_stmts pr)))) as Hi by (rewrite <- Hr; apply in_map; exact Hfb).
      apply in_map_iff in Hi as (x & <- & Hx). apply Hb in Hx. apply Hsr; lia. }
    pose proof (forall2_trans _ _ _ _ _ HB G) as G2. clear - G2. induction G2 as [|f x l m (fb & (_ & H1) & H2) _ IH]; constructor; [|exact IH].
    exists (length (labels fb)). split; [exact H1|]. apply says_render. exact H2.
  - assert (forall fb bb, In fb (function_bodies (doc_index d)) -> In bb (basic_blocks fb) -> exists r, range_to_lsp src (bb_span bb) = Some r) as Hbb.
    { intros fb bb Hfb Hbb. assert (In (map bb_span (basic_blocks fb)) (map blocks3 (defs3 (pr_stmts pr)))) as Hi by (rewrite <- Hb'; apply (in_map (fun fb => map bb_span (basic_blocks fb))); exact Hfb).
      apply in_map_iff in Hi as (x & Ex & Hx). apply Hb in Hx as (B1 & B2 & B3). rewrite Forall_forall in B3.
      assert (In (bb_span bb) (blocks3 x)) as Hi by (rewrite Ex; apply in_map; exact Hbb). apply B3 in Hi. apply Hsr; lia. }
    clear - HB Hbb. induction HB as [|f fb l m [H1 _] HB IH]; [constructor|]. cbn [map]. constructor.
    + rewrite <- H1. assert (forall bb, In bb (basic_blocks fb) -> exists r, range_to_lsp src (bb_span bb) = Some r) as Hl by (intros; eapply Hbb; [left; reflexivity|assumption]).
      pose proof (fold_texts src bb_span (fun bb => render_N (N.of_nat (length (bb_instrs bb))) ++ str " instructions") _ Hl) as G.
      clear - G. induction G as [|b x l m H _ IH]; constructor; [apply says_render; exact H|exact IH].
    + apply IH. intros. eapply Hbb; [right; eassumption|assumption].
Qed.
Lemma numbers_unique P n m : numbers P n -> numbers P m -> n = m.
Proof.
  intros (l & H1 & H2 & <-) (k & H3 & H4 & <-). apply Nat.le_antisymm; (apply NoDup_incl_length; [assumption|]); intros x Hx; [apply H4, H2|apply H2, H4]; exact Hx.
Qed.
Lemma well_labelled_count body n : well_labelled body -> numbers (mentions_label body) n -> n = length (fb_blocks body).
Proof.
  intros (l & HF & Hnd & Hall) Hn. assert (numbers (mentions_label body) (length (fb_blocks body))) as Hm; [|eapply numbers_unique; eassumption].
  exists l. split; [exact Hnd|]. split.
  - intros x. split; [|apply Hall]. intros Hx. clear - HF Hx. unfold mentions_label. induction HF as [|b y bl yl (z & H1 & H2) _ IH]; [contradiction|].
    destruct Hx as [<-|Hx].
    + exists b. split; [left; reflexivity|]. left. eauto.
    + destruct (IH Hx) as (b' & Hb & H). exists b'. split; [right; exact Hb|exact H].
  - clear - HF. induction HF; cbn; congruence.
Qed.
Lemma folding_counts e s uri src d : small src -> opened e s uri src d ->
  exists fs bss, folding_range s uri = Some (fs ++ concat bss) /\ map (@length _) bss = map (fun f => length (fb_blocks (snd f))) (function_defs (doc_stmts d)) /\
    Forall2 (fun f x => well_labelled (snd f) -> says_count (length (fb_blocks (snd f))) (str " basic blocks") x) (function_defs (doc_stmts d)) fs.
Proof.
  intros Hs Ho. destruct (folding_texts _ _ _ _ _ Hs Ho) as (fs & bss & E & HF & HB). exists fs, bss. split; [exact E|]. split.
  - clear - HB. induction HB as [|f bs l m H _ IH]; [reflexivity|]. cbn [map]. f_equal; [|exact IH]. clear - H. induction H; cbn; congruence.
  - clear - HF. induction HF as [|f x l m (n & H1 & H2) _ IH]; constructor; [|exact IH]. intros Hw. rewrite <- (well_labelled_count _ _ Hw H1). exact H2.
Qed.
