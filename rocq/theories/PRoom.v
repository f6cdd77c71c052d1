(** Shifting numbers makes room for new ones. *)
From Verif Require Import Text Rope Chumsky Tokenizer Parser Numbers Index SemTok Diag Rename Cfg Backtrace Server SpecText SpecLex SpecParse SpecIndex SpecDiag SpecBacktrace SpecNumbers SpecCfg SpecView SpecRename SpecPatch SpecSimilar SpecRebind SpecServer SpecRoom
  PText PParse PParseProps PNumbers PHints PNav PIndex PIndexDoc PIndexText PDiag PRename PRelex PRetree PRebind PServer.

Lemma renumbered_token o n z l toks toks' hi ss x x' : l = recorded ss toks -> spans_in 0 hi toks -> subseq (flat_map stmt_tokens ss) toks ->
  retold (moved o n z) l toks toks' -> ~ global (o_kind o) -> In x l -> in_scope o x -> o_kind x = o_kind x' -> counterparts toks toks' (occ_token x) (occ_token x') -> renumbered n z x x'.
Proof.
  intros -> Hsp Hsub R Hg Hx Hs Hk T. destruct (combine_forall2 _ _ _ R _ _ T) as [R1 R2].
  assert (forall y, fst (occ_token x') = with_name (fst (occ_token x)) y -> o_name x' = y) as N1.
  { intros y. unfold occ_token. rewrite <- Hk. destruct (o_kind x); cbn; congruence. }
  assert (fst (occ_token x') = fst (occ_token x) -> o_name x' = o_name x) as N2.
  { unfold occ_token. rewrite <- Hk. destruct (o_kind x); cbn; congruence. }
  assert ((exists p ds m, numbered (o_name x) p ds m) \/ forall p ds m, ~ numbered (o_name x) p ds m) as [(p & ds & m & Hm)|Hn].
  { destruct (numbered_or_not (o_name x)) as [G|Hn]; [left; exact G|right]. intros p ds m (E & Hne & Hd & _). destruct (exists_last Hne) as (ds0 & c & ->).
    destruct Hn as [Hn|(p' & c' & Hn & Hc)]; rewrite E in Hn; [destruct p, ds0; discriminate|]. rewrite app_assoc in Hn. apply app_inj_tail in Hn as [_ <-]. apply Hc, (Hd c), in_elt. }
  - destruct (N.le_gt_cases n m) as [G1|G1]; [destruct (N.le_gt_cases m max_i64) as [G2|G2]|].
    + left. assert (moves n z (o_name x) (p ++ render_N (Z.abs_N (Z.of_N m + z)))) as M.
      { exists p, ds, m, (render_N (Z.abs_N (Z.of_N m + z))). split; [exact Hm|]. split; [exact G2|]. split; [exact G1|]. split; [apply render_N_canonical|reflexivity]. }
      rewrite (N1 _ (R1 x _ Hx eq_refl (conj Hs M))). exact M.
    + right. split; [intros k (q & es & Hq & Hle); destruct (numbered_unique _ _ _ _ _ _ _ Hm Hq) as (_ & _ & <-); lia|]. apply N2, R2.
      intros x2 y Hx2 Es [[K2 _] (q & es & k & ds' & Hq & Hle & _)].
      pose proof (occ_at_token _ _ _ Hsp Hsub x2 (occ_token x) Hx2 (recorded_token _ _ _ Hsp Hsub _ Hx) Es) as E.
      assert (o_name x2 = o_name x) as E2 by (destruct Hs as [Hs _]; unfold occ_token in E; rewrite K2, Hs in E; destruct (o_kind o); inversion E; reflexivity).
      rewrite E2 in Hq. destruct (numbered_unique _ _ _ _ _ _ _ Hm Hq) as (_ & _ & <-). lia.
    + right. split; [intros k (q & es & Hq & Hle); destruct (numbered_unique _ _ _ _ _ _ _ Hm Hq) as (_ & _ & <-); lia|]. apply N2, R2.
      intros x2 y Hx2 Es [[K2 _] (q & es & k & ds' & Hq & _ & Hle & _)].
      pose proof (occ_at_token _ _ _ Hsp Hsub x2 (occ_token x) Hx2 (recorded_token _ _ _ Hsp Hsub _ Hx) Es) as E.
      assert (o_name x2 = o_name x) as E2 by (destruct Hs as [Hs _]; unfold occ_token in E; rewrite K2, Hs in E; destruct (o_kind o); inversion E; reflexivity).
      rewrite E2 in Hq. destruct (numbered_unique _ _ _ _ _ _ _ Hm Hq) as (_ & _ & <-). lia.
  - right. split; [intros k (q & es & Hq & _); destruct (Hn _ _ _ Hq)|]. apply N2, R2.
    intros x2 y Hx2 Es [[K2 _] (q & es & k & ds' & Hq & _)].
    pose proof (occ_at_token _ _ _ Hsp Hsub x2 (occ_token x) Hx2 (recorded_token _ _ _ Hsp Hsub _ Hx) Es) as E.
    assert (o_name x2 = o_name x) as E2 by (destruct Hs as [Hs _]; unfold occ_token in E; rewrite K2, Hs in E; destruct (o_kind o); inversion E; reflexivity).
    rewrite E2 in Hq. exact (Hn _ _ _ Hq).
Qed.
Lemma numbered_canonical p ds n es k : numbered (p ++ ds) p ds n -> canonical_decimal k es -> numbered (p ++ es) p es k.
Proof. intros (_ & _ & _ & _ & Hp) (H1 & H2 & H3 & _). split; [reflexivity|]. auto. Qed.
Lemma renumbered_free n z x x' m : (0 <= z)%Z -> renumbered n z x x' -> has_number (o_name x') m -> ~ (Z.of_N n <= Z.of_N m < Z.of_N n + z)%Z.
Proof.
  intros Hz [(p & ds & k & ds' & Hk & Hle & Hge & Hc & E)|[Hlt E]] (q & es & Hm & Hmax) G.
  - rewrite E in Hm. pose proof Hk as (E1 & _). rewrite E1 in Hk. pose proof (numbered_canonical _ _ _ _ _ Hk Hc) as Hk'. destruct (numbered_unique _ _ _ _ _ _ _ Hk' Hm) as (_ & _ & <-). lia.
  - rewrite E in Hm. specialize (Hlt m (ex_intro _ q (ex_intro _ es (conj Hm Hmax)))). lia.
Qed.
Lemma shift_room e s uri src d p : plain_document src -> visits_all (e_ord e) -> opened e s uri src d -> p <= length src ->
  exists pr, parse_from_str (e_u e) src = Val pr /\ pr_stmts pr = doc_stmts d /\
  ((forall o, In o (recorded (pr_stmts pr) (pr_tokens pr)) -> ~ covers (o_span o) p) \/
   exists o errs, In o (recorded (pr_stmts pr) (pr_tokens pr)) /\ covers (o_span o) p /\ tokenize (e_u e) src = Val (Some (pr_tokens pr), errs) /\
     (forall new z n, asks_shift new z -> has_number (o_name o) n -> no_overflow (recorded (pr_stmts pr) (pr_tokens pr)) o n z ->
       (o_kind o = KLabel -> errs = [] /\ forall x y, In x (recorded (pr_stmts pr) (pr_tokens pr)) -> moved o n z x y -> free_word y) ->
       (0 <= z)%Z -> ~ global (o_kind o) ->
       (forall x, In x (recorded (pr_stmts pr) (pr_tokens pr)) -> in_scope o x -> no_leading_zeros (o_name x) /\ forall m, has_number (o_name x) m -> fits_i64 (Z.of_N m + z)) ->
       exists edits pr', rename e s uri (lsp_position src p) new = Val (Reply edits) /\ parse_from_str (e_u e) (patched src edits) = Val pr' /\
         Forall2 (fun x x' => o_kind x = o_kind x' /\ o_body x = o_body x' /\ (in_scope o x -> renumbered n z x x'))
           (recorded (pr_stmts pr) (pr_tokens pr)) (recorded (pr_stmts pr') (pr_tokens pr')) /\
         room (recorded (pr_stmts pr') (pr_tokens pr')) o n z)).
Proof.
  intros Hsrc Hv Ho Hp. destruct (shift_bindings _ _ _ _ _ _ Hsrc Hv Ho Hp) as (pr & Hpr & Hst & H). exists pr. split; [exact Hpr|]. split; [exact Hst|].
  destruct H as [H|(o & errs & Hin & Hc & Ht & H)]; [left; exact H|]. right. exists o, errs. split; [exact Hin|]. split; [exact Hc|]. split; [exact Ht|].
  intros new z n Ha Hn Hov Hk Hz Hg Hx. destruct (H _ _ _ Ha Hn Hov Hk Hz Hg Hx) as (edits & pr' & E & Ep & R & B). exists edits, pr'. split; [exact E|]. split; [exact Ep|].
  destruct (opened_indexed _ _ _ _ _ Ho) as (pr0 & Hix & _). assert (pr0 = pr) as -> by (destruct Hix as [G _]; congruence).
  destruct (indexed_ok _ _ _ _ Hix) as (_ & _ & Hsp & Hsub & _). destruct B as ((B & _) & _).
  assert (forall x x', In x (recorded (pr_stmts pr) (pr_tokens pr)) -> same_occ (counterparts (pr_tokens pr) (pr_tokens pr')) x x' -> in_scope o x -> renumbered n z x x') as G.
  { intros x x' Hi (_ & K & _ & T) Hs. eapply renumbered_token; [reflexivity|exact Hsp|exact Hsub|exact R|exact Hg|exact Hi|exact Hs|exact K|exact T]. }
  assert (Forall2 (fun x x' => o_kind x = o_kind x' /\ o_body x = o_body x' /\ (in_scope o x -> renumbered n z x x')) (recorded (pr_stmts pr) (pr_tokens pr)) (recorded (pr_stmts pr') (pr_tokens pr'))) as F.
  { clear - G B. induction B as [|x x' a b Hxy B IH]; [constructor|]. constructor; [|apply IH; intros; apply G; [right|..]; assumption].
    pose proof Hxy as (_ & K & Hb & _). split; [exact K|]. split; [exact Hb|]. apply G; [left; reflexivity|exact Hxy]. }
  split; [exact F|]. intros name m Hm Hr x' Hx' Kx Bx <-. revert Hx'. clear - F Hm Hr Kx Bx Hz Hg. induction F as [|y y' a b (K & Hb & G) F IH]; [contradiction|]. intros [->|Hi]; [|exact (IH Hi)].
  refine (renumbered_free n z y x' m Hz (G _) Hm Hr). split; [|congruence]. rewrite K. unfold global in Hg. destruct (o_kind x'), (o_kind o); cbn in Kx; try discriminate; try reflexivity; tauto.
Qed.

(** The code action is the relative rename by one. *)
Lemma action_is_rename e s uri pos : e_url_parse e uri = Some uri ->
  (forall edits, rename e s uri pos (str "+1") = Val (Reply edits) <->
     exists t j, code_action e (with_lazy false s) uri (mkRange pos pos) = Val (Reply (Some [mkCA t j (Some (uri, edits))]))) /\
  (rename e s uri pos (str "+1") = Panic <-> code_action e (with_lazy false s) uri (mkRange pos pos) = Panic).
Proof.
  intros Hu. unfold code_action, rename. change (get_doc (with_lazy false s) uri) with (get_doc s uri).
  assert (Hpe : forall a : position_, pos_eqb a a = true) by (intros a; unfold pos_eqb; rewrite !Nat.eqb_refl; reflexivity).
  destruct (get_doc s uri) as [d|] eqn:Hg; [|split; [intros edits; split; [discriminate|intros (t & j & G); discriminate]|split; discriminate]].
  cbn [r_start r_end]. rewrite Hpe. cbn [negb lazy_resolve with_lazy]. unfold unresolved_actions.
  destruct (symbol_at d pos) as [o|]; [|split; [intros edits; split; [discriminate|intros (t & j & G); discriminate]|split; discriminate]].
  change (str "+1") with (ch "+" :: str "1"). cbv iota beta. replace ((ch "+" =? ch "+")%N || (ch "+" =? ch "-")%N) with true by reflexivity.
  unfold relative_rename. replace (parse_i64 (str "1")) with (Some 1%Z) by reflexivity. replace (ch "+" =? ch "-")%N with false by reflexivity.
  replace (i64_mul (e_pf e) 1 1) with (Val 1%Z) by reflexivity. cbn [rbind].
  destruct (extract_number_from_identifier (e_u e) (o_name o)) as [[[q n]|]|] eqn:En; cbn [rbind];
    [|split; [intros edits; split; [discriminate|intros (t & j & G); discriminate]|split; discriminate]|split; [intros edits; split; [discriminate|intros (t & j & G); discriminate]|split; reflexivity]].
  cbn [rmapM]. unfold do_code_action_resolve. cbn [ca_data ca_title]. rewrite json_round; [|exact Hu|eapply extract_in_i64; exact En]. cbn [ad_uri ad_kind ad_body ad_nr].
  change (get_doc (with_lazy false s) uri) with (get_doc s uri). rewrite Hg. destruct (get_shift_edits _ _ _ _ _ _ _ _ _) as [l|]; cbn [rbind rmap unwrap_reply].
  - split; [|split; discriminate]. intros edits. split; [intros G; injection G as <-; eauto|intros (t & j & G); injection G as _ _ <-; reflexivity].
  - split; [intros edits; split; [discriminate|intros (t & j & G); discriminate]|split; reflexivity].
Qed.
