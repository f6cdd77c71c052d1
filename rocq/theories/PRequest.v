(** Requests: what crashes them, what they rely on. *)
From Verif Require Import Text Rope Chumsky Tokenizer Parser Numbers Index SemTok Diag Rename Cfg Backtrace Server Dispatch SpecText SpecParse SpecIndex SpecDiag SpecBacktrace SpecNumbers SpecCfg SpecView SpecRename SpecServer SpecSemTok SpecRequest
  PText PRope PTokens PParseProps PIndex PIndexDoc PIndexText PDiag PDiagDoc PBacktrace PCfg PHints PView PNav PNumbers PRename PSemTok PSemDoc PServer.

(** ** Crashes *)
Lemma external_panic e rs l : can_resolve rs -> external_locations e rs l = Panic -> e_pf e = Debug /\ exists x, In x l /\ ext_line x = 0%N.
Proof.
  intros Hc. induction l as [|x l IH]; [discriminate|]. cbn [external_locations]. destruct (found_below_spec (e_fs e) rs (ext_path x) Hc) as (o & -> & _). cbn [rbind].
  assert (IH' : external_locations e rs l = Panic -> e_pf e = Debug /\ exists y, In y (x :: l) /\ ext_line y = 0%N).
  { intros H. destruct (IH H) as (H1 & y & H2 & H3). split; [exact H1|]. exists y. split; [right; exact H2|exact H3]. }
  destruct o as [y|]; [|exact IH']. unfold u32_pred. destruct (N.eqb_spec (ext_line x) 0) as [E0|E0].
  - destruct (e_pf e) eqn:Ep.
    + intros _. split; [reflexivity|]. exists x. split; [left; reflexivity|exact E0].
    + cbn [rbind]. destruct (external_locations e rs l); [discriminate|]. intros _. apply IH'. reflexivity.
  - cbn [rbind]. destruct (external_locations e rs l); [discriminate|]. intros _. apply IH'. reflexivity.
Qed.
Lemma ranges_panic e s uri src d pos ud : opened e s uri src d -> can_resolve (roots s) -> get_use_def_ranges e s uri pos ud = Panic ->
  ud = Def /\ e_pf e = Debug /\ exists pr f x, parse_from_str (e_u e) src = Val pr /\ In x (ext_defs [] (pr_stmts pr) f) /\ ext_line x = 0%N.
Proof.
  intros Ho Hc. apply opened_indexed in Ho as (pr & Hix & Hrope & Hst & Hg). unfold get_use_def_ranges. rewrite Hg. cbn [obind].
  destruct (symbol_at d pos) as [o|] eqn:E; [|discriminate]. cbn [obind]. destruct (symbol_at_listed e src d pr Hix pos o E) as (Hol & m & x & Hm & Hud).
  rewrite (table_use_defs _ _ _ Hm), Hud. cbn [rbind]. destruct ud; cbn [ud_kind_is_def rbind]; try discriminate.
  destruct (external_locations e (roots s) (external_defs x)) eqn:Ee; [discriminate|]. intros _. split; [reflexivity|]. rewrite (externals_of e src d pr Hix _ _ _ Hm Hud) in Ee.
  apply external_panic in Ee as (H1 & y & H2 & H3); [|exact Hc]. split; [exact H1|]. exists pr, (o_name o), y. split; [apply Hix|]. split; [|exact H3].
  unfold externals in H2. destruct (o_kind o); try contradiction. exact H2.
Qed.
Lemma tokens_no_panic e s uri src d : small src -> opened e s uri src d -> semantic_tokens_full s uri <> Panic.
Proof.
  intros Hs (Hg & ds & Ha). unfold semantic_tokens_full. rewrite Hg. unfold analyze in Ha.
  destruct (parse_from_str (e_u e) src) as [pr|] eqn:Ep; [|discriminate]. cbn [rbind] in Ha.
  destruct (semantic_tokens_from_tokens (pr_tokens pr)) as [sem|] eqn:Es; [|discriminate]. cbn [rbind] in Ha.
  destruct (create_index src (pr_tokens pr) (pr_stmts pr)) as [ix|]; [|discriminate]. cbn [rbind] in Ha. inversion Ha; subst d. cbn [doc_rope doc_semtoks].
  apply parse_from_str_cases in Ep as [(errs & _ & E & _)|(toks & errs & E & Et & _)].
  - rewrite E in Es. inversion Es; subst sem. discriminate.
  - destruct (document_semantic_tokens_total _ _ _ _ Hs E) as (hs & out & E1 & E2 & _). rewrite Et, E1 in Es. inversion Es; subst sem. rewrite E2. discriminate.
Qed.
Lemma action_panics e s uri src d rng : plain_document src -> visits_all (e_ord e) -> opened e s uri src d -> e_url_parse e uri = Some uri -> code_action e s uri rng = Panic ->
  e_pf e = Debug /\ exists pr, parse_from_str (e_u e) src = Val pr /\ last_number pr.
Proof.
  intros Hsrc Hord Ho Hu HP.
  assert (Hlazy : code_action e (with_lazy true s) uri rng <> Panic).
  { pose proof Ho as Ho'. apply opened_indexed in Ho' as (pr & Hix & Hrope & Hst & Hg). unfold code_action. change (get_doc (with_lazy true s) uri) with (get_doc s uri). rewrite Hg.
    destruct (negb _); [discriminate|]. unfold unresolved_actions. destruct (symbol_at d (r_start rng)) as [o|] eqn:E; [|discriminate].
    destruct (symbol_at_listed e src d pr Hix _ _ E) as (Hol & _). pose proof (occ_ascii e src d pr Hix Hsrc o Hol) as Ha.
    destruct (extract_cases (e_u e) _ Ha) as [(q & ds & v & _ & _ & E')|[_ E']]; rewrite E'; discriminate. }
  destruct (lazy_resolve s) eqn:El.
  - exfalso. apply Hlazy. unfold code_action, with_lazy in *. cbn [lazy_resolve]. unfold get_doc in *. cbn [docs]. rewrite El in HP. exact HP.
  - assert (HP' : code_action e (with_lazy false s) uri rng = Panic).
    { rewrite <- HP. unfold with_lazy. rewrite <- El. destruct s. reflexivity. }
    apply (lazy_same_cases e s uri rng Hu) in HP' as [HP'|(l & a & H1 & H2 & H3)]; [contradiction|].
    destruct (offered_resolve e s uri src d rng l a Hsrc Hord Ho Hu H1 H2 H3) as (H4 & pr & x & H5 & H6 & H7). split; [exact H4|]. exists pr. split; [exact H5|]. exists x. auto.
Qed.
Lemma rmap_panic {A B} (f : A -> B) r : rmap f r = Panic -> r = Panic.
Proof. destruct r; [discriminate|reflexivity]. Qed.
Lemma request_crash e s texts q : visits_all (e_ord e) -> can_resolve (roots s) ->
  (forall u, match texts u with
             | Some src => plain_document src /\ e_url_parse e u = Some u /\ exists d, opened e s u src d
             | None => get_doc s u = None end) ->
  handle e s q = Panic -> crash_cause e (roots s) texts q.
Proof.
  intros Hord Hc Ht HP.
  assert (Hk : forall u, about e q u -> exists src d, texts u = Some src /\ plain_document src /\ e_url_parse e u = Some u /\ opened e s u src d).
  { intros u Hu. specialize (Ht u). destruct (texts u) as [src|] eqn:E.
    - destruct Ht as (H1 & H2 & d & H3). exists src, d. auto.
    - exfalso. destruct (unknown_harmless e s q u Ht Hu) as (r & Hr & _). congruence. }
  destruct q as [u pos|u pos|u pos|u|u|u pos|u pos new|u rng|a|u|u|u|c args]; cbn [handle crash_cause] in *; try discriminate; try apply rmap_panic in HP.
  - destruct (Hk u eq_refl) as (src & d & H1 & H2 & H3 & H4). destruct (ranges_panic _ _ _ _ _ _ _ H4 Hc HP) as (_ & Hd & pr & f & x & G1 & G2 & G3). split; [exact Hd|]. exists src, pr, f, x. auto.
  - destruct (Hk u eq_refl) as (src & d & H1 & H2 & H3 & H4). destruct (ranges_panic _ _ _ _ _ _ _ H4 Hc HP) as (E & _). discriminate.
  - apply rmap_panic in HP. destruct (Hk u eq_refl) as (src & d & H1 & H2 & H3 & H4). destruct (ranges_panic _ _ _ _ _ _ _ H4 Hc HP) as (E & _). discriminate.
  - destruct (Hk u eq_refl) as (src & d & H1 & H2 & H3 & H4). eapply tokens_no_panic; [apply H2|exact H4|exact HP].
  - destruct (Hk u eq_refl) as (src & d & H1 & H2 & H3 & H4). destruct (rename_panics _ _ _ _ _ _ _ H2 Hord H4 HP) as [H|(H & pr & z & G1 & G2 & G3)]; [left; exact H|].
    right. split; [exact H|]. exists src, pr, z. auto.
  - destruct (Hk u eq_refl) as (src & d & H1 & H2 & H3 & H4). destruct (action_panics _ _ _ _ _ _ H2 Hord H4 H3 HP) as (H & pr & G1 & G2). split; [exact H|]. exists src, pr. auto.
  - destruct (ca_data a) as [j|] eqn:Ej; [|unfold code_action_resolve, do_code_action_resolve in HP; rewrite Ej in HP; discriminate].
    destruct (action_data_of_json e j) as [ad|] eqn:Ead; [|unfold code_action_resolve, do_code_action_resolve in HP; rewrite Ej, Ead in HP; discriminate].
    destruct (Hk (ad_uri ad)) as (src & d & H1 & H2 & H3 & H4). { cbn [about]. intros j' ad' E1 E2. congruence. }
    destruct (opened_indexed _ _ _ _ _ H4) as (pr & Hix & _ & Hst & _). exists j, ad, src, pr. split; [reflexivity|]. split; [exact Ead|]. split; [exact H1|]. split; [apply Hix|].
    destruct (resolve_panics _ _ _ _ _ _ _ Ej Ead H2 Hord H4 HP) as [H|(H & pr' & x & G1 & G2 & G3)]; [left; rewrite Hst in H; exact H|].
    right. split; [exact H|]. exists x. destruct Hix as [Hp _]. rewrite Hp in G1. inversion G1; subst pr'. auto.
  - destruct (Hk u eq_refl) as (src & d & H1 & H2 & H3 & H4). destruct (inlay_panics _ _ _ _ _ H4 Hc HP) as (pr & i & j & frames & n & f & G). exists src, pr, i, j, frames, n, f. auto.
Qed.
Lemma single_text n : single n -> note_text n = match n with NOpen _ t _ => Some t | NChange _ cs _ => hd_error cs end.
Proof. destruct n as [u t v|u cs v]; [reflexivity|]. cbn. destruct cs as [|c [|]]; try discriminate. reflexivity. Qed.
Lemma receive_ascii e s ns : Forall single ns -> Forall note_plain ns -> exists s' ps, receive e s ns = Val (s', ps) /\ length ps = length ns.
Proof.
  revert s. induction ns as [|n ns IH]; intros s Hs Hp; [exists s, []; auto|]. inversion Hs as [|? ? Hs1 Hs2]; subst. inversion Hp as [|? ? (t & Ht & Hp1) Hp2]; subst.
  rewrite (single_text _ Hs1) in Ht. cbn [receive].
  assert (exists s1 p, notify e s n = Val (s1, p)) as (s1 & p & ->).
  { destruct (analyze_ascii e (note_uri n) t (proj1 Hp1)) as (d & ds & E). destruct n as [u t0 v|u cs v]; cbn [notify note_uri] in *.
    - inversion Ht; subst. unfold did_open, on_change. rewrite E. cbn. eauto.
    - destruct cs as [|c cs]; [discriminate|]. inversion Ht; subst. unfold did_change, on_change. rewrite E. cbn. eauto. }
  cbn [rbind]. destruct (IH s1 Hs2 Hp2) as (s2 & ps & -> & Hl). cbn. exists s2, (p :: ps). cbn. auto.
Qed.
Lemma last_text_plain u ns t : Forall note_plain ns -> last_text u ns = Some t -> plain_document t /\ exists n, In n ns /\ note_uri n = u.
Proof.
  intros Hp. unfold last_text. induction ns as [|n ns IH] using rev_ind; [discriminate|]. rewrite fold_left_app. cbn [fold_left]. apply Forall_app in Hp as [Hp Hn].
  destruct (text_eqb_spec u (note_uri n)) as [E|_].
  - intros H. inversion Hn as [|? ? (t' & Ht & Hp1) _]; subst. split; [congruence|]. exists n. split; [apply in_or_app; right; left; reflexivity|reflexivity].
  - intros H. destruct (IH Hp H) as (H1 & n' & H2 & H3). split; [exact H1|]. exists n'. split; [apply in_or_app; left; exact H2|exact H3].
Qed.
(** histories of plain texts *)
Lemma survives e s0 ns : docs s0 = [] -> can_resolve (roots s0) -> visits_all (e_ord e) -> Forall single ns -> Forall note_plain ns ->
  (forall n, In n ns -> e_url_parse e (note_uri n) = Some (note_uri n)) ->
  exists s ps, receive e s0 ns = Val (s, ps) /\ length ps = length ns /\
    forall q, handle e s q = Panic -> crash_cause e (roots s0) (fun u => last_text u ns) q.
Proof.
  intros H0 Hc Hord Hs Hp Hu. destruct (receive_ascii e s0 ns Hs Hp) as (s & ps & E & Hl). exists s, ps. split; [exact E|]. split; [exact Hl|]. intros q HP.
  destruct (receive_docs _ _ _ _ _ Hs E) as (E1 & _ & E3). rewrite <- E1. apply request_crash; [exact Hord|rewrite E1; exact Hc| |exact HP].
  intros u. specialize (E3 u). destruct (last_text u ns) as [t|] eqn:Et.
  - destruct (last_text_plain u ns t Hp Et) as (H1 & n & H2 & <-). destruct E3 as (d & ds & G1 & G2). split; [exact H1|]. split; [apply Hu; exact H2|]. exists d. split; [exact G2|]. exists ds. exact G1.
  - rewrite E3. unfold get_doc. rewrite H0. reflexivity.
Qed.
(** schedules *)
Lemma schedule_survives e ss s evs w : wrun e ss (world_init s) evs = Some w -> Forall (fun c => ascii_text (snd (fst c)) = true) (changes evs) -> w_health w <> Crashed.
Proof.
  revert w. induction evs as [|ev evs IH] using rev_ind; intros w H Ha; [cbn in H; inversion H; discriminate|]. rewrite wrun_snoc in H.
  destruct (wrun e ss (world_init s) evs) as [w1|] eqn:E1; [|discriminate]. cbn [obind] in H. unfold changes in Ha. rewrite flat_map_app in Ha. apply Forall_app in Ha as [Ha1 Ha2].
  specialize (IH _ eq_refl Ha1). unfold wstep in H. destruct (w_health w1) eqn:Eh; [|discriminate|discriminate].
  destruct ev as [u t v|n|u f|n].
  - cbn in Ha2. inversion Ha2 as [|? ? Ht _]; subst. cbn in Ht. destruct (analyze_ascii e u t Ht) as (d & ds & E). unfold on_change in H. rewrite E in H. cbn [rbind] in H.
    destruct (existsb _ _); inversion H; discriminate.
  - destruct (nth_error _ _); [inversion H; discriminate|discriminate].
  - destruct (execute_command _ _ _); inversion H; subst; [discriminate|]. congruence.
  - destruct (_ <? _); [inversion H; discriminate|discriminate].
Qed.

(** ** Asking for a rename *)
Lemma prepare_symbol e s uri src d pr pos : plain_document src -> indexed (e_u e) src pr (doc_index d) -> doc_rope d = src -> get_doc s uri = Some d ->
  prepare_rename s uri pos = option_map (fun o => lsp_range src (o_span o)) (symbol_at d pos).
Proof.
  intros Hsrc Hix Hrope Hg. unfold prepare_rename. rewrite Hg. cbn [obind]. destruct (symbol_at d pos) as [o|] eqn:E; [|reflexivity]. cbn [obind option_map].
  destruct (symbol_at_listed e src d pr Hix pos o E) as (Hol & _). destruct (recorded_range e src d pr Hix o Hol) as [R1 R2]. rewrite Hrope. apply plain_range; assumption.
Qed.
Lemma rflat_map_in {A B} (f : A -> res (list B)) l r a x : rflat_map f l = Val r -> In a l -> (forall y, f a = Val y -> In x y) -> In x r.
Proof.
  revert r. induction l as [|b l IH]; intros r; [contradiction|]. cbn [rflat_map]. intros H Ha Hx. destruct (f b) as [y|] eqn:E; [|discriminate]. cbn [rbind] in H.
  destruct (rflat_map f l) as [r'|] eqn:E'; [|discriminate]. cbn in H. inversion H; subst. apply in_or_app. destruct Ha as [->|Ha]; [left; apply Hx; exact E|right; eapply IH; eauto].
Qed.
Lemma edits_at_cursor e s uri src d pr pos new edits o : plain_document src -> visits_all (e_ord e) -> indexed (e_u e) src pr (doc_index d) -> doc_rope d = src -> get_doc s uri = Some d ->
  symbol_at d pos = Some o -> rename e s uri pos new = Val (Reply edits) -> exists ed, In ed edits /\ te_range ed = lsp_range src (o_span o).
Proof.
  intros Hsrc Hord Hix Hrope Hg E. unfold rename. rewrite Hg, E. destruct (symbol_at_listed e src d pr Hix pos o E) as (Hol & m & ud & Hm & Hud).
  assert (Hin : forall y, exists ed, In ed (get_rename_edits src ud y) /\ te_range ed = lsp_range src (o_span o)).
  { intros y. rewrite (entry_edits e src d pr Hix Hsrc _ _ _ _ _ y Hm Hud). eexists. split; [apply in_map_iff; exists o; split; [reflexivity|apply in_entry_occs; auto]|reflexivity]. }
  assert (Habs : absolute_rename e d o new = Val (Reply edits) -> exists ed, In ed edits /\ te_range ed = lsp_range src (o_span o)).
  { unfold absolute_rename. destruct (check_new_name _ _ _) as [[y|msg]|]; cbn [rbind]; try discriminate. rewrite (table_use_defs _ _ _ Hm), Hud. cbn [rbind]. rewrite Hrope. intros H. inversion H; subst. apply Hin. }
  destruct new as [|c r]; [exact Habs|]. destruct (_ || _); [|exact Habs]. unfold relative_rename. destruct (parse_i64 r) as [nr|]; [|discriminate].
  destruct (i64_mul _ _ _) as [sh|]; [|discriminate]. cbn [rbind]. destruct (extract_number_from_identifier (e_u e) (o_name o)) as [[[q n]|]|] eqn:En; cbn [rbind]; try discriminate.
  destruct (get_shift_edits _ _ _ _ _ _ _ _ _) as [l|] eqn:Es; [|discriminate]. cbn [rmap rbind]. intros H. inversion H; subst l. clear H.
  unfold get_shift_edits in Es.
  assert (rbind (body_of_id (doc_index d) (o_body o)) (fun b => get_by_symbol_kind (doc_index d) (o_kind o) b) = Val m) as Et.
  { unfold table_of in Hm. unfold body_of_id, get_by_symbol_kind. destruct (o_kind o), (o_body o) as [id|]; try discriminate; try (injection Hm as <-; reflexivity);
      (destruct (nth_error (function_bodies (doc_index d)) id) as [fb|]; [|discriminate]; injection Hm as <-; reflexivity). }
  destruct (body_of_id (doc_index d) (o_body o)) as [b|]; [|discriminate]. cbn [rbind] in Es, Et. rewrite Et in Es. cbn [rbind] in Es.
  assert (Ha : In (o_name o, ud) (e_ord e m)) by (eapply Permutation_in; [apply Permutation_sym, Hord|apply alookup_in; exact Hud]).
  destruct (shift_entry (e_u e) (e_pf e) (doc_rope d) n sh (o_name o, ud)) as [es|] eqn:Ee.
  - unfold shift_entry in Ee. cbn [fst snd] in Ee. rewrite En in Ee. cbn [rbind] in Ee. rewrite Z.ltb_irrefl in Ee. destruct (i64_add _ _ _) as [z|] eqn:Ez; [|discriminate]. cbn [rbind] in Ee. inversion Ee; subst es.
    rewrite Hrope in *. destruct (Hin (q ++ render_Z (wrapping_abs z))) as (ed & H1 & H2). exists ed. split; [|exact H2]. eapply rflat_map_in; [exact Es|exact Ha|].
    intros y Hy. unfold shift_entry in Hy. cbn [fst snd] in Hy. rewrite En in Hy. cbn [rbind] in Hy. rewrite Z.ltb_irrefl, Ez in Hy. cbn [rbind] in Hy. inversion Hy; subst. exact H1.
  - exfalso. clear - Es Ha Ee. revert edits Es. induction (e_ord e m) as [|x l IH]; [contradiction|]. intros r Es. cbn [rflat_map] in Es. destruct Ha as [->|Ha]; [rewrite Ee in Es; discriminate|].
    destruct (shift_entry _ _ _ _ _ x); [|discriminate]. cbn [rbind] in Es. destruct (rflat_map _ l); [|discriminate]. eapply IH; [exact Ha|reflexivity].
Qed.
Lemma prepare_range e s uri src d p : plain_document src -> visits_all (e_ord e) -> opened e s uri src d -> p <= length src ->
  exists pr, parse_from_str (e_u e) src = Val pr /\ pr_stmts pr = doc_stmts d /\
  ((forall o, In o (recorded (pr_stmts pr) (pr_tokens pr)) -> ~ covers (o_span o) p) /\ prepare_rename s uri (lsp_position src p) = None \/
   exists o, In o (recorded (pr_stmts pr) (pr_tokens pr)) /\ covers (o_span o) p /\ prepare_rename s uri (lsp_position src p) = Some (lsp_range src (o_span o)) /\
     forall new edits, rename e s uri (lsp_position src p) new = Val (Reply edits) -> exists ed, In ed edits /\ te_range ed = lsp_range src (o_span o)).
Proof.
  intros Hsrc Hord Ho Hp. apply opened_indexed in Ho as (pr & Hix & Hrope & Hst & Hg). exists pr. split; [apply Hix|]. split; [symmetry; exact Hst|].
  rewrite (prepare_symbol e s uri src d pr _ Hsrc Hix Hrope Hg). destruct (symbol_at_cases e src d pr Hix Hrope Hsrc p Hp) as [[E H]|(o & m & ud & E & Ho & Hc & Hm & Hud)]; rewrite E.
  - left. auto.
  - right. exists o. split; [exact Ho|]. split; [exact Hc|]. split; [reflexivity|]. intros new edits HE. eapply edits_at_cursor; eassumption.
Qed.
Lemma prepare_agrees e s uri src d pos : plain_document src -> visits_all (e_ord e) -> opened e s uri src d ->
  (prepare_rename s uri pos = None -> forall new, exists m, rename e s uri pos new = Val (RpcError m)) /\
  (forall r, prepare_rename s uri pos = Some r -> (exists new edits, rename e s uri pos new = Val (Reply edits)) /\
    forall new edits, rename e s uri pos new = Val (Reply edits) -> exists ed, In ed edits /\ te_range ed = r).
Proof.
  intros Hsrc Hord Ho. apply opened_indexed in Ho as (pr & Hix & Hrope & Hst & Hg). rewrite (prepare_symbol e s uri src d pr _ Hsrc Hix Hrope Hg).
  destruct (symbol_at d pos) as [o|] eqn:E; cbn [option_map].
  - split; [discriminate|]. intros r Hr. inversion Hr; subst r. split.
    + destruct (symbol_at_listed e src d pr Hix pos o E) as (Hol & m & ud & Hm & Hud).
      assert (Hacc : accepted (e_u e) (o_kind o) (sigil (o_kind o) ++ str "x") (sigil (o_kind o) ++ str "x")).
      { exists (ch "x"), []. split; [left; reflexivity|]. split; [reflexivity|]. split; [constructor; [left; reflexivity|constructor]|]. intros H. vm_compute in H. discriminate. }
      destruct (absolute_ok e src d pr Hix Hrope Hsrc o m ud _ _ Hol Hm Hud Hacc) as (edits & E1 & _). exists (sigil (o_kind o) ++ str "x"), edits. unfold rename. rewrite Hg, E.
      rewrite unsigned_absolute; [exact E1|]. eapply accepted_unsigned. exact Hacc.
    + intros new edits HE. eapply edits_at_cursor; eassumption.
  - split; [|discriminate]. intros _ new. unfold rename. rewrite Hg, E. eauto.
Qed.

(** ** First contact *)
Lemma lazy_iff c : lazy_supported c = true <-> can_wait c.
Proof.
  unfold lazy_supported, can_wait. destruct c as [[rp ds]|]; cbn [resolve_properties data_support].
  2:{ split; [discriminate|]. intros (c' & ps & H & _). discriminate. }
  rewrite andb_true_iff. split.
  - intros [H1 H2]. destruct rp as [ps|]; [|discriminate]. destruct ds as [b|]; [|discriminate]. subst b. exists (mkCaps (Some ps) (Some true)), ps. split; [reflexivity|]. split; [reflexivity|].
    split; [|reflexivity]. apply existsb_exists in H1 as (x & H1 & H2). destruct (text_eqb_spec (str "edit") x) as [->|]; [exact H1|discriminate].
  - intros (c' & ps & H & H1 & H2 & H3). inversion H; subst c'. cbn in H1, H3. subst. split; [|reflexivity]. apply existsb_exists. exists (str "edit"). split; [exact H2|reflexivity].
Qed.
Lemma actions_edit e s uri rng l : code_action e s uri rng = Val (Reply (Some l)) ->
  Forall (fun a => if lazy_resolve s then ca_edit a = None else exists x, ca_edit a = Some x) l.
Proof.
  unfold code_action. destruct (get_doc s uri) as [d|]; [|discriminate]. destruct (negb _); [discriminate|]. destruct (unresolved_actions e uri d (r_start rng)) as [l0|] eqn:E; [|discriminate]. cbn [rbind].
  destruct (lazy_resolve s); cbn [rbind]; intros H.
  - inversion H; subst l0. unfold unresolved_actions in E. destruct (symbol_at d (r_start rng)) as [o|]; [|inversion E; constructor].
    destruct (extract_number_from_identifier _ _) as [[[q n]|]|]; cbn [rbind] in E; [|inversion E; constructor|discriminate]. inversion E; subst. constructor; [reflexivity|constructor].
  - destruct (rmapM _ l0) as [r|] eqn:Er; [|discriminate]. cbn [rbind] in H. inversion H; subst r. clear H E. revert l Er. induction l0 as [|a l0 IH]; intros l Er; [inversion Er; constructor|].
    cbn [rmapM] in Er. unfold unwrap_reply at 1 in Er. destruct (do_code_action_resolve e s a) as [[a'|]|] eqn:Ea; cbn [rbind] in Er; try discriminate.
    destruct (rmapM _ l0) as [r|] eqn:Er'; [|discriminate]. cbn [rbind] in Er. inversion Er; subst. constructor; [|apply IH; reflexivity].
    unfold do_code_action_resolve in Ea. destruct (ca_data a) as [j|]; [|discriminate]. destruct (action_data_of_json e j) as [ad|]; [|discriminate]. destruct (get_doc s (ad_uri ad)); [|discriminate].
    destruct (get_shift_edits _ _ _ _ _ _ _ _ _); [|discriminate]. cbn [rbind] in Ea. inversion Ea. cbn. eauto.
Qed.
Lemma told_actions e folders root caps s a ns s' ps uri rng l : initialize server_init folders root caps = (s, a) -> Forall single ns -> receive e s ns = Val (s', ps) ->
  code_action e s' uri rng = Val (Reply (Some l)) ->
  (an_resolve a = true <-> can_wait caps) /\ Forall (fun x => (ca_edit x = None -> an_resolve a = true) /\ (can_wait caps -> ca_edit x = None)) l.
Proof.
  intros Hi Hs Hr Hc. inversion Hi; subst s a. cbn [an_resolve]. split; [apply lazy_iff|]. destruct (receive_docs _ _ _ _ _ Hs Hr) as (_ & El & _). cbn [lazy_resolve] in El.
  apply actions_edit in Hc. eapply Forall_impl; [|exact Hc]. cbn beta. intros x Hx. rewrite El in Hx. rewrite <- lazy_iff. destruct (lazy_supported caps); [auto|]. destruct Hx as [y Hy]. split; [congruence|discriminate].
Qed.
Lemma told_commands e folders root caps s a s' uri ls x : initialize server_init folders root caps = (s, a) -> code_lens e s' uri = Some ls -> In x ls -> In (cl_command x) (an_commands a).
Proof.
  intros Hi Hl Hx. inversion Hi; subst s a. cbn [an_commands]. unfold code_lens in Hl. destruct (get_doc s' uri) as [d|]; [|discriminate]. cbn [obind] in Hl. inversion Hl; subst ls. clear Hl.
  apply in_filter_map in Hx as (f & _ & Hf). destruct (defs (snd f)) as [|sp [|]]; try discriminate. destruct (range_to_lsp _ _); [|discriminate]. cbn [obind] in Hf. inversion Hf. left. reflexivity.
Qed.
Lemma other_commands folders root caps s a s' c args : initialize server_init folders root caps = (s, a) -> ~ In c (an_commands a) -> exists m, execute_command s' c args = RpcError m.
Proof.
  intros Hi Hn. inversion Hi; subst s a. cbn [an_commands] in Hn. unfold execute_command. destruct (text_eqb_spec c (str "visualize-cfg")) as [->|]; [exfalso; apply Hn; left; reflexivity|].
  destruct args as [|[] [|[] [|]]]; eauto.
Qed.
Lemma told_roots e folders root caps s a ns s' ps : initialize server_init folders root caps = (s, a) -> Forall single ns -> receive e s ns = Val (s', ps) ->
  roots s' = match folders, root with Some fs, _ => fs | None, Some r => [r] | None, None => [] end.
Proof. intros Hi Hs Hr. inversion Hi; subst s a. destruct (receive_docs _ _ _ _ _ Hs Hr) as (-> & _). cbn. destruct folders; [reflexivity|]. destruct root; reflexivity. Qed.

(** ** What is offered *)
Lemma title_spec k : action_title k = offer_title k.
Proof. destruct k; reflexivity. Qed.
Lemma position_cases (a b : position_) : a = b /\ pos_eqb a b = true \/ a <> b /\ pos_eqb a b = false.
Proof.
  destruct a as [x1 y1], b as [x2 y2]. unfold pos_eqb. cbn [p_line p_char]. destruct (Nat.eqb_spec x1 x2) as [->|H]; [|right; split; [congruence|reflexivity]].
  destruct (Nat.eqb_spec y1 y2) as [->|H]; [left; auto|right; split; [congruence|reflexivity]].
Qed.
Lemma resolve_title e s a a' : do_code_action_resolve e s a = Val (Reply a') -> ca_title a' = ca_title a.
Proof.
  unfold do_code_action_resolve. destruct (ca_data a) as [j|]; [|discriminate]. destruct (action_data_of_json e j) as [ad|]; [|discriminate]. destruct (get_doc s (ad_uri ad)); [|discriminate].
  destruct (get_shift_edits _ _ _ _ _ _ _ _ _); [|discriminate]. cbn [rbind]. intros H. inversion H. reflexivity.
Qed.
Lemma resolved_titles e s l : forall r, rmapM (fun a => unwrap_reply (do_code_action_resolve e s a)) l = Val r -> map ca_title r = map ca_title l.
Proof.
  induction l as [|a l IH]; intros r Er; [inversion Er; reflexivity|]. cbn [rmapM] in Er. unfold unwrap_reply at 1 in Er. destruct (do_code_action_resolve e s a) as [[a'|]|] eqn:Ea; cbn [rbind] in Er; try discriminate.
  destruct (rmapM _ l) as [r'|] eqn:Er'; [|discriminate]. cbn [rbind] in Er. inversion Er; subst. cbn [map]. rewrite (resolve_title _ _ _ _ Ea), (IH _ eq_refl). reflexivity.
Qed.
Lemma action_answer e s uri d pos l : get_doc s uri = Some d -> code_action e s uri (mkRange pos pos) = Val (Reply (Some l)) ->
  exists l0, unresolved_actions e uri d pos = Val l0 /\ map ca_title l = map ca_title l0.
Proof.
  intros Hg. unfold code_action. rewrite Hg. cbn [r_start r_end]. destruct (position_cases pos pos) as [[_ ->]|[H _]]; [|congruence]. cbn [negb].
  destruct (unresolved_actions e uri d pos) as [l0|]; [|discriminate]. cbn [rbind]. destruct (lazy_resolve s); cbn [rbind].
  - intros H. inversion H; subst. eauto.
  - destruct (rmapM _ l0) as [r|] eqn:Er; [|discriminate]. cbn [rbind]. intros H. inversion H; subst. exists l0. split; [reflexivity|]. eapply resolved_titles. exact Er.
Qed.
Lemma same_name_at e src d pr (Hix : indexed (e_u e) src pr (doc_index d)) x y p : In x (recorded (pr_stmts pr) (pr_tokens pr)) -> In y (recorded (pr_stmts pr) (pr_tokens pr)) ->
  covers (o_span x) p -> covers (o_span y) p -> o_name x = o_name y.
Proof.
  intros Hx Hy [X1 X2] [Y1 Y2]. destruct (indexed_ok _ _ _ _ Hix) as (_ & _ & Hsp & Hsub & _).
  pose proof (recorded_token _ _ _ Hsp Hsub _ Hx) as Tx. pose proof (recorded_token _ _ _ Hsp Hsub _ Hy) as Ty.
  destruct (spans_in_disjoint _ _ _ _ _ Hsp Tx Ty) as [E|[E|E]].
  - unfold occ_token in E. destruct (o_kind x), (o_kind y); inversion E; auto.
  - unfold occ_token in E. cbn [snd] in E. lia.
  - unfold occ_token in E. cbn [snd] in E. lia.
Qed.
Lemma offer_selection e s uri src d rng : opened e s uri src d -> (code_action e s uri rng = Val (Reply None) <-> r_start rng <> r_end rng).
Proof.
  intros Ho. apply opened_indexed in Ho as (pr & Hix & Hrope & Hst & Hg). unfold code_action. rewrite Hg.
  destruct (position_cases (r_start rng) (r_end rng)) as [[E ->]|[E ->]]; cbn [negb]; split; intros H; auto; try congruence.
  destruct (unresolved_actions e uri d (r_start rng)) as [l0|]; [|discriminate]. cbn [rbind] in H. destruct (lazy_resolve s); cbn [rbind] in H; [discriminate|].
  destruct (rmapM _ l0); discriminate.
Qed.
Lemma offer_cursor e s uri src d p l : plain_document src -> opened e s uri src d -> p <= length src ->
  code_action e s uri (mkRange (lsp_position src p) (lsp_position src p)) = Val (Reply (Some l)) ->
  exists pr, parse_from_str (e_u e) src = Val pr /\ pr_stmts pr = doc_stmts d /\ offers (recorded (pr_stmts pr) (pr_tokens pr)) p (map ca_title l).
Proof.
  intros Hsrc Ho Hp HE. apply opened_indexed in Ho as (pr & Hix & Hrope & Hst & Hg). exists pr. split; [apply Hix|]. split; [symmetry; exact Hst|].
  destruct (action_answer _ _ _ _ _ _ Hg HE) as (l0 & E0 & ->). unfold unresolved_actions in E0.
  destruct (symbol_at_cases e src d pr Hix Hrope Hsrc p Hp) as [[E H]|(o & m & ud & E & Hor & Hc & Hm & Hud)]; rewrite E in E0.
  - inversion E0; subst l0. right. split; [|reflexivity]. intros o n H1 H2. exfalso. exact (H o H1 H2).
  - pose proof (occ_ascii e src d pr Hix Hsrc o Hor) as Ha. destruct (extract_cases (e_u e) _ Ha) as [(q & ds & v & G1 & G2 & E')|[Hno E']]; rewrite E' in E0; cbn [rbind] in E0; inversion E0; subst l0.
    + left. exists o, v. split; [exact Hor|]. split; [exact Hc|]. split; [exists q, ds; auto|]. cbn [map ca_title]. rewrite title_spec. reflexivity.
    + right. split; [|reflexivity]. intros x n H1 H2 H3. rewrite (same_name_at e src d pr Hix x o p H1 Hor H2 Hc) in H3.
      apply (has_number_extract (e_u e) _ _ Ha) in H3 as [q En]. rewrite E' in En. discriminate.
Qed.
(** where no rename is possible nothing is offered *)
Lemma offer_nowhere e s uri src d pos : plain_document src -> opened e s uri src d -> prepare_rename s uri pos = None -> code_action e s uri (mkRange pos pos) = Val (Reply (Some [])).
Proof.
  intros Hsrc Ho HE. apply opened_indexed in Ho as (pr & Hix & Hrope & Hst & Hg). rewrite (prepare_symbol e s uri src d pr _ Hsrc Hix Hrope Hg) in HE.
  unfold code_action. rewrite Hg. cbn [r_start r_end]. destruct (position_cases pos pos) as [[_ ->]|[H _]]; [|congruence]. cbn [negb]. unfold unresolved_actions.
  destruct (symbol_at d pos); [discriminate|]. cbn [rbind rmapM]. destruct (lazy_resolve s); reflexivity.
Qed.
(** the actions never fail otherwise *)
Lemma offer_always e s uri src d pos : plain_document src -> visits_all (e_ord e) -> opened e s uri src d -> e_url_parse e uri = Some uri ->
  (exists l, code_action e s uri (mkRange pos pos) = Val (Reply (Some l))) \/
  (code_action e s uri (mkRange pos pos) = Panic /\ e_pf e = Debug /\ exists pr, parse_from_str (e_u e) src = Val pr /\ last_number pr).
Proof.
  intros Hsrc Hord Ho Hu. destruct (code_action e s uri (mkRange pos pos)) as [[[l|]|m]|] eqn:E.
  - left. eauto.
  - exfalso. apply (offer_selection _ _ _ _ _ _ Ho) in E. cbn in E. congruence.
  - exfalso. apply opened_indexed in Ho as (pr & Hix & Hrope & Hst & Hg). unfold code_action in E. rewrite Hg in E. cbn [r_start r_end] in E.
    destruct (negb _); [discriminate|]. destruct (unresolved_actions e uri d pos) as [l0|]; [|discriminate]. cbn [rbind] in E. destruct (lazy_resolve s); cbn [rbind] in E; [discriminate|].
    destruct (rmapM _ l0); discriminate.
  - right. split; [reflexivity|]. eapply action_panics; eassumption.
Qed.
