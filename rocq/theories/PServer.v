(** Histories, schedules, code actions. *)
From Verif Require Import Text Rope Chumsky Tokenizer Parser Numbers Index SemTok Diag Rename Cfg Backtrace Server Dispatch SpecText SpecLex SpecParse SpecIndex SpecDiag SpecBacktrace SpecNumbers SpecCfg SpecView SpecRename SpecServer
  PText PRope PBacktrace PNumbers PIndex PIndexDoc PIndexText PDiag PHints PView PNav PRename.

(** ** Histories *)
Lemma lookup_same {X} k (x : X) m : alookup k (ainsert k x m) = Some x.
Proof. unfold ainsert. rewrite alookup_aupdate, text_eqb_refl. reflexivity. Qed.
Lemma lookup_other {X} k k' (x : X) m : k' <> k -> alookup k' (ainsert k x m) = alookup k' m.
Proof. intros H. unfold ainsert. rewrite alookup_aupdate. destruct (text_eqb_spec k' k); [congruence|reflexivity]. Qed.
Lemma on_change_inv e s uri src v s' p : on_change e s uri src v = Val (s', p) ->
  exists d ds, analyze e uri src = Val (d, ds) /\ s' = mkServer (roots s) (lazy_resolve s) (ainsert uri d (docs s)) /\ p = mkPub uri v ds.
Proof.
  unfold on_change. destruct (analyze e uri src) as [[d ds]|]; [|discriminate]. cbn [rbind]. intros H. inversion H; subst. exists d, ds. auto.
Qed.
Lemma notify_inv e s n s' p : single n -> notify e s n = Val (s', p) ->
  exists t d ds, note_text n = Some t /\ analyze e (note_uri n) t = Val (d, ds) /\
    s' = mkServer (roots s) (lazy_resolve s) (ainsert (note_uri n) d (docs s)) /\ p = mkPub (note_uri n) (note_version n) ds.
Proof.
  destruct n as [u t v|u cs v]; cbn [notify note_text note_uri note_version single]; intros Hs H.
  - apply on_change_inv in H as (d & ds & H1 & H2 & H3). exists t, d, ds. auto.
  - destruct cs as [|c [|]]; try discriminate. apply on_change_inv in H as (d & ds & H1 & H2 & H3). exists c, d, ds. auto.
Qed.
Lemma last_text_app uri ns n : last_text uri (ns ++ [n]) = if text_eqb uri (note_uri n) then note_text n else last_text uri ns.
Proof. unfold last_text. rewrite fold_left_app. reflexivity. Qed.
Lemma receive_app e : forall a b s s' ps, receive e s (a ++ b) = Val (s', ps) ->
  exists s1 p1 p2, receive e s a = Val (s1, p1) /\ receive e s1 b = Val (s', p2) /\ ps = p1 ++ p2.
Proof.
  induction a as [|n a IH]; intros b s s' ps H; [exists s, [], ps; auto|]. cbn [app receive] in H |- *. destruct (notify e s n) as [[s0 p]|]; [|discriminate].
  cbn [rbind] in *. destruct (receive e s0 (a ++ b)) as [[s2 q]|] eqn:E; [|discriminate]. cbn [rmap rbind] in H. inversion H; subst.
  apply IH in E as (s1 & p1 & p2 & E1 & E2 & ->). rewrite E1. cbn. exists s1, (p :: p1), p2. auto.
Qed.
Lemma receive_docs e s : forall ns s' ps, Forall single ns -> receive e s ns = Val (s', ps) ->
  roots s' = roots s /\ lazy_resolve s' = lazy_resolve s /\
  forall uri, match last_text uri ns with
              | Some t => exists d ds, analyze e uri t = Val (d, ds) /\ get_doc s' uri = Some d
              | None => get_doc s' uri = get_doc s uri
              end.
Proof.
  induction ns as [|n ns IH] using rev_ind; intros s' ps Hs H.
  - cbn in H. inversion H; subst. split; [reflexivity|]. split; [reflexivity|]. intros uri. reflexivity.
  - apply Forall_app in Hs as [Hs Hn]. inversion Hn as [|? ? Hn' _]; subst. apply receive_app in H as (s1 & p1 & p2 & H1 & H2 & ->).
    destruct (IH _ _ Hs H1) as (A1 & A2 & A3). cbn [receive] in H2. destruct (notify e s1 n) as [[s2 p]|] eqn:En; [|discriminate]. cbn in H2. inversion H2; subst.
    apply notify_inv in En as (t & d & ds & E1 & E2 & -> & _); [|exact Hn']. cbn [roots lazy_resolve]. split; [exact A1|]. split; [exact A2|].
    intros uri. rewrite last_text_app. unfold get_doc. cbn [docs]. destruct (text_eqb_spec uri (note_uri n)) as [->|Hne].
    + rewrite E1. exists d, ds. split; [exact E2|apply lookup_same].
    + rewrite lookup_other; [apply A3|exact Hne].
Qed.
Lemma resolve_same e s s' a : (forall j ad, ca_data a = Some j -> action_data_of_json e j = Some ad -> get_doc s (ad_uri ad) = get_doc s' (ad_uri ad)) ->
  do_code_action_resolve e s a = do_code_action_resolve e s' a.
Proof.
  intros H. unfold do_code_action_resolve. destruct (ca_data a) as [j|]; [|reflexivity]. destruct (action_data_of_json e j) as [ad|] eqn:E; [|reflexivity].
  rewrite (H j ad eq_refl E). reflexivity.
Qed.

Lemma use_def_same e s s' uri pos k : roots s = roots s' -> get_doc s uri = get_doc s' uri -> get_use_def_ranges e s uri pos k = get_use_def_ranges e s' uri pos k.
Proof. intros Hr H. unfold get_use_def_ranges. rewrite H, Hr. reflexivity. Qed.
Lemma json_round e uri k b n : e_url_parse e uri = Some uri -> in_i64 n = true -> action_data_of_json e (action_data_to_json (mkAD uri k b n)) = Some (mkAD uri k b n).
Proof.
  intros Hu Hn. unfold action_data_to_json, action_data_of_json. cbn [ad_uri ad_kind ad_body ad_nr].
  replace (text_eqb (str "shiftNumbering") (str "shiftNumbering")) with true by reflexivity.
  replace (json_field (str "uri") _) with (Some (JStr uri)) by reflexivity.
  replace (json_field (str "symbol_kind") _) with (Some (JStr (kind_json k))) by reflexivity.
  replace (json_field (str "renamed_nr") _) with (Some (JInt n)) by reflexivity.
  cbn [obind json_as_str]. rewrite Hu. replace (kind_of_json (kind_json k)) with (Some k) by (destruct k; reflexivity).
  unfold i64_of_json. rewrite Hn. unfold body_of_json. replace (json_field (str "func_body_id") _) with (Some (match b with None => JNull | Some i => JInt (Z.of_nat i) end)) by reflexivity.
  destruct b as [i|]; [|reflexivity]. unfold usize_of_json. replace (0 <=? Z.of_nat i)%Z with true by (symmetry; apply Z.leb_le; lia). cbn [option_map]. rewrite Nat2Z.id. reflexivity.
Qed.
Lemma extract_in_i64 u x p z : extract_number_from_identifier u x = Val (Some (p, z)) -> in_i64 z = true.
Proof. intros H. apply extract_sound in H as (ds & _ & _ & _ & _ & H & _). apply in_i64_iff. unfold fits_i64, max_i64 in *. lia. Qed.
Lemma actions_data e uri d pos l : unresolved_actions e uri d pos = Val l -> e_url_parse e uri = Some uri ->
  Forall (fun a => exists k b n, ca_data a = Some (action_data_to_json (mkAD uri k b n)) /\ action_data_of_json e (action_data_to_json (mkAD uri k b n)) = Some (mkAD uri k b n)) l.
Proof.
  unfold unresolved_actions. intros H Hu. destruct (symbol_at d pos) as [o|]; [|inversion H; constructor].
  destruct (extract_number_from_identifier (e_u e) (o_name o)) as [[[p n]|]|] eqn:E; cbn [rbind] in H; [|inversion H; constructor|discriminate]. inversion H; subst.
  constructor; [|constructor]. exists (o_kind o), (o_body o), n. split; [reflexivity|]. apply json_round; [exact Hu|]. eapply extract_in_i64. exact E.
Qed.
Lemma rmapM_ext {A B} (f g : A -> res B) l : Forall (fun a => f a = g a) l -> rmapM f l = rmapM g l.
Proof. induction 1 as [|a l H _ IH]; [reflexivity|]. cbn [rmapM]. rewrite H, IH. reflexivity. Qed.
Lemma handle_same e s s' q uri : roots s = roots s' -> lazy_resolve s = lazy_resolve s' -> get_doc s uri = get_doc s' uri -> e_url_parse e uri = Some uri ->
  about e q uri -> handle e s q = handle e s' q.
Proof.
  intros Hr Hl Hg Hu Ha. destruct q; cbn [about handle] in *; try subst.
  - unfold goto_definition. rewrite (use_def_same e s s') by assumption. reflexivity.
  - unfold goto_declaration. rewrite (use_def_same e s s') by assumption. reflexivity.
  - unfold references. rewrite (use_def_same e s s') by assumption. reflexivity.
  - unfold semantic_tokens_full. rewrite Hg. reflexivity.
  - unfold document_symbol. rewrite Hg. reflexivity.
  - unfold prepare_rename. rewrite Hg. reflexivity.
  - unfold rename. rewrite Hg. reflexivity.
  - unfold code_action. rewrite Hg, Hl. destruct (get_doc s' uri) as [d|] eqn:Ed; [|reflexivity]. destruct (negb _); [reflexivity|].
    destruct (unresolved_actions e uri d (r_start rng)) as [l|] eqn:El; [|reflexivity]. cbn [rbind]. destruct (lazy_resolve s'); [reflexivity|].
    rewrite (rmapM_ext _ (fun a => unwrap_reply (do_code_action_resolve e s' a))); [reflexivity|]. apply actions_data in El; [|exact Hu].
    eapply Forall_impl; [|exact El]. cbn beta. intros a (k & b & n & E1 & E2). f_equal. apply resolve_same. intros j ad Hj Had. rewrite E1 in Hj. inversion Hj; subst.
    rewrite E2 in Had. inversion Had; subst. cbn [ad_uri]. congruence.
  - unfold code_action_resolve. rewrite (resolve_same e s s'); [reflexivity|]. intros j ad H1 H2. rewrite (Ha _ _ H1 H2). exact Hg.
  - unfold folding_range. rewrite Hg. reflexivity.
  - unfold inlay_hint_handler, backtrace_hint. rewrite Hg, Hr. reflexivity.
  - unfold code_lens. rewrite Hg. reflexivity.
  - f_equal. f_equal. unfold execute_command. destruct args as [|[] [|[] [|]]]; try reflexivity. rewrite (Ha _ _ eq_refl), Hg. reflexivity.
Qed.
(** C42 *)
Lemma last_text_wins e s ns s' ps uri t q : Forall single ns -> receive e s ns = Val (s', ps) -> last_text uri ns = Some t -> e_url_parse e uri = Some uri ->
  about e q uri -> exists s0 p0, did_open e (mkServer (roots s) (lazy_resolve s) []) uri t 0 = Val (s0, p0) /\ handle e s' q = handle e s0 q.
Proof.
  intros Hs H Ht Hu Ha. destruct (receive_docs _ _ _ _ _ Hs H) as (H1 & H2 & H3). specialize (H3 uri). rewrite Ht in H3. destruct H3 as (d & ds & E & Eg).
  unfold did_open, on_change. rewrite E. cbn [rbind]. eexists _, _. split; [reflexivity|]. apply (handle_same _ _ _ _ uri); cbn [roots lazy_resolve]; try assumption.
  rewrite Eg. unfold get_doc. cbn [docs]. rewrite lookup_same. reflexivity.
Qed.
Lemma other_documents e s ns s' ps uri q : Forall single ns -> receive e s ns = Val (s', ps) -> Forall (fun n => note_uri n <> uri) ns -> e_url_parse e uri = Some uri ->
  about e q uri -> handle e s' q = handle e s q.
Proof.
  intros Hs H Ho Hu Ha. destruct (receive_docs _ _ _ _ _ Hs H) as (H1 & H2 & H3). specialize (H3 uri).
  assert (last_text uri ns = None) as E.
  { clear - Ho. induction ns as [|n ns IH] using rev_ind; [reflexivity|]. apply Forall_app in Ho as [Ho Hn]. inversion Hn; subst. rewrite last_text_app.
    destruct (text_eqb_spec uri (note_uri n)) as [E|_]; [congruence|auto]. }
  rewrite E in H3. apply (handle_same _ _ _ _ uri); assumption.
Qed.
(** C47 *)
Lemma unknown_harmless e s q uri : get_doc s uri = None -> about e q uri -> exists r, handle e s q = Val r /\ nothing r.
Proof.
  intros Hg Ha. destruct q; cbn [about handle] in *; try subst.
  1-3: unfold goto_definition, goto_declaration, references, get_use_def_ranges; rewrite Hg; eexists; split; reflexivity.
  1: unfold semantic_tokens_full; rewrite Hg; eexists; split; reflexivity.
  1: unfold document_symbol; rewrite Hg; eexists; split; reflexivity.
  1: unfold prepare_rename; rewrite Hg; eexists; split; reflexivity.
  1: unfold rename; rewrite Hg; eexists; split; [reflexivity|exact I].
  1: unfold code_action; rewrite Hg; eexists; split; [reflexivity|exact I].
  - unfold code_action_resolve, do_code_action_resolve. destruct (ca_data a) as [j|]; [|eexists; split; [reflexivity|exact I]].
    destruct (action_data_of_json e j) as [ad|] eqn:E; [|eexists; split; [reflexivity|exact I]]. rewrite (Ha j ad eq_refl E), Hg. eexists; split; [reflexivity|exact I].
  - unfold folding_range; rewrite Hg; eexists; split; reflexivity.
  - unfold inlay_hint_handler; rewrite Hg; eexists; split; reflexivity.
  - unfold code_lens; rewrite Hg; eexists; split; reflexivity.
  - unfold execute_command. destruct args as [|[] [|[] [|]]]; try (eexists; split; [reflexivity|exact I]).
    destruct (text_eqb _ _); [|eexists; split; [reflexivity|exact I]]. rewrite (Ha _ _ eq_refl), Hg. eexists; split; [reflexivity|exact I].
Qed.

(** ** Schedules *)
Lemma wrun_snoc e ss w0 evs ev : wrun e ss w0 (evs ++ [ev]) = obind (wrun e ss w0 evs) (fun w => wstep e ss w ev).
Proof.
  revert w0. induction evs as [|x evs IH]; intros w0; cbn [app wrun].
  - cbn [obind]. destruct (wstep e ss w0 ev); reflexivity.
  - destruct (wstep e ss w0 x) as [w1|]; [|reflexivity]. cbn [obind]. apply IH.
Qed.
Lemma changes_snoc evs ev : changes (evs ++ [ev]) = changes evs ++ match ev with EChange u t v => [(u, t, v)] | _ => [] end.
Proof. unfold changes. rewrite flat_map_app. cbn [flat_map]. rewrite app_nil_r. reflexivity. Qed.
Lemma notes_snoc evs ev : notes_of (evs ++ [ev]) = notes_of evs ++ match ev with EChange u t v => [NOpen u t v] | _ => [] end.
Proof. unfold notes_of. rewrite changes_snoc, map_app. destruct ev; reflexivity. Qed.
Lemma receive_join e : forall a b s s1 p1, receive e s a = Val (s1, p1) -> receive e s (a ++ b) = rmap (fun '(s2, p2) => (s2, p1 ++ p2)) (receive e s1 b).
Proof.
  induction a as [|n a IH]; intros b s s1 p1 H.
  - cbn in H. inversion H; subst. cbn [app]. destruct (receive e s1 b) as [[? ?]|]; reflexivity.
  - cbn [app receive] in H |- *. destruct (notify e s n) as [[s0 p]|]; [|discriminate]. cbn [rbind] in *. destruct (receive e s0 a) as [[s2 q]|] eqn:E; [|discriminate].
    cbn [rmap rbind] in H. inversion H; subst. rewrite (IH b _ _ _ E). destruct (receive e s1 b) as [[? ?]|]; reflexivity.
Qed.
Lemma remove_nth_perm {A} (x : A) : forall n l, nth_error l n = Some x -> Permutation (x :: remove_nth n l) l.
Proof.
  induction n as [|n IH]; intros [|y l] H; try discriminate; cbn [remove_nth].
  - inversion H; subst. apply Permutation_refl.
  - eapply perm_trans; [apply perm_swap|]. apply perm_skip. apply IH. exact H.
Qed.
Lemma remove_nth_length {A} : forall n (l : list A), n < length l -> S (length (remove_nth n l)) = length l.
Proof. induction n as [|n IH]; intros [|y l] H; cbn in *; try lia. rewrite IH; lia. Qed.
Lemma remove_nth_in {A} (x : A) : forall n l, In x (remove_nth n l) -> In x l.
Proof. induction n as [|n IH]; intros [|y l] H; cbn in *; auto. destruct H as [->|H]; auto. Qed.
Lemma schedule_inv e ss s : forall evs w, wrun e ss (world_init s) evs = Some w ->
  let past := match w_health w with Alive => evs | _ => removelast evs end in
  (exists ps, receive e s (notes_of past) = Val (w_server w, ps) /\ Permutation (w_sent w ++ w_waiting w) ps /\ (in_order evs -> w_sent w ++ w_waiting w = ps)) /\
  length (w_guards w) + answers_no past <= graphs_no past /\ (forall g, In g (w_guards w) -> exists f, In (EVisualize g f) past) /\
  match w_health w with
  | Alive => True
  | Crashed => exists u t v, evs = past ++ [EChange u t v] /\ analyze e u t = Panic
  | Blocked => exists u t v g, evs = past ++ [EChange u t v] /\ In g (w_guards w) /\ ss u g = true
  end.
Proof.
  induction evs as [|ev evs IH] using rev_ind; intros w H.
  - cbn in H. inversion H; subst. cbn. split; [exists []; split; [reflexivity|]; split; [constructor|reflexivity]|]. split; [lia|]. split; [intros g []|exact I].
  - rewrite wrun_snoc in H. destruct (wrun e ss (world_init s) evs) as [w0|] eqn:E0; [|discriminate]. cbn [obind] in H. specialize (IH w0 eq_refl).
    assert (Hord : in_order (evs ++ [ev]) -> in_order evs) by (intros Ho n Hn; apply Ho; apply in_or_app; left; exact Hn).
    unfold wstep in H. destruct (w_health w0) eqn:Eh; try discriminate. cbv zeta in IH. destruct IH as ((ps & I1 & I2 & I2') & I3 & I4 & _).
    assert (Hrl : removelast (evs ++ [ev]) = evs) by apply removelast_last.
    assert (Hans : forall a, answers_no (evs ++ [a]) = answers_no evs + match a with EAnswer _ => 1 | _ => 0 end).
    { intros a. unfold answers_no. rewrite filter_app, app_length. destruct a; reflexivity. }
    assert (Hgr : forall a, graphs_no (evs ++ [a]) = graphs_no evs + match a with EVisualize _ _ => 1 | _ => 0 end).
    { intros a. unfold graphs_no. rewrite filter_app, app_length. destruct a; reflexivity. }
    assert (Hin : forall g, In g (w_guards w0) -> exists f, In (EVisualize g f) (evs ++ [ev])).
    { intros g Hg. destruct (I4 g Hg) as (f & Hf). exists f. apply in_or_app. left. exact Hf. }
    destruct ev as [u t v|n|u f|n].
    + destruct (on_change e (w_server w0) u t v) as [[s' p]|] eqn:Ec.
      * destruct (existsb (ss u) (w_guards w0)) eqn:Eg; inversion H; subst; cbn [w_health w_server w_sent w_waiting w_guards]; cbv zeta.
        -- rewrite Hrl. split; [exists ps; split; [exact I1|]; split; [exact I2|auto]|]. split; [exact I3|]. split; [exact I4|].
           apply existsb_exists in Eg as (g & G1 & G2). exists u, t, v, g. auto.
        -- rewrite notes_snoc, Hans, Hgr. split; [|split; [lia|split; [exact Hin|exact I]]].
           exists (ps ++ [p]). rewrite (receive_join _ _ _ _ _ _ I1). cbn [receive notify]. unfold did_open. rewrite Ec. cbn [rbind rmap]. split; [reflexivity|].
           rewrite app_assoc. split; [apply Permutation_app_tail; exact I2|]. intros Ho. rewrite I2' by auto. reflexivity.
      * inversion H; subst; cbn [w_health w_server w_sent w_waiting w_guards]; cbv zeta. rewrite Hrl.
        split; [exists ps; split; [exact I1|]; split; [exact I2|auto]|]. split; [exact I3|]. split; [exact I4|]. exists u, t, v. split; [reflexivity|].
        unfold on_change in Ec. destruct (analyze e u t) as [[d ds]|]; [discriminate|reflexivity].
    + destruct (nth_error (w_waiting w0) n) as [p|] eqn:En; [|discriminate]. inversion H; subst; cbn [w_health w_server w_sent w_waiting w_guards]; cbv zeta.
      rewrite notes_snoc, Hans, Hgr, app_nil_r. split; [|split; [lia|split; [exact Hin|exact I]]]. exists ps. split; [exact I1|]. split.
      * rewrite <- app_assoc. cbn [app]. eapply perm_trans; [|exact I2]. apply Permutation_app_head. apply remove_nth_perm. exact En.
      * intros Ho. assert (n = 0) as -> by (apply Ho; apply in_or_app; right; left; reflexivity). rewrite <- (I2' (Hord Ho)). rewrite <- app_assoc. f_equal.
        destruct (w_waiting w0); [discriminate|]. cbn in En. inversion En; subst. reflexivity.
    + assert (E1 : execute_command (w_server w0) (str "visualize-cfg") [JStr u; JStr f] = execute_command (w_server w0) (str "visualize-cfg") [JStr u; JStr f]) by reflexivity.
      destruct (execute_command (w_server w0) (str "visualize-cfg") [JStr u; JStr f]) as [sg|m] in H; inversion H; subst; cbn [w_health w_server w_sent w_waiting w_guards]; cbv zeta.
      * rewrite notes_snoc, Hans, Hgr, app_nil_r. split; [exists ps; split; [exact I1|]; split; [exact I2|auto]|]. rewrite app_length. cbn [length]. split; [lia|]. split; [|exact I].
        intros g Hg. apply in_app_or in Hg as [Hg|[<-|[]]]; [apply Hin; exact Hg|]. exists f. apply in_or_app. right. left. reflexivity.
      * rewrite Eh. rewrite notes_snoc, Hans, Hgr, app_nil_r. split; [exists ps; split; [exact I1|]; split; [exact I2|auto]|]. split; [lia|]. split; [exact Hin|exact I].
    + destruct (Nat.ltb_spec n (length (w_guards w0))) as [L|L]; [|discriminate]. inversion H; subst; cbn [w_health w_server w_sent w_waiting w_guards]; cbv zeta.
      rewrite notes_snoc, Hans, Hgr, app_nil_r. pose proof (remove_nth_length n (w_guards w0) L). split; [exists ps; split; [exact I1|]; split; [exact I2|auto]|]. split; [lia|]. split; [|exact I].
      intros g Hg. apply remove_nth_in in Hg. apply Hin. exact Hg.
Qed.
Lemma receive_published e : forall ns s s' ps, Forall single ns -> receive e s ns = Val (s', ps) ->
  Forall2 (fun n p => exists t, note_text n = Some t /\ published e (note_uri n) t (note_version n) p) ns ps.
Proof.
  induction ns as [|n ns IH]; intros s s' ps Hs H; inversion Hs as [|? ? Hn Hs']; subst; cbn [receive] in H; [inversion H; constructor|].
  destruct (notify e s n) as [[s1 p]|] eqn:E; [|discriminate]. cbn [rbind] in H. destruct (receive e s1 ns) as [[s2 q]|] eqn:E'; [|discriminate]. cbn in H. inversion H; subst.
  constructor; [|eapply IH; eassumption]. apply notify_inv in E as (t & d & ds & E1 & E2 & _ & ->); [|exact Hn]. exists t. split; [exact E1|]. split; [reflexivity|]. split; [reflexivity|]. exists d. exact E2.
Qed.
Lemma changes_published e evs s s' ps : receive e s (notes_of evs) = Val (s', ps) ->
  Forall2 (fun c p => let '(u, t, v) := c in published e u t v p) (changes evs) ps.
Proof.
  unfold notes_of. intros H. apply receive_published in H; [|apply Forall_forall; intros n Hn; apply in_map_iff in Hn as ([[u t] v] & <- & _); exact I].
  remember (changes evs) as cs. clear Heqcs. revert ps H. induction cs as [|[[u t] v] cs IH]; intros ps H; inversion H as [|? ? ? ? H1 H2]; subst; constructor; [|apply IH; exact H2].
  destruct H1 as (t' & E & H1). cbn in E. inversion E; subst. exact H1.
Qed.
(** C43 *)
Lemma versions_match e ss s evs w : wrun e ss (world_init s) evs = Some w ->
  let past := match w_health w with Alive => evs | _ => removelast evs end in
  exists ps, Forall2 (fun c p => let '(u, t, v) := c in published e u t v p) (changes past) ps /\ Permutation (w_sent w ++ w_waiting w) ps.
Proof. intros H past. destruct (schedule_inv _ _ _ _ _ H) as ((ps & H1 & H2 & _) & _). exists ps. split; [eapply changes_published; exact H1|exact H2]. Qed.
Lemma in_order_match e ss s evs w : wrun e ss (world_init s) evs = Some w -> in_order evs -> w_health w = Alive ->
  Forall2 (fun c p => let '(u, t, v) := c in published e u t v p) (changes evs) (w_sent w ++ w_waiting w).
Proof.
  intros H Ho Hh. destruct (schedule_inv _ _ _ _ _ H) as ((ps & H1 & _ & H2) & _). rewrite Hh in H1. rewrite (H2 Ho). eapply changes_published; exact H1.
Qed.
Lemma sent_match e ss s evs w p : wrun e ss (world_init s) evs = Some w -> In p (w_sent w) -> exists u t v, In (EChange u t v) evs /\ published e u t v p.
Proof.
  intros H Hp. destruct (versions_match _ _ _ _ _ H) as (ps & H1 & H2). assert (In p ps) as Hin. { eapply Permutation_in; [exact H2|]. apply in_or_app. left. exact Hp. }
  assert (Hc : forall evs u t v, In (u, t, v) (changes evs) -> In (EChange u t v) evs).
  { intros l u t v Hx. unfold changes in Hx. apply in_flat_map in Hx as (ev & He & Hx). destruct ev; cbn in Hx; try contradiction. destruct Hx as [Hx|[]]. inversion Hx; subst. exact He. }
  set (past := match w_health w with Alive => evs | _ => removelast evs end) in *.
  assert (Hsub : forall x, In x past -> In x evs). { intros x Hx. unfold past in Hx. destruct (w_health w); [exact Hx| |]; (destruct evs as [|y l] using rev_ind; [exact Hx|]; rewrite removelast_last in Hx; apply in_or_app; left; exact Hx). }
  clearbody past. revert Hin H1. generalize (changes past) as cs, (Hc past). clear - Hsub. intros cs Hc Hin H1.
  induction H1 as [|[[u t] v] q cs qs H1 H2 IH]; [contradiction|]. destruct Hin as [->|Hin]; [exists u, t, v; split; [apply Hsub, Hc; left; reflexivity|exact H1]|].
  apply IH; [|exact Hin]. intros u' t' v' Hx. apply Hc. right. exact Hx.
Qed.
(** the stored documents do not depend on the order of the messages *)
Lemma schedule_server e ss s evs w : wrun e ss (world_init s) evs = Some w -> w_health w = Alive ->
  exists ps, receive e s (notes_of evs) = Val (w_server w, ps).
Proof. intros H Hh. destruct (schedule_inv _ _ _ _ _ H) as ((ps & H1 & _) & _). rewrite Hh in H1. eauto. Qed.
(** C48 *)
Lemma blocked_cause e ss s evs w : wrun e ss (world_init s) evs = Some w -> w_health w = Blocked ->
  exists pre u t v g f, evs = pre ++ [EChange u t v] /\ In (EVisualize g f) pre /\ ss u g = true /\ answers_no pre < graphs_no pre.
Proof.
  intros H Hh. destruct (schedule_inv _ _ _ _ _ H) as (_ & H1 & H2 & H3). rewrite Hh in *. destruct H3 as (u & t & v & g & H3 & H4 & H5). destruct (H2 g H4) as (f & Hf).
  exists (removelast evs), u, t, v, g, f. split; [exact H3|]. split; [exact Hf|]. split; [exact H5|]. destruct (w_guards w); [contradiction|]. cbn [length] in H1. lia.
Qed.
Lemma never_blocked e ss s evs w : wrun e ss (world_init s) evs = Some w -> answered_before_changes evs -> w_health w <> Blocked.
Proof.
  intros H Ha Hh. destruct (blocked_cause _ _ _ _ _ H Hh) as (pre & u & t & v & g & f & -> & _ & _ & Hlt). specialize (Ha pre u t v [] eq_refl). lia.
Qed.
Lemma other_shards e ss s evs w : wrun e ss (world_init s) evs = Some w ->
  (forall u t v g f, In (EChange u t v) evs -> In (EVisualize g f) evs -> ss u g = false) -> w_health w <> Blocked.
Proof.
  intros H Ha Hh. destruct (blocked_cause _ _ _ _ _ H Hh) as (pre & u & t & v & g & f & -> & Hf & Hs & _).
  rewrite (Ha u t v g f) in Hs; [discriminate|apply in_or_app; right; left; reflexivity|apply in_or_app; left; exact Hf].
Qed.
(** what waits can always be finished *)
Lemma drain_publishes e ss : forall ps s sent gs, exists evs, Forall is_publish evs /\ wrun e ss (mkWorld s ps sent gs Alive) evs = Some (mkWorld s [] (sent ++ ps) gs Alive).
Proof.
  induction ps as [|p ps IH]; intros s sent gs; [exists []; split; [constructor|cbn; rewrite app_nil_r; reflexivity]|].
  destruct (IH s (sent ++ [p]) gs) as (evs & H1 & H2). exists (EPublish 0 :: evs). split; [constructor; [exact I|exact H1]|]. cbn [wrun]. unfold wstep. cbn [w_health w_waiting nth_error w_server w_sent w_guards remove_nth obind].
  rewrite H2, <- app_assoc. reflexivity.
Qed.
Lemma drain_guards e ss : forall gs s ws sent, exists evs, Forall is_graph_answer evs /\ wrun e ss (mkWorld s ws sent gs Alive) evs = Some (mkWorld s ws sent [] Alive).
Proof.
  induction gs as [|g gs IH]; intros s ws sent; [exists []; split; [constructor|reflexivity]|].
  destruct (IH s ws sent) as (evs & H1 & H2). exists (EAnswer 0 :: evs). split; [constructor; [exact I|exact H1]|]. cbn [wrun]. unfold wstep. cbn [w_health w_waiting w_server w_sent w_guards length]. cbn [Nat.ltb Nat.leb remove_nth obind]. exact H2.
Qed.
Lemma all_can_finish e ss w : w_health w = Alive -> exists evs w', wrun e ss w evs = Some w' /\ w_health w' = Alive /\ w_waiting w' = [] /\ w_guards w' = [] /\
  w_sent w' = w_sent w ++ w_waiting w /\ w_server w' = w_server w /\ Forall (fun ev => is_publish ev \/ is_graph_answer ev) evs.
Proof.
  destruct w as [s ws sent gs h]. cbn [w_health w_waiting w_sent w_server]. intros ->. destruct (drain_publishes e ss ws s sent gs) as (e1 & A1 & A2). destruct (drain_guards e ss gs s [] (sent ++ ws)) as (e2 & B1 & B2).
  assert (Happ : forall a b w, wrun e ss w (a ++ b) = obind (wrun e ss w a) (fun w' => wrun e ss w' b)).
  { induction a as [|x a IH]; intros b w; [reflexivity|]. cbn [app wrun]. destruct (wstep e ss w x); [|reflexivity]. cbn [obind]. apply IH. }
  exists (e1 ++ e2), (mkWorld s [] (sent ++ ws) [] Alive). rewrite Happ, A2. cbn [obind]. rewrite B2. repeat split. apply Forall_app. split; [eapply Forall_impl; [|exact A1]; auto|eapply Forall_impl; [|exact B1]; auto].
Qed.

(** ** Code actions *)
Lemma resolve_no_error e s uri d pos l a m : unresolved_actions e uri d pos = Val l -> e_url_parse e uri = Some uri -> get_doc s uri = Some d -> In a l ->
  do_code_action_resolve e s a <> Val (RpcError m).
Proof.
  intros H Hu Hg Ha. apply actions_data in H; [|exact Hu]. rewrite Forall_forall in H. destruct (H a Ha) as (k & b & n & E1 & E2).
  unfold do_code_action_resolve. rewrite E1, E2. cbn [ad_uri]. rewrite Hg. destruct (get_shift_edits _ _ _ _ _ _ _ _ _); discriminate.
Qed.
Lemma rmapM_unwrap e s : forall l l', (forall a m, In a l -> do_code_action_resolve e s a <> Val (RpcError m)) ->
  (rmapM (fun a => unwrap_reply (do_code_action_resolve e s a)) l = Val l' <-> Forall2 (fun a a' => do_code_action_resolve e s a = Val (Reply a')) l l').
Proof.
  induction l as [|a l IH]; intros l' Hne; cbn [rmapM].
  - split; intros H; [inversion H; constructor|inversion H; reflexivity].
  - pose proof (fun m => Hne a m (or_introl eq_refl)) as Ha. specialize (fun l' => IH l' (fun b m Hb => Hne b m (or_intror Hb))).
    unfold unwrap_reply at 1. destruct (do_code_action_resolve e s a) as [[a'|m]|] eqn:E; cbn [rbind].
    + destruct (rmapM _ l) as [r|] eqn:Er; cbn [rbind].
      * split; intros H; [inversion H; subst; constructor; [exact E|apply IH; reflexivity]|]. inversion H as [|? y ? r' H1 H2]; subst. apply IH in H2. congruence.
      * split; intros H; [discriminate|]. inversion H as [|? y ? r' H1 H2]; subst. apply IH in H2. discriminate.
    + exfalso. eapply Ha. reflexivity.
    + split; intros H; [discriminate|]. inversion H; subst. congruence.
Qed.
Lemma lazy_eager e s uri rng l l' : e_url_parse e uri = Some uri -> code_action e (with_lazy true s) uri rng = Val (Reply (Some l)) ->
  (code_action e (with_lazy false s) uri rng = Val (Reply (Some l')) <-> Forall2 (fun a a' => code_action_resolve e s a = Val (Reply a')) l l').
Proof.
  intros Hu. unfold code_action. change (get_doc (with_lazy true s) uri) with (get_doc s uri). change (get_doc (with_lazy false s) uri) with (get_doc s uri).
  destruct (get_doc s uri) as [d|] eqn:Hg; [|discriminate]. destruct (negb _); [discriminate|]. destruct (unresolved_actions e uri d (r_start rng)) as [l0|] eqn:El; [|discriminate].
  cbn [rbind lazy_resolve with_lazy]. intros H. inversion H; subst l0.
  rewrite (rmapM_ext _ (fun a => unwrap_reply (do_code_action_resolve e s a))) by (apply Forall_forall; intros a _; f_equal; apply resolve_same; reflexivity).
  pose proof (rmapM_unwrap e s l l') as G. unfold code_action_resolve. rewrite <- G.
  - destruct (rmapM _ l); cbn [rbind]; split; intros HH; inversion HH; reflexivity.
  - intros a m Ha. eapply resolve_no_error; eassumption.
Qed.
Lemma lazy_same_cases e s uri rng : e_url_parse e uri = Some uri ->
  (forall m, code_action e (with_lazy true s) uri rng = Val (RpcError m) <-> code_action e (with_lazy false s) uri rng = Val (RpcError m)) /\
  (code_action e (with_lazy true s) uri rng = Val (Reply None) <-> code_action e (with_lazy false s) uri rng = Val (Reply None)) /\
  (code_action e (with_lazy false s) uri rng = Panic <->
    code_action e (with_lazy true s) uri rng = Panic \/ exists l a, code_action e (with_lazy true s) uri rng = Val (Reply (Some l)) /\ In a l /\ code_action_resolve e s a = Panic).
Proof.
  intros Hu. unfold code_action. change (get_doc (with_lazy true s) uri) with (get_doc s uri). change (get_doc (with_lazy false s) uri) with (get_doc s uri).
  destruct (get_doc s uri) as [d|] eqn:Hg; [|split; [tauto|]; split; [tauto|]; split; [discriminate|intros [H|(l & a & H & _)]; discriminate]].
  destruct (negb _); [split; [tauto|]; split; [tauto|]; split; [discriminate|intros [H|(l & a & H & _)]; discriminate]|].
  destruct (unresolved_actions e uri d (r_start rng)) as [l0|] eqn:El; cbn [rbind]; [|split; [tauto|]; split; [tauto|]; split; [auto|reflexivity]].
  cbn [lazy_resolve with_lazy].
  rewrite (rmapM_ext _ (fun a => unwrap_reply (do_code_action_resolve e s a))) by (apply Forall_forall; intros a _; f_equal; apply resolve_same; reflexivity).
  destruct (rmapM _ l0) as [r|] eqn:Er; cbn [rbind].
  - split; [intros m; split; discriminate|]. split; [split; discriminate|]. split; [discriminate|]. intros [H|(l & a & H & Ha & Hp)]; [discriminate|]. inversion H; subst l0.
    apply rmapM_unwrap in Er; [|intros a' m Ha'; eapply resolve_no_error; eassumption]. exfalso. clear - Er Ha Hp. induction Er as [|x y l r E Er IH]; [contradiction|].
    destruct Ha as [->|Ha]; [unfold code_action_resolve in Hp; congruence|auto].
  - split; [intros m; split; discriminate|]. split; [split; discriminate|]. split; [|reflexivity]. intros _. right. exists l0.
    assert (exists a, In a l0 /\ do_code_action_resolve e s a = Panic) as (a & Ha & Hp); [|exists a; auto].
    assert (Hne : forall a m, In a l0 -> do_code_action_resolve e s a <> Val (RpcError m)) by (intros a m Ha; eapply resolve_no_error; eassumption).
    clear - Er Hne. induction l0 as [|a l IH]; [discriminate|]. cbn [rmapM] in Er. unfold unwrap_reply at 1 in Er. destruct (do_code_action_resolve e s a) as [[a'|m]|] eqn:E.
    + cbn [rbind] in Er. destruct (rmapM _ l) eqn:E'; [discriminate|]. destruct IH as (b & Hb & Hp); [reflexivity|intros; apply Hne; right; assumption|]. exists b. split; [right; exact Hb|exact Hp].
    + exfalso. eapply Hne; [left; reflexivity|exact E].
    + exists a. split; [left; reflexivity|exact E].
Qed.
Lemma shifted_action e s uri src d p : plain_document src -> visits_all (e_ord e) -> opened e s uri src d -> e_url_parse e uri = Some uri -> p <= length src ->
  exists pr, parse_from_str (e_u e) src = Val pr /\ pr_stmts pr = doc_stmts d /\
  let rng := mkRange (lsp_position src p) (lsp_position src p) in
  (((forall o, In o (recorded (pr_stmts pr) (pr_tokens pr)) -> ~ covers (o_span o) p) /\ code_action e s uri rng = Val (Reply (Some []))) \/
   exists o, In o (recorded (pr_stmts pr) (pr_tokens pr)) /\ covers (o_span o) p /\
     ((forall n, ~ has_number (o_name o) n) -> code_action e s uri rng = Val (Reply (Some []))) /\
     (forall n, has_number (o_name o) n -> no_overflow (recorded (pr_stmts pr) (pr_tokens pr)) o n 1 ->
        exists a edits, code_action e (with_lazy true s) uri rng = Val (Reply (Some [a])) /\ ca_edit a = None /\
          replaces src (moved o n 1) (recorded (pr_stmts pr) (pr_tokens pr)) edits /\
          code_action_resolve e s a = Val (Reply (mkCA (ca_title a) (ca_data a) (Some (uri, edits)))) /\
          code_action e (with_lazy false s) uri rng = Val (Reply (Some [mkCA (ca_title a) (ca_data a) (Some (uri, edits))])))).
Proof.
  intros Hsrc Hord Ho Hu Hp. apply opened_indexed in Ho as (pr & Hix & Hrope & Hst & Hg). exists pr. split; [apply Hix|]. split; [symmetry; exact Hst|]. cbv zeta.
  assert (Hpe : forall a : position_, pos_eqb a a = true) by (intros a; unfold pos_eqb; rewrite !Nat.eqb_refl; reflexivity).
  destruct (symbol_at_cases e src d pr Hix Hrope Hsrc p Hp) as [[E H]|(o & m & ud & E & Ho & Hc & Hm & Hud)].
  - left. split; [exact H|]. unfold code_action. rewrite Hg. cbn [r_start r_end]. rewrite Hpe. cbn [negb]. unfold unresolved_actions. rewrite E. cbn [rbind]. destruct (lazy_resolve s); reflexivity.
  - right. exists o. split; [exact Ho|]. split; [exact Hc|]. pose proof (occ_ascii e src d pr Hix Hsrc o Ho) as Ha. split.
    + intros Hno. unfold code_action. rewrite Hg. cbn [r_start r_end]. rewrite Hpe. cbn [negb]. unfold unresolved_actions. rewrite E.
      destruct (extract_cases (e_u e) _ Ha) as [(q & ds & v & G1 & G2 & E')|[_ E']]; [exfalso; apply (Hno v); exists q, ds; auto|]. rewrite E'. cbn [rbind]. destruct (lazy_resolve s); reflexivity.
    + intros n Hn Hov. apply (has_number_extract (e_u e) _ _ Ha) in Hn as [q En]. destruct (shift_ok e src d pr Hix Hrope Hsrc o m n 1 Hord Hm Hov) as (edits & Ee & Hr).
      set (a := mkCA (action_title (o_kind o)) (Some (action_data_to_json (mkAD uri (o_kind o) (o_body o) (Z.of_N n)))) None).
      assert (Hlazy : code_action e (with_lazy true s) uri (mkRange (lsp_position src p) (lsp_position src p)) = Val (Reply (Some [a]))).
      { unfold code_action. change (get_doc (with_lazy true s) uri) with (get_doc s uri). rewrite Hg. cbn [r_start r_end]. rewrite Hpe. cbn [negb]. unfold unresolved_actions. rewrite E, En. reflexivity. }
      assert (Hres : code_action_resolve e s a = Val (Reply (mkCA (ca_title a) (ca_data a) (Some (uri, edits))))).
      { unfold code_action_resolve, do_code_action_resolve. cbn [a ca_data ca_title]. rewrite json_round; [|exact Hu|eapply extract_in_i64; exact En].
        cbn [ad_uri ad_kind ad_body ad_nr]. rewrite Hg, Hrope, Ee. reflexivity. }
      exists a, edits. split; [exact Hlazy|]. split; [reflexivity|]. split; [exact Hr|]. split; [exact Hres|]. apply (lazy_eager _ _ _ _ _ _ Hu Hlazy). constructor; [exact Hres|constructor].
Qed.
Lemma Forall2_len {A B} (R : A -> B -> Prop) l l' : Forall2 R l l' -> length l = length l'.
Proof. induction 1; cbn; congruence. Qed.
(** C45 *)
Lemma shift_panics e src d pr start m k b' ents : indexed (e_u e) src pr (doc_index d) -> plain_document src -> table_of (doc_index d) k b' = Some m -> (forall x, In x ents -> In x m) ->
  rflat_map (shift_entry (e_u e) (e_pf e) (doc_rope d) start 1) ents = Panic ->
  e_pf e = Debug /\ exists x, In x (recorded (pr_stmts pr) (pr_tokens pr)) /\ has_number (o_name x) max_i64.
Proof.
  intros Hix Hsrc Hm. induction ents as [|[n' ud'] ents IH]; intros HH EE; [discriminate|]. cbn [rflat_map] in EE. unfold shift_entry in EE at 1. cbn [fst snd] in EE.
  pose proof (HH _ (or_introl eq_refl)) as Hx. apply (in_alookup _ _ _ (table_keys e src d pr Hix _ _ _ Hm)) in Hx.
  destruct (entry_has_occ e src d pr Hix _ _ _ _ _ Hm Hx) as (y & Y1 & _ & _ & Y4).
  pose proof (occ_ascii e src d pr Hix Hsrc _ Y1) as Ha'. specialize (IH (fun x Hx => HH x (or_intror Hx))).
  rewrite Y4 in Ha'. destruct (extract_cases (e_u e) n' Ha') as [(p' & ds' & v' & G1' & G2' & E'')|[_ E'']]; rewrite E'' in EE; cbn [rbind] in EE.
  - destruct (Z.of_N v' <? start)%Z; [cbn [rbind] in EE; destruct (rflat_map _ ents); [discriminate|apply IH; reflexivity]|].
    unfold i64_add, i64_result in EE. destruct (in_i64 (Z.of_N v' + 1)) eqn:Ei.
    + cbn [rbind] in EE. destruct (rflat_map _ ents); [discriminate|apply IH; reflexivity].
    + destruct (e_pf e) eqn:Epf; [|cbn [rbind] in EE; destruct (rflat_map _ ents); [discriminate|apply IH; reflexivity]].
      split; [reflexivity|]. exists y. split; [exact Y1|]. assert (v' = max_i64) as <-; [|rewrite Y4; exists p', ds'; auto].
      assert (~ fits_i64 (Z.of_N v' + 1)) as Hf by (intros Hf; apply in_i64_iff in Hf; congruence). unfold fits_i64, max_i64 in *. lia.
  - destruct (rflat_map _ ents); [discriminate|apply IH; reflexivity].
Qed.
Lemma resolve_panics e s a j ad src d : ca_data a = Some j -> action_data_of_json e j = Some ad -> plain_document src -> visits_all (e_ord e) -> opened e s (ad_uri ad) src d ->
  code_action_resolve e s a = Panic ->
  ~ scope_exists (length (function_defs (doc_stmts d))) (ad_kind ad) (ad_body ad) \/
  (e_pf e = Debug /\ exists pr x, parse_from_str (e_u e) src = Val pr /\ In x (recorded (pr_stmts pr) (pr_tokens pr)) /\ has_number (o_name x) max_i64).
Proof.
  intros Hj Had Hsrc Hord Ho HP. apply opened_indexed in Ho as (pr & Hix & Hrope & Hst & Hg). unfold code_action_resolve, do_code_action_resolve in HP. rewrite Hj, Had, Hg in HP.
  destruct (get_shift_edits _ _ _ _ _ _ _ _ _) as [r|] eqn:Es; [discriminate|]. clear HP. unfold get_shift_edits in Es. rewrite Hst.
  pose proof (Forall2_len _ _ _ (function_bodies_defs _ _ _ _ Hix)) as Hlen. unfold scope_exists. rewrite <- Hlen.
  destruct (body_of_id (doc_index d) (ad_body ad)) as [fb|] eqn:Eb.
  2:{ left. unfold body_of_id in Eb. destruct (ad_body ad) as [i|]; [|discriminate]. destruct (nth_error (function_bodies (doc_index d)) i) as [b|] eqn:En; [discriminate|]. apply nth_error_None in En. lia. }
  cbn [rbind] in Es. destruct (get_by_symbol_kind (doc_index d) (ad_kind ad) fb) as [m|] eqn:Em.
  2:{ left. unfold body_of_id in Eb. destruct (ad_body ad) as [i|]; [|inversion Eb; subst; destruct (ad_kind ad); cbn in Em; try discriminate; intros [H1 H2]; congruence].
      destruct (nth_error (function_bodies (doc_index d)) i) as [b|] eqn:En; [|discriminate]. inversion Eb; subst. destruct (ad_kind ad); discriminate. }
  cbn [rbind] in Es. right.
  assert (exists b', table_of (doc_index d) (ad_kind ad) b' = Some m) as [b' Hb'].
  { unfold body_of_id in Eb. destruct (ad_kind ad); cbn in Em.
    1-3: exists None; exact (f_equal (fun r => match r with Val x => Some x | Panic => None end) Em).
    all: destruct fb as [b|]; [|discriminate]; exists (ad_body ad); destruct (ad_body ad) as [i|]; [|discriminate]; cbn [table_of];
      destruct (nth_error (function_bodies (doc_index d)) i) as [b0|]; inversion Eb; subst; cbn; congruence. }
  destruct (shift_panics e src d pr (ad_nr ad) m (ad_kind ad) b' (e_ord e m) Hix Hsrc Hb') as (H1 & x & H2 & H3); [intros x Hx; eapply Permutation_in; [apply Hord|exact Hx]|exact Es|].
  split; [exact H1|]. exists pr, x. split; [apply Hix|]. auto.
Qed.
(** data offered for the present text *)
Lemma offered_resolve e s uri src d rng l a : plain_document src -> visits_all (e_ord e) -> opened e s uri src d -> e_url_parse e uri = Some uri ->
  code_action e (with_lazy true s) uri rng = Val (Reply (Some l)) -> In a l -> code_action_resolve e s a = Panic ->
  e_pf e = Debug /\ exists pr x, parse_from_str (e_u e) src = Val pr /\ In x (recorded (pr_stmts pr) (pr_tokens pr)) /\ has_number (o_name x) max_i64.
Proof.
  intros Hsrc Hord Ho Hu Hc Ha HP. pose proof Ho as Ho'. apply opened_indexed in Ho' as (pr & Hix & Hrope & Hst & Hg).
  unfold code_action in Hc. change (get_doc (with_lazy true s) uri) with (get_doc s uri) in Hc. rewrite Hg in Hc. destruct (negb _); [discriminate|].
  destruct (unresolved_actions e uri d (r_start rng)) as [l0|] eqn:El; [|discriminate]. cbn [rbind lazy_resolve with_lazy] in Hc. inversion Hc; subst l0. clear Hc.
  unfold unresolved_actions in El. destruct (symbol_at d (r_start rng)) as [o|] eqn:Es; [|inversion El; subst l; contradiction].
  destruct (extract_number_from_identifier (e_u e) (o_name o)) as [[[q n]|]|] eqn:En; cbn [rbind] in El; [|inversion El; subst l; contradiction|discriminate]. inversion El; subst l. destruct Ha as [<-|[]].
  destruct (symbol_at_listed e src d pr Hix _ _ Es) as (Hol & m & ud & Hm & Hud).
  eapply (resolve_panics e s _ _ (mkAD uri (o_kind o) (o_body o) n)) in HP; [|reflexivity|apply json_round; [exact Hu|eapply extract_in_i64; exact En]|exact Hsrc|exact Hord|exact Ho].
  destruct HP as [HP|HP]; [|exact HP]. exfalso. apply HP. cbn [ad_kind ad_body]. unfold scope_exists. rewrite Hst, <- (Forall2_len _ _ _ (function_bodies_defs _ _ _ _ Hix)).
  unfold table_of in Hm. destruct (o_kind o), (o_body o) as [i|]; try discriminate; try (split; discriminate);
    (destruct (nth_error (function_bodies (doc_index d)) i) eqn:E; [apply nth_error_Some; congruence|discriminate]).
Qed.
(** C46 *)
Lemma single_change e s uri c v s' p : did_change e s uri [c] v = Val (s', p) -> exists d, analyze e uri c = Val (d, pub_diags p) /\ get_doc s' uri = Some d.
Proof. intros H. apply on_change_inv in H as (d & ds & E & -> & ->). exists d. split; [exact E|]. apply lookup_same. Qed.
Lemma first_change e s uri c cs v : did_change e s uri (c :: cs) v = did_open e s uri c v.
Proof. reflexivity. Qed.
