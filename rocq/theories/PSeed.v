(** Iteration orders change the order of answers only. *)
From Verif Require Import Text Rope Chumsky Tokenizer Parser Numbers Index SemTok Diag Rename Cfg Backtrace Server Dispatch SpecText SpecDiag SpecRename SpecPatch SpecSeed.

Lemma filter_map_permutes {A B} (f : A -> option B) l l' : Permutation l l' -> Permutation (filter_map f l) (filter_map f l').
Proof.
  induction 1 as [|x l l' _ IH|x y l|l1 l2 l3 _ IH1 _ IH2]; cbn [filter_map]; [reflexivity| | |etransitivity; eassumption].
  - destruct (f x); [apply perm_skip|]; exact IH.
  - destruct (f x), (f y); try reflexivity. apply perm_swap.
Qed.
Lemma rflat_permutes {A B} (f : A -> res (list B)) l l' : Permutation l l' -> res_alike (@Permutation B) (rflat_map f l) (rflat_map f l').
Proof.
  assert (T : forall x y z : res (list B), res_alike (@Permutation B) x y -> res_alike (@Permutation B) y z -> res_alike (@Permutation B) x z).
  { intros [x|] [y|] [z|]; cbn; try tauto. apply Permutation_trans. }
  induction 1 as [|x l l' _ IH|x y l|l1 l2 l3 _ IH1 _ IH2]; cbn [rflat_map].
  - constructor.
  - destruct (f x) as [a|]; cbn [rbind]; [|exact I]. destruct (rflat_map f l) as [b|], (rflat_map f l') as [b'|]; cbn in *; try tauto. apply Permutation_app_head. exact IH.
  - destruct (f x) as [a|], (f y) as [b|]; cbn [rbind]; try exact I; destruct (rflat_map f l) as [c|]; cbn; try exact I. rewrite !app_assoc. apply Permutation_app_tail, Permutation_app_comm.
  - eapply T; eassumption.
Qed.
Section Orders.
Variables e e' : env.
Hypothesis H : same_apart_from_order e e'.
Let Hu : e_u e = e_u e' := proj1 H.
Let Hpf : e_pf e = e_pf e' := proj1 (proj2 H).
Let Hfs : e_fs e = e_fs e' := proj1 (proj2 (proj2 H)).
Let Hd : e_url_display e = e_url_display e' := proj1 (proj2 (proj2 (proj2 H))).
Let Hp : e_url_parse e = e_url_parse e' := proj1 (proj2 (proj2 (proj2 (proj2 H)))).
Let Hj : e_json_parse e = e_json_parse e' := proj1 (proj2 (proj2 (proj2 (proj2 (proj2 H))))).
Lemma ord_both m : Permutation (e_ord e m) (e_ord e' m).
Proof. pose proof H as H0. destruct H0 as (_ & _ & _ & _ & _ & _ & V & V' & _ & _). etransitivity; [apply V|]. apply Permutation_sym, V'. Qed.
Lemma message_both x : same_message (parser_error_message (e_xord e) x) (parser_error_message (e_xord e') x).
Proof.
  pose proof H as H0. destruct H0 as (_ & _ & _ & _ & _ & _ & _ & _ & V & V'). unfold parser_error_message. destruct (e_reason x); [|left; reflexivity].
  destruct (e_expected x) as [|y l]; [left; reflexivity|]. right.
  exists (match e_found x with Some _ => str "Unexpected token in input" | None => str "Unexpected end of input" end ++ str ", expected ").
  exists (map expected_text (e_xord e (nodup opt_text_dec (y :: l)))), (map expected_text (e_xord e' (nodup opt_text_dec (y :: l)))).
  split; [destruct (e_found x); [left|right]; reflexivity|]. split.
  - apply Permutation_map. etransitivity; [apply V|]. apply Permutation_sym, V'.
  - split; rewrite <- app_assoc; reflexivity.
Qed.
Lemma same_refl d : same_diagnostic d d.
Proof. split; [reflexivity|]. split; [left|]; reflexivity. Qed.
Lemma analyze_both uri src : res_alike (fun x y => fst x = fst y /\ exists m, Permutation (snd x) m /\ Forall2 same_diagnostic m (snd y)) (analyze e uri src) (analyze e' uri src).
Proof.
  unfold analyze. rewrite <- Hu. destruct (parse_from_str (e_u e) src) as [pr|]; cbn [rbind]; [|exact I].
  destruct (semantic_tokens_from_tokens (pr_tokens pr)) as [sem|]; cbn [rbind]; [|exact I]. destruct (create_index src (pr_tokens pr) (pr_stmts pr)) as [ix|]; cbn [rbind res_alike fst snd]; [|exact I].
  split; [reflexivity|].
  exists (diagnostics_from_parser (e_xord e) src (pr_errors pr) ++ diagnostics_from_statements src (pr_stmts pr) ++ diagnostics_from_index (e_ord e') src uri ix). split.
  - do 2 apply Permutation_app_head. unfold diagnostics_from_index. apply Permutation_flat_map. unfold all_use_defs.
    apply Permutation_app; [apply ord_both|]. apply Permutation_app; [apply ord_both|]. apply Permutation_app; [apply ord_both|].
    assert (F : forall (g : function_body -> amap use_def_list) l, Permutation (flat_map (fun b => e_ord e (g b)) l) (flat_map (fun b => e_ord e' (g b)) l)).
    { intros g l. induction l as [|b l IH]; [reflexivity|]. cbn [flat_map]. apply Permutation_app; [apply ord_both|exact IH]. }
    apply Permutation_app; apply F.
  - apply Forall2_app.
    + unfold diagnostics_from_parser. induction (pr_errors pr) as [|x l IH]; [constructor|]. cbn [filter_map]. destruct (range_to_lsp src (e_span x)) as [r|]; cbn [obind]; [|exact IH].
      constructor; [|exact IH]. split; [reflexivity|]. split; [apply message_both|reflexivity].
    + generalize (diagnostics_from_statements src (pr_stmts pr) ++ diagnostics_from_index (e_ord e') src uri ix). intros l. induction l as [|d l IH]; constructor; [apply same_refl|exact IH].
Qed.
Lemma change_both s uri src v : res_alike (fun x y => fst x = fst y /\ same_publish (snd x) (snd y)) (on_change e s uri src v) (on_change e' s uri src v).
Proof.
  unfold on_change. pose proof (analyze_both uri src) as A. destruct (analyze e uri src) as [[d l]|], (analyze e' uri src) as [[d' l']|]; cbn in A |- *; try tauto.
  destruct A as [-> A]. split; [reflexivity|]. split; [reflexivity|]. split; [reflexivity|exact A].
Qed.
Lemma notify_both s n : res_alike (fun x y => fst x = fst y /\ same_publish (snd x) (snd y)) (notify e s n) (notify e' s n).
Proof. destruct n as [uri src v|uri [|c cs] v]; cbn [notify]; [apply change_both|exact I|apply change_both]. Qed.
Lemma receive_both ns : forall s, res_alike (fun x y => fst x = fst y /\ Forall2 same_publish (snd x) (snd y)) (receive e s ns) (receive e' s ns).
Proof.
  induction ns as [|n ns IH]; intros s; [split; constructor|]. cbn [receive]. pose proof (notify_both s n) as N.
  destruct (notify e s n) as [[s1 p1]|], (notify e' s n) as [[s2 p2]|]; cbn in N |- *; try tauto. destruct N as [-> N].
  specialize (IH s2). destruct (receive e s2 ns) as [[s3 ps]|], (receive e' s2 ns) as [[s4 ps']|]; cbn in IH |- *; try tauto. destruct IH as [-> IH]. split; [reflexivity|]. constructor; assumption.
Qed.

(** ** Requests *)
Lemma shift_both t ix k id nr z : res_alike (@Permutation text_edit) (get_shift_edits (e_u e) (e_pf e) (e_ord e) t ix k id nr z) (get_shift_edits (e_u e') (e_pf e') (e_ord e') t ix k id nr z).
Proof.
  rewrite <- Hu, <- Hpf. unfold get_shift_edits. destruct (body_of_id ix id) as [b|]; cbn [rbind]; [|exact I]. destruct (get_by_symbol_kind ix k b) as [m|]; cbn [rbind]; [|exact I]. apply rflat_permutes, ord_both.
Qed.
Lemma externals_both rs l : external_locations e rs l = external_locations e' rs l.
Proof. induction l as [|d l IH]; [reflexivity|]. cbn [external_locations]. rewrite IH, Hfs, Hpf, Hd. reflexivity. Qed.
Lemma ranges_both s uri pos k : get_use_def_ranges e s uri pos k = get_use_def_ranges e' s uri pos k.
Proof. unfold get_use_def_ranges. destruct (obind _ _) as [[d o]|]; [|reflexivity]. destruct (use_defs_of d o) as [[ud|]|]; try reflexivity. cbn [rbind]. rewrite externals_both. reflexivity. Qed.
Lemma resolve_both s a : res_alike (fun x y => match x, y with Reply c, Reply c' => same_action c c' | RpcError m, RpcError m' => m = m' | _, _ => False end) (do_code_action_resolve e s a) (do_code_action_resolve e' s a).
Proof.
  unfold do_code_action_resolve. destruct (ca_data a) as [j|]; [|reflexivity].
  assert (action_data_of_json e j = action_data_of_json e' j) as -> by (unfold action_data_of_json; rewrite Hp; reflexivity).
  destruct (action_data_of_json e' j) as [ad|]; [|reflexivity]. destruct (get_doc s (ad_uri ad)) as [d|]; [|reflexivity].
  pose proof (shift_both (doc_rope d) (doc_index d) (ad_kind ad) (ad_body ad) (ad_nr ad) 1) as S. destruct (get_shift_edits (e_u e) _ _ _ _ _ _ _ _) as [x|], (get_shift_edits (e_u e') _ _ _ _ _ _ _ _) as [y|]; cbn in S |- *; try tauto.
  split; [reflexivity|]. split; [reflexivity|]. split; [reflexivity|exact S].
Qed.
Lemma all_both s l : res_alike (Forall2 same_action) (rmapM (fun a => unwrap_reply (do_code_action_resolve e s a)) l) (rmapM (fun a => unwrap_reply (do_code_action_resolve e' s a)) l).
Proof.
  induction l as [|a l IH]; [constructor|]. cbn [rmapM]. pose proof (resolve_both s a) as R. unfold unwrap_reply at 1 3.
  destruct (do_code_action_resolve e s a) as [[x|m]|], (do_code_action_resolve e' s a) as [[y|m']|]; cbn in R |- *; try tauto.
  destruct (rmapM (fun a => unwrap_reply (do_code_action_resolve e s a)) l) as [xs|], (rmapM (fun a => unwrap_reply (do_code_action_resolve e' s a)) l) as [ys|]; cbn in IH |- *; try tauto. constructor; assumption.
Qed.
Lemma action_refl a : same_action a a.
Proof. split; [reflexivity|]. split; [reflexivity|]. destruct (ca_edit a) as [[x y]|]; cbn; auto. Qed.
Lemma rename_both s uri pos new : res_alike (fun x y => match x, y with Reply c, Reply c' => Permutation c c' | RpcError m, RpcError m' => m = m' | _, _ => False end) (rename e s uri pos new) (rename e' s uri pos new).
Proof.
  assert (R : forall x : res (reply (list text_edit)), res_alike (fun x y => match x, y with Reply c, Reply c' => Permutation c c' | RpcError m, RpcError m' => m = m' | _, _ => False end) x x).
  { intros [[c|m]|]; cbn; auto. }
  unfold rename. destruct (get_doc s uri) as [d|]; [|reflexivity]. destruct (symbol_at d pos) as [o|]; [|reflexivity].
  assert (A : absolute_rename e d o new = absolute_rename e' d o new) by (unfold absolute_rename; rewrite Hu; reflexivity).
  destruct new as [|c rest]; [rewrite A; apply R|]. destruct ((c =? ch "+")%N || (c =? ch "-")%N); [|rewrite A; apply R].
  unfold relative_rename. rewrite <- Hpf. destruct (parse_i64 rest) as [nr|]; [|reflexivity]. destruct (i64_mul _ _ _) as [sh|]; cbn [rbind]; [|exact I].
  rewrite <- Hu. destruct (extract_number_from_identifier (e_u e) (o_name o)) as [[[p start]|]|]; cbn [rbind]; [|reflexivity|exact I].
  pose proof (shift_both (doc_rope d) (doc_index d) (o_kind o) (o_body o) start sh) as S. rewrite <- Hpf, <- Hu in S. destruct (get_shift_edits _ _ (e_ord e) _ _ _ _ _ _) as [x|], (get_shift_edits _ _ (e_ord e') _ _ _ _ _ _) as [y|]; cbn in S |- *; tauto.
Qed.
Lemma hints_both s uri : inlay_hint_handler e s uri = inlay_hint_handler e' s uri.
Proof.
  unfold inlay_hint_handler, backtrace_hint. rewrite Hu, Hfs, Hd, Hj. reflexivity.
Qed.
Lemma handle_both s q : res_alike same_response (handle e s q) (handle e' s q).
Proof.
  assert (E : forall x : res response, (forall r, x = Val r -> same_response r r) -> res_alike same_response x x) by (intros [r|] Hr; [apply Hr; reflexivity|exact I]).
  destruct q as [uri pos|uri pos|uri pos|uri|uri|uri pos|uri pos new|uri rng|a|uri|uri|uri|c args]; cbn [handle].
  - unfold goto_definition. rewrite ranges_both. apply E. intros r Hr. destruct (get_use_def_ranges e' s uri pos Def); [|discriminate]. injection Hr as <-. reflexivity.
  - unfold goto_declaration. rewrite ranges_both. apply E. intros r Hr. destruct (get_use_def_ranges e' s uri pos Decl); [|discriminate]. injection Hr as <-. reflexivity.
  - unfold references. rewrite ranges_both. apply E. intros r Hr. destruct (get_use_def_ranges e' s uri pos Use); [|discriminate]. injection Hr as <-. reflexivity.
  - apply E. intros r Hr. destruct (semantic_tokens_full s uri); [|discriminate]. injection Hr as <-. reflexivity.
  - unfold document_symbol. destruct (get_doc s uri) as [d|]; cbn [obind res_alike same_response opt_alike]; [|exact I]. apply Permutation_app_tail, Permutation_flat_map, ord_both.
  - reflexivity.
  - pose proof (rename_both s uri pos new) as R. destruct (rename e s uri pos new) as [[x|m]|], (rename e' s uri pos new) as [[y|m']|]; cbn in R |- *; try tauto. congruence.
  - unfold code_action. destruct (get_doc s uri) as [d|]; [|reflexivity]. destruct (negb _); [exact I|].
    assert (unresolved_actions e uri d (r_start rng) = unresolved_actions e' uri d (r_start rng)) as -> by (unfold unresolved_actions; rewrite Hu; reflexivity).
    destruct (unresolved_actions e' uri d (r_start rng)) as [l|]; cbn [rbind]; [|exact I]. destruct (lazy_resolve s).
    + cbn. induction l as [|a l IH]; constructor; [apply action_refl|exact IH].
    + pose proof (all_both s l) as R. destruct (rmapM (fun a => unwrap_reply (do_code_action_resolve e s a)) l) as [x|], (rmapM (fun a => unwrap_reply (do_code_action_resolve e' s a)) l) as [y|]; cbn in R |- *; tauto.
  - unfold code_action_resolve. pose proof (resolve_both s a) as R. destruct (do_code_action_resolve e s a) as [[x|m]|], (do_code_action_resolve e' s a) as [[y|m']|]; cbn in R |- *; try tauto. congruence.
  - reflexivity.
  - rewrite hints_both. apply E. intros r Hr. destruct (inlay_hint_handler e' s uri); [|discriminate]. injection Hr as <-. reflexivity.
  - unfold code_lens. destruct (get_doc s uri) as [d|]; cbn [obind res_alike same_response opt_alike]; [|exact I]. apply filter_map_permutes, ord_both.
  - cbn. destruct (execute_command s c args); reflexivity.
Qed.

(** ** Schedules *)
Lemma forall2_nth {A} (R : A -> A -> Prop) l l' n : Forall2 R l l' -> opt_alike R (nth_error l n) (nth_error l' n).
Proof. intros F. revert n. induction F as [|x y l l' Hxy _ IH]; intros [|n]; cbn; auto. Qed.
Lemma forall2_remove {A} (R : A -> A -> Prop) l l' n : Forall2 R l l' -> Forall2 R (remove_nth n l) (remove_nth n l').
Proof. intros F. revert n. induction F as [|x y l l' Hxy F IH]; intros [|n]; cbn [remove_nth]; try constructor; auto. Qed.
Lemma step_both sh w w' ev : same_world w w' -> opt_alike same_world (wstep e sh w ev) (wstep e' sh w' ev).
Proof.
  intros (E1 & F1 & F2 & E2 & E3). unfold wstep. rewrite <- E3, <- E1, <- E2. destruct (w_health w) eqn:Eh; [|exact I|exact I]. destruct ev as [uri src v|n|uri f|n].
  - pose proof (change_both (w_server w) uri src v) as C. destruct (on_change e (w_server w) uri src v) as [[s p]|], (on_change e' (w_server w) uri src v) as [[s' p']|]; cbn in C; try contradiction.
    + destruct C as [-> C]. destruct (existsb (sh uri) (w_guards w)); (split; [reflexivity|]; split; [|split; [exact F2|split; reflexivity]]); [exact F1|]. apply Forall2_app; [exact F1|]. constructor; [exact C|constructor].
    + split; [reflexivity|]. split; [exact F1|]. split; [exact F2|]. split; reflexivity.
  - pose proof (forall2_nth _ _ _ n F1) as N. destruct (nth_error (w_waiting w) n) as [p|], (nth_error (w_waiting w') n) as [p'|]; cbn in N; try contradiction; [|exact I].
    split; [reflexivity|]. split; [apply forall2_remove; exact F1|]. split; [|split; reflexivity]. apply Forall2_app; [exact F2|]. constructor; [exact N|constructor].
  - destruct (execute_command _ _ _).
    + split; [reflexivity|]. split; [exact F1|]. split; [exact F2|]. split; reflexivity.
    + split; [exact E1|]. split; [exact F1|]. split; [exact F2|]. split; [exact E2|exact (eq_sym Eh) || congruence].
  - destruct (n <? length (w_guards w)); [|exact I]. split; [reflexivity|]. split; [exact F1|]. split; [exact F2|]. split; reflexivity.
Qed.
Lemma run_both sh evs : forall w w', same_world w w' -> opt_alike same_world (wrun e sh w evs) (wrun e' sh w' evs).
Proof.
  induction evs as [|ev evs IH]; intros w w' Hw; [exact Hw|]. cbn [wrun]. pose proof (step_both sh w w' ev Hw) as S.
  destruct (wstep e sh w ev) as [w1|], (wstep e' sh w' ev) as [w2|]; cbn in S |- *; try tauto. apply IH. exact S.
Qed.
End Orders.
Lemma world_both e e' sh s evs : same_apart_from_order e e' -> opt_alike same_world (wrun e sh (world_init s) evs) (wrun e' sh (world_init s) evs).
Proof. intros H. apply run_both; [exact H|]. split; [reflexivity|]. split; [constructor|]. split; [constructor|]. split; reflexivity. Qed.
Lemma session_both e e' s ns q : same_apart_from_order e e' ->
  res_alike (fun x y => Forall2 same_publish (snd x) (snd y) /\ fst x = fst y /\ res_alike same_response (handle e (fst x) q) (handle e' (fst y) q)) (receive e s ns) (receive e' s ns).
Proof.
  intros H. pose proof (receive_both e e' H ns s) as R. destruct (receive e s ns) as [[s1 p1]|], (receive e' s ns) as [[s2 p2]|]; cbn in R |- *; try tauto. destruct R as [-> R]. split; [exact R|]. split; [reflexivity|apply handle_both; exact H].
Qed.

(** ** Edits in another order *)
Lemma edit_apart q a b : in_edit q a = true -> in_edit q b = true -> separate (te_range a) (te_range b) -> False.
Proof.
  unfold in_edit. rewrite !andb_true_iff, !negb_true_iff. intros [A1 A2] [B1 B2].
  assert (L : forall a b, pos_leb a b = true <-> pos_le a b) by (intros x y; unfold pos_leb, pos_le; rewrite orb_true_iff, andb_true_iff, Nat.ltb_lt, Nat.eqb_eq, Nat.leb_le; reflexivity).
  assert (L' : forall a b, pos_leb a b = false <-> ~ pos_le a b) by (intros x y; rewrite <- L; destruct (pos_leb x y); split; congruence).
  rewrite L in A1, B1. rewrite L' in A2, B2. unfold separate, pos_le in *. destruct q, (te_range a) as [[? ?] [? ?]], (te_range b) as [[? ?] [? ?]]. cbn in *. lia.
Qed.
Lemma patched_order src new l edits edits' : replaces src new l edits -> Permutation edits edits' -> patched src edits = patched src edits'.
Proof.
  intros (_ & Hsep & _) P. assert (F : forall q, find (in_edit q) edits = find (in_edit q) edits').
  { intros q. destruct (find (in_edit q) edits) as [x|] eqn:E, (find (in_edit q) edits') as [y|] eqn:E'; [| | |reflexivity].
    - apply find_some in E as [E1 E2]. apply find_some in E' as [E3 E4]. apply (Permutation_in _ (Permutation_sym P)) in E3.
      destruct (ForallOrdPairs_In Hsep x y E1 E3) as [->|[G|G]]; [reflexivity| |]; exfalso; [exact (edit_apart q x y E2 E4 G)|exact (edit_apart q y x E4 E2 G)].
    - apply find_some in E as [E1 E2]. pose proof (find_none _ _ E' x (Permutation_in _ P E1)). congruence.
    - apply find_some in E' as [E1 E2]. pose proof (find_none _ _ E y (Permutation_in _ (Permutation_sym P) E1)). congruence. }
  unfold patched. generalize 0. generalize src at 2 4. intros t. induction t as [|c t IH]; intros i; [reflexivity|]. cbn [patch_from]. rewrite IH. unfold patch_char. rewrite F. reflexivity.
Qed.
