(** Error-free parsing is exactly the grammar with preferences. *)
From Verif Require Import Text Chumsky Tokenizer Parser PChumsky PGram SpecParse SpecExact PParse PSound PParseProps PComplete PLocal.

Section X.
Variable eoi : span.
Ltac pinv1 := match goal with
  | H : vw (p_map _ _ _) = VOk _ _ _ |- _ => apply inv_map in H as (? & H & ?)
  | H : vw (p_map_with_span _ _ _ _) = VOk _ _ _ |- _ =>
      first [apply inv_just_span in H as (? & ?) | apply inv_mws in H as (? & H & ?)]
  | H : vw (p_then _ _ _) = VOk _ _ _ |- _ =>
      apply inv_then in H; let H' := fresh "H" in destruct H as (? & ? & ? & ? & ? & H & H' & ? & ?)
  | H : vw (p_ignore_then _ _ _) = VOk _ _ _ |- _ =>
      apply inv_ignore_then in H; let H' := fresh "H" in destruct H as (? & ? & ? & ? & H & H' & ?)
  | H : vw (p_then_ignore _ _ _) = VOk _ _ _ |- _ =>
      apply inv_then_ignore in H; let H' := fresh "H" in destruct H as (? & ? & ? & ? & H & H' & ?)
  | H : vw (p_just _ _ _ _) = VOk _ _ _ |- _ => apply inv_just in H as (? & ? & ? & ?)
  | H : vw (p_any _ _) = VOk _ _ _ |- _ => apply inv_any in H as (? & ? & ?)
  | H : vw (p_end _ _) = VOk _ _ _ |- _ => apply inv_end in H as (? & ? & ?)
  | H : vw (g_func_modifier _ _) = VOk _ _ _ |- _ => apply inv_func_modifier in H as (? & ?)
  | H : vw (g_global_name _ _) = VOk _ _ _ |- _ => apply inv_global_name in H as (? & ?)
  | H : vw (g_local_name _ _) = VOk _ _ _ |- _ => apply inv_local_name in H as (? & ?)
  | H : vw (g_type _ _) = VOk _ _ _ |- _ => apply inv_type in H as (? & ?)
  | H : vw (g_ident _ _) = VOk _ _ _ |- _ => apply inv_ident in H as (? & ?)
  | H : vw (g_dbg_ref _ _) = VOk _ _ _ |- _ => apply inv_dbg_ref in H as (? & ?)
  | H : vw (g_hexnum _ _) = VOk _ _ _ |- _ => apply inv_hexnum in H as (? & ?)
  | H : vw (g_nl_ahead _ _) = VOk _ _ _ |- _ => apply inv_nl_ahead in H as (? & ? & ? & ? & ?)
  | H : vw (g_kw_spanned _ _ _) = VOk _ _ _ |- _ => apply inv_kw_spanned in H as (? & ? & ?)
  | H : vw (g_eol _ _) = VOk _ _ _ |- _ => apply inv_eol in H as (? & ? & ? & ?)
  | H : vw (p_or_not (g_dbg_ref _) _) = VOk _ _ _ |- _ => apply inv_dbg_opt in H as (? & ?)
  end; subst.
Ltac pinv := unfold p_delimited_by, p_padded_by in *; repeat pinv1.

Ltac apps := repeat first [progress cbn [app] | rewrite <- app_assoc]; reflexivity.
Ltac fw1 := first
  [ rewrite vw_map | rewrite vw_to | rewrite vw_map_with_span | rewrite vw_then | rewrite vw_ignore_then | rewrite vw_then_ignore
  | rewrite fw_punct | rewrite fw_kw | rewrite fw_ident | rewrite fw_local | rewrite fw_global | rewrite fw_type
  | rewrite fw_dbg | rewrite fw_hex | rewrite fw_mod | rewrite fw_any | rewrite fw_nl_ahead | rewrite fw_opt_dbg ].
Ltac fw := repeat (fw1; cbn [vbind]).


Definition unclean {A} (p : parser (I:=token) A) (st : strm) : Prop := forall a r, vw (p st) <> VOk 0 a r.
Lemma unclean_split {A} (p : parser (I:=token) A) st : strict p -> unclean p st ->
  vw (p st) = VFail \/ exists n x y, vw (p st) = VOk (S n) x y.
Proof.
  intros [_ Hn] H. destruct (vw (p st)) as [n x y| |] eqn:E; [|left; reflexivity|exfalso; exact (Hn _ E)].
  destruct n; [exfalso; exact (H _ _ E)|right; eauto].
Qed.
Lemma or_clean {A} (p q : parser (I:=token) A) st a r : strict p -> vw (p_or p q st) = VOk 0 a r ->
  vw (p st) = VOk 0 a r \/ (unclean p st /\ vw (q st) = VOk 0 a r).
Proof.
  intros Hs H. destruct (vw (p st)) as [[|n] x y| |] eqn:E.
  - rewrite (vw_or_ok _ _ _ _ _ E) in H. left. congruence.
  - right. split; [intros a' r'; congruence|]. destruct (vw_or_inv p q st) as [F|F]; congruence.
  - right. split; [intros a' r'; congruence|]. rewrite vw_or_fail in H by exact E. exact H.
  - exfalso. destruct Hs as [_ Hn]. exact (Hn _ E).
Qed.
Lemma unclean_or {A} (p q : parser (I:=token) A) st : unclean p st -> unclean q st -> unclean (p_or p q) st.
Proof. intros H1 H2 a r. destruct (vw_or_inv p q st) as [E|E]; rewrite E; [apply H1|apply H2]. Qed.
Lemma unclean_or_l {A} (p q : parser (I:=token) A) st : unclean (p_or p q) st -> unclean p st.
Proof. intros H a r E. exact (H a r (vw_or_ok _ _ _ _ _ E)). Qed.
Lemma unclean_or_r {A} (p q : parser (I:=token) A) st : strict p -> unclean (p_or p q) st -> unclean q st.
Proof.
  intros Hs H a r E. pose proof (unclean_or_l _ _ _ H) as Hp. apply (unclean_split p st Hs) in Hp.
  exact (H a r (or_skip p q st a r Hp E)).
Qed.
Lemma or_take {A} (p q : parser (I:=token) A) st a r : strict p -> unclean p st -> vw (q st) = VOk 0 a r -> vw (p_or p q st) = VOk 0 a r.
Proof. intros Hs H. apply or_skip. apply unclean_split; assumption. Qed.

(** the parser of each form *)
Definition parser_of (f : form) : parser (I:=token) instruction :=
  match f with FBr => g_br eoi | FCond => g_condbr eoi | FOverflow => g_overflowbr eoi | FSwitch => g_switch eoi
  | FPhi => g_phi eoi | FOther => g_any_instr eoi end.
Lemma reads_parse f m refs dbg st rest : reads f m refs dbg st rest -> gives (parser_of f) st m refs dbg rest.
Proof.
  intros (body & Hb & He & -> & sp & q & ->). inversion Hb; subst; cbn [parser_of].
  - apply fw_br; assumption.
  - apply fw_cond; assumption.
  - apply fw_overflow; [assumption|]. cbn in He. destruct (ends_with _ _); [reflexivity|discriminate].
  - apply fw_switch; assumption.
  - apply fw_phi; assumption.
  - apply fw_other; assumption.
Qed.
Lemma parse_reads f st i r : vw (parser_of f st) = VOk 0 i r -> i_target i = None /\ reads f (i_instr i) (i_refs i) (i_dbg i) st r.
Proof.
  intros H. assert (exists seg, alt_of f i 0 seg r /\ st = seg ++ r) as (seg & (body & Ht & Hb & -> & He & Hr) & ->).
  { destruct f; cbn [parser_of] in H; [apply inv_br in H|apply inv_condbr in H|apply inv_overflowbr in H|apply inv_switch in H|apply inv_phi in H|apply inv_any_instr in H]; exact H. }
  split; [exact Ht|]. exists body. split; [exact Hb|]. split; [symmetry; exact He|]. split; [rewrite <- app_assoc; reflexivity|exact Hr].
Qed.
Lemma strict_of f : strict (parser_of f).
Proof. destruct f; cbn [parser_of]; [apply s_br|apply s_condbr|apply s_overflowbr|apply s_switch|apply s_phi|apply s_any_instr]. Qed.
Lemma unclean_reads f st : unclean (parser_of f) st <-> forall m refs dbg rest, ~ reads f m refs dbg st rest.
Proof.
  split.
  - intros H m refs dbg rest Hr. destruct (reads_parse _ _ _ _ _ _ Hr) as (sp & E). exact (H _ _ E).
  - intros H a r E. apply parse_reads in E as [_ E]. exact (H _ _ _ _ E).
Qed.

Lemma alternatives_unfold : g_instr_alternatives eoi =
  p_or (p_or (p_or (p_or (p_or (parser_of FBr) (parser_of FCond)) (parser_of FOverflow)) (parser_of FSwitch)) (parser_of FPhi)) (parser_of FOther).
Proof. reflexivity. Qed.
Ltac strict_all := repeat apply strict_or; apply strict_of.
Lemma alternatives_clean st i r : vw (g_instr_alternatives eoi st) = VOk 0 i r <->
  exists f, vw (parser_of f st) = VOk 0 i r /\ forall f', rank f' < rank f -> unclean (parser_of f') st.
Proof.
  rewrite alternatives_unfold. split.
  - intros H.
    apply or_clean in H as [H|[U5 H]]; [| |strict_all].
    2:{ exists FOther. split; [exact H|].
        pose proof (unclean_or_l _ _ _ U5) as U4. apply unclean_or_r in U5; [|strict_all].
        pose proof (unclean_or_l _ _ _ U4) as U3. apply unclean_or_r in U4; [|strict_all].
        pose proof (unclean_or_l _ _ _ U3) as U2. apply unclean_or_r in U3; [|strict_all].
        pose proof (unclean_or_l _ _ _ U2) as U1. apply unclean_or_r in U2; [|strict_all].
        intros [] Hk; cbn in Hk; try assumption; lia. }
    apply or_clean in H as [H|[U4 H]]; [| |strict_all].
    2:{ exists FPhi. split; [exact H|].
        pose proof (unclean_or_l _ _ _ U4) as U3. apply unclean_or_r in U4; [|strict_all].
        pose proof (unclean_or_l _ _ _ U3) as U2. apply unclean_or_r in U3; [|strict_all].
        pose proof (unclean_or_l _ _ _ U2) as U1. apply unclean_or_r in U2; [|strict_all].
        intros [] Hk; cbn in Hk; try assumption; lia. }
    apply or_clean in H as [H|[U3 H]]; [| |strict_all].
    2:{ exists FSwitch. split; [exact H|].
        pose proof (unclean_or_l _ _ _ U3) as U2. apply unclean_or_r in U3; [|strict_all].
        pose proof (unclean_or_l _ _ _ U2) as U1. apply unclean_or_r in U2; [|strict_all].
        intros [] Hk; cbn in Hk; try assumption; lia. }
    apply or_clean in H as [H|[U2 H]]; [| |strict_all].
    2:{ exists FOverflow. split; [exact H|].
        pose proof (unclean_or_l _ _ _ U2) as U1. apply unclean_or_r in U2; [|strict_all].
        intros [] Hk; cbn in Hk; try assumption; lia. }
    apply or_clean in H as [H|[U1 H]]; [| |strict_all].
    2:{ exists FCond. split; [exact H|]. intros [] Hk; cbn in Hk; try assumption; lia. }
    exists FBr. split; [exact H|]. intros [] Hk; cbn in Hk; lia.
  - intros (f & H & U).
    assert (forall f', rank f' < rank f -> unclean (parser_of f') st) as U' by exact U.
    destruct f; cbn [rank] in U.
    + do 5 apply vw_or_ok. exact H.
    + do 4 apply vw_or_ok. apply or_take; [strict_all|apply U; cbn; lia|exact H].
    + do 3 apply vw_or_ok. apply or_take; [strict_all|repeat apply unclean_or; apply U; cbn; lia|exact H].
    + do 2 apply vw_or_ok. apply or_take; [strict_all|repeat apply unclean_or; apply U; cbn; lia|exact H].
    + apply vw_or_ok. apply or_take; [strict_all|repeat apply unclean_or; apply U; cbn; lia|exact H].
    + apply or_take; [strict_all|repeat apply unclean_or; apply U; cbn; lia|exact H].
Qed.
Lemma preferred_unclean f st : preferred f st <-> forall f', rank f' < rank f -> unclean (parser_of f') st.
Proof.
  split.
  - intros H f' Hk. apply unclean_reads. intros m refs dbg rest Hr. specialize (H _ _ _ _ _ Hr). lia.
  - intros H f' m refs dbg rest Hr. destruct (Nat.lt_ge_cases (rank f') (rank f)) as [Hk|Hk]; [|exact Hk].
    exfalso. exact (proj1 (unclean_reads f' st) (H _ Hk) _ _ _ _ Hr).
Qed.

(** instructions *)
Lemma instr_exact_inv (st : strm) i r : vw (g_instruction eoi st) = VOk 0 i r ->
  exists seg, st = seg ++ r /\ instr_at i seg r /\ exists sp q, r = tnl sp :: q.
Proof.
  intros H0. unfold g_instruction in H0. apply inv_mws in H0 as ([tg i'] & H & Ei).
  apply inv_then in H as (n1 & n2 & tg' & i'' & r1 & H1 & H2 & E & En). injection E as <- <-.
  assert (n1 = 0 /\ n2 = 0) as [-> ->] by lia.
  apply alternatives_clean in H2 as (f & H2 & Hu). apply parse_reads in H2 as [Ht Hr].
  assert (preferred f r1) as Hp by (apply preferred_unclean; exact Hu).
  pose proof Hr as (body & Hb & He & Er & Hnl).
  assert (exists tgt, target_seg tg tgt /\ st = tgt ++ r1) as (tgt & Hg & ->).
  { apply inv_or_not in H1 as [(x & -> & H)|(-> & _ & -> & _)].
    - pinv. eexists [_; _; _]. split; [do 2 eexists; reflexivity|reflexivity].
    - exists []. split; reflexivity. }
  exists (tgt ++ body ++ opt_seg tdbg (i_dbg i')). split; [rewrite Er, <- !app_assoc; reflexivity|]. split; [|exact Hnl].
  subst i. exists f, tgt, r1. cbn [i_target i_instr i_refs i_dbg i_span].
  split; [exact Hg|]. split; [rewrite Er, <- !app_assoc; reflexivity|]. split; [exact Hr|]. split; [exact Hp|].
  assert (tgt ++ r1 = (tgt ++ body ++ opt_seg tdbg (i_dbg i')) ++ r) as -> by (rewrite Er at 1; rewrite <- !app_assoc; reflexivity).
  apply span_since_cover. apply body_seg_ne in Hb. destruct tgt; [|discriminate]. cbn [app]. apply cover_app_ne. exact Hb.
Qed.
Lemma instr_at_head i seg r : instr_at i seg r -> (exists t q, seg = t :: q /\ fst t <> TNewline) /\ (exists sp q, r = tnl sp :: q).
Proof.
  intros (f & tgt & st & Ht & E & (body & Hb & _ & -> & Hr) & _). split; [|exact Hr].
  rewrite !app_assoc in E. apply app_inv_tail in E. subst seg. destruct (i_target i); cbn in Ht.
  - destruct Ht as (ty & e & ->). do 2 eexists. split; [reflexivity|discriminate].
  - subst. destruct (body_head _ _ _ _ Hb) as (q & ->). do 2 eexists. split; [reflexivity|discriminate].
Qed.
Lemma instr_exact_fw i seg (r : strm) : instr_at i seg r -> vw (g_instruction eoi (seg ++ r)) = VOk 0 i r.
Proof.
  intros H. destruct (instr_at_head _ _ _ H) as [(t0 & q0 & Eseg & _) _].
  destruct H as (f & tgt & st & Ht & E & Hr & Hp & Hsp).
  unfold g_instruction. rewrite vw_map_with_span, vw_then.
  destruct (reads_parse _ _ _ _ _ _ Hr) as (s & Ea).
  assert (vw (g_instr_alternatives eoi st) = VOk 0 (mkInstr None (i_instr i) (i_refs i) (i_dbg i) s) r) as Eb.
  { apply alternatives_clean. exists f. split; [exact Ea|]. apply preferred_unclean. exact Hp. }
  assert (vw (p_or_not (p_then_ignore (p_ignore_then (g_type eoi) (g_local_name eoi)) (p_just token_eqb eoi (TPunct (ch "="))))
     (seg ++ r)) = VOk 0 (i_target i) st) as ->.
  { rewrite E, vw_or_not. destruct (i_target i) as [x|]; cbn [target_seg] in Ht.
    - destruct Ht as (ty & e & ->). cbn [app]. rewrite vw_then_ignore, vw_ignore_then, fw_type. cbn [vbind]. rewrite fw_local. cbn [vbind].
      rewrite fw_punct. reflexivity.
    - subst tgt. cbn [app]. destruct Hr as (body & Hb & _ & -> & _). destruct (body_head _ _ _ _ Hb) as (q & ->). reflexivity. }
  cbn [vbind]. rewrite Eb. cbn [vbind i_instr i_refs i_dbg]. rewrite span_since_cover by (rewrite Eseg; discriminate). rewrite <- Hsp.
  destruct i; reflexivity.
Qed.

Notation PI := (p_padded_by (g_instruction eoi) (g_nls eoi)).
Lemma padded_inv (st : strm) i r : vw (PI st) = VOk 0 i r ->
  exists pre seg post, newlines pre /\ newlines post /\ post <> [] /\ instr_at i seg (post ++ r) /\ st = pre ++ seg ++ post ++ r.
Proof.
  intros H. rewrite vw_padded_by in H.
  apply vbind_ok in H as (n1 & a1 & r1 & H1 & H). apply vbind_ok in H as (n2 & a2 & r2 & H2 & H).
  apply vbind_ok in H as (n3 & a3 & r3 & H3 & H). injection H as En <- <-.
  assert (n2 = 0) as -> by lia.
  apply inv_nls in H1 as (-> & pre & Hpre & -> & _). apply instr_exact_inv in H2 as (seg & -> & Hs & sp & q & ->).
  apply inv_nls in H3 as (-> & post & Hpost & E & Hx). exists pre, seg, post.
  split; [exact Hpre|]. split; [exact Hpost|]. rewrite <- E. split; [|split; [exact Hs|reflexivity]].
  intros ->. cbn in E. eapply Hx. symmetry. exact E.
Qed.
Lemma instrs_inv (st : strm) n l r : iter (fun s => vw (PI s)) st n l r -> n = 0 ->
  exists seg, instrs_at l seg r /\ st = seg ++ r.
Proof.
  induction 1 as [st H|st m a r n l r' H _ IH]; intros Hn; [exists []; split; [constructor|reflexivity]|].
  assert (m = 0 /\ n = 0) as [-> ->] by lia. destruct (IH eq_refl) as (rest & IH' & ->).
  apply padded_inv in H as (pre & seg & post & H1 & H2 & H3 & H4 & ->).
  exists (pre ++ seg ++ post ++ rest). split; [apply ia_cons; assumption|]. rewrite <- !app_assoc. reflexivity.
Qed.
Lemma instrs_fw l seg (after : strm) : instrs_at l seg after -> after_instrs after ->
  iter (fun s => vw (PI s)) (strip (seg ++ after)) 0 l after.
Proof.
  induction 1 as [|i l pre seg post more rest Hpre Hpost Hne Hi Hl IH]; intros Ha.
  - cbn [app]. rewrite after_strip by exact Ha. constructor. apply after_fail. exact Ha.
  - specialize (IH Ha). destruct (instr_at_head _ _ _ Hi) as [([t sp] & q & E & Ht) _].
    pose proof (instr_exact_fw _ _ _ Hi) as Hw.
    rewrite <- !app_assoc. rewrite strip_nls by exact Hpre. subst seg. cbn [app] in *. rewrite strip_id by exact Ht.
    change 0 with (0 + 0). econstructor; [|exact IH].
    erewrite fw_padded; [|rewrite strip_id by exact Ht; exact Hw].
    f_equal. rewrite strip_nls by exact Hpost. reflexivity.
Qed.

(** blocks *)
Lemma block_inv (st : strm) b r : vw (g_basic_block eoi st) = VOk 0 b r -> exists seg, block_at b seg r /\ st = seg ++ r.
Proof.
  unfold g_basic_block. intros H. pinv.
  match goal with H : vw (g_nls1 _ _) = _ |- _ => apply inv_nls1 in H as (-> & nls & Hn & Hne & -> & _) end.
  match goal with H : vw (p_repeated _ _) = _ |- _ => apply inv_rep0 in H; [|gp]; apply instrs_inv in H as (seg & Hs & ->); [|lia] end.
  eexists. split; [do 4 eexists; cbn [mk_labelled_bb bb_label bb_label_comma bb_instrs bb_span];
    split; [reflexivity|]; split; [reflexivity|]; split; [exact Hn|]; split; [exact Hne|]; split; [exact Hs|];
    split; [reflexivity|]|].
  - rewrite olast_end. reflexivity.
  - unfold tp. cbn [app]. apps.
Qed.
Lemma blocks_inv (st : strm) n l r : iter (fun s => vw (g_basic_block eoi s)) st n l r -> n = 0 ->
  exists seg, blocks_at l seg r /\ st = seg ++ r.
Proof.
  induction 1 as [st H|st m a r n l r' H _ IH]; intros Hn; [exists []; split; [constructor|reflexivity]|].
  assert (m = 0 /\ n = 0) as [-> ->] by lia. destruct (IH eq_refl) as (rest & IH' & ->).
  apply block_inv in H as (seg & H1 & ->).
  exists (seg ++ rest). split; [apply ba_cons; assumption|]. rewrite <- app_assoc. reflexivity.
Qed.
Lemma block_at_after b seg rest : block_at b seg rest -> forall r, after_instrs (seg ++ r).
Proof.
  intros (label & comma & nls & more & _ & _ & Hn & Hne & _ & -> & _) r. left.
  destruct nls as [|[t sp] nls]; [congruence|]. inversion Hn; subst. cbn in *. subst t.
  do 4 eexists. reflexivity.
Qed.
Lemma blocks_at_after l seg c r : blocks_at l seg (tp (ch "}") c :: r) -> after_instrs (seg ++ tp (ch "}") c :: r).
Proof.
  intros H. inversion H; subst; [right; do 2 eexists; reflexivity|]. rewrite <- app_assoc. eapply block_at_after. eassumption.
Qed.
Lemma block_fw b seg (after : strm) : block_at b seg after -> after_instrs after ->
  vw (g_basic_block eoi (seg ++ after)) = VOk 0 b after.
Proof.
  intros (label & comma & nls & rest & Hl & Hc & Hn & Hne & Hi & -> & Hsp) Ha.
  pose proof (instrs_fw _ _ _ Hi Ha) as Hit.
  destruct nls as [|[nl nsp] nls]; [congruence|]. inversion Hn as [|? ? Hnl Hn']; subst. cbn in Hnl. subst nl.
  unfold g_basic_block. cbn [app]. rewrite <- app_assoc. fw. unfold tp. rewrite span_one.
  destruct (fw_nls1 eoi nsp (nls ++ rest ++ after)) as (l & E). unfold tnl in E. rewrite E. cbn [vbind].
  rewrite strip_nls by exact Hn'. erewrite fw_repeated; [|gp|exact Hit]. cbn [vbind]. unfold mk_labelled_bb.
  rewrite olast_end, <- Hsp. destruct b; cbn in *. subst. reflexivity.
Qed.
Lemma blocks_fw l seg (after : strm) : blocks_at l seg after -> forall c r, after = tp (ch "}") c :: r ->
  iter (fun s => vw (g_basic_block eoi s)) (seg ++ after) 0 l after.
Proof.
  induction 1 as [rest|b l seg more rest Hb Hl IH]; intros c r ->.
  - constructor. reflexivity.
  - rewrite <- app_assoc. change 0 with (0 + 0). econstructor; [apply block_fw; [exact Hb|]|eapply IH; reflexivity].
    apply (blocks_at_after l). exact Hl.
Qed.

(** bodies *)
Lemma first_block_inv (st : strm) o r :
  vw (p_or_not (p_map (p_repeated_at_least 1 PI) mk_initial_bb) st) = VOk 0 o r ->
  exists seg, first_block_at o seg r /\ st = seg ++ r.
Proof.
  intros H. apply inv_or_not in H as [(b & -> & H)|(-> & _ & -> & _)].
  - apply inv_map in H as (l & H & ->). apply inv_rep in H as [H Hl]; [|gp].
    apply instrs_inv in H as (seg & Hs & ->); [|reflexivity]. exists seg. split; [|reflexivity].
    cbn [first_block_at mk_initial_bb bb_label bb_label_comma bb_instrs bb_span].
    split; [reflexivity|]. split; [reflexivity|]. split; [exact Hs|].
    destruct l as [|i l]; [cbn in Hl; lia|]. exists i, l. split; [reflexivity|]. f_equal. apply olast_end.
  - exists []. split; reflexivity.
Qed.
Lemma body_inv (st : strm) b r : vw (g_func_body eoi st) = VOk 0 b r -> exists seg, fbody_at b seg r /\ st = seg ++ r.
Proof.
  unfold g_func_body. intros H. pinv.
  match goal with H : vw (g_nls1 _ _) = _ |- _ => apply inv_nls1 in H as (-> & nls & Hn & Hne & -> & _) end.
  match goal with H : vw (p_or_not _ _) = VOk ?n _ _, H2 : vw (p_repeated _ _) = VOk ?m _ _ |- _ => assert (n = 0 /\ m = 0) as [-> ->] by lia end.
  match goal with H : vw (p_or_not _ _) = _ |- _ => apply first_block_inv in H as (s1 & Hf & ->) end.
  match goal with H : vw (p_repeated _ _) = _ |- _ => apply inv_rep0 in H; [|gp]; apply blocks_inv in H as (s2 & Hs & ->); [|reflexivity] end.
  eexists. split; [do 5 eexists; split; [exact Hn|]; split; [exact Hne|]; cbn [fb_blocks fb_open fb_close];
    split; [exact Hf|]; split; [exact Hs|]; split; reflexivity|].
  unfold tp. cbn [app]. apps.
Qed.
Lemma body_fw b seg (r : strm) : fbody_at b seg r -> vw (g_func_body eoi (seg ++ r)) = VOk 0 b r.
Proof.
  intros (nls & o & s1 & bbs & s2 & Hn & Hne & Ho & Hb & Ebl & ->).
  pose proof (blocks_fw _ _ _ Hb _ _ eq_refl) as Hit.
  destruct nls as [|[nl nsp] nls]; [congruence|]. inversion Hn as [|? ? Hnl Hn']; subst. cbn in Hnl. subst nl.
  assert (vw (p_or_not (p_map (p_repeated_at_least 1 PI) mk_initial_bb)
     (strip (s1 ++ s2 ++ tp (ch "}") (fb_close b) :: r))) = VOk 0 o (s2 ++ tp (ch "}") (fb_close b) :: r)) as E.
  { pose proof (blocks_at_after _ _ _ _ Hb) as Ha. destruct o as [b0|].
    - destruct Ho as (H1 & H2 & H3 & i & q & H4 & H5). pose proof (instrs_fw _ _ _ H3 Ha) as Hi.
      rewrite vw_or_not, vw_map. erewrite fw_rep_at_least; [|gp|exact Hi]. rewrite H4 at 1. cbn [length Nat.ltb Nat.leb vbind].
      f_equal. f_equal. unfold mk_initial_bb. rewrite olast_end. rewrite H4 at 2. cbn iota. rewrite <- H5. destruct b0; cbn in *; subst; reflexivity.
    - cbn in Ho. subst s1. cbn [app]. rewrite after_strip by exact Ha.
      rewrite vw_or_not, vw_map. erewrite fw_rep_at_least; [|gp|constructor; apply after_fail; exact Ha]. reflexivity. }
  unfold g_func_body. cbn [app]. rewrite <- !app_assoc. cbn [app]. fw. rewrite span_one_tp.
  destruct (fw_nls1 eoi nsp (nls ++ s1 ++ s2 ++ tp (ch "}") (fb_close b) :: r)) as (l & E1). unfold tnl in E1. rewrite E1. cbn [vbind].
  rewrite strip_nls by exact Hn'. rewrite E. cbn [vbind]. erewrite fw_repeated; [|gp|exact Hit]. cbn [vbind].
  fw. rewrite span_one_tp. rewrite <- Ebl. destruct b; reflexivity.
Qed.

(** statements *)
Lemma stmt_inv (st : strm) s r : vw (g_stmt_alternatives eoi st) = VOk 0 s r -> exists seg, stmt_at s seg r /\ st = seg ++ r.
Proof.
  unfold g_stmt_alternatives. intros H.
  assert (vw (g_func_def eoi st) = VOk 0 s r \/ (exists seg, stmt_seg any_form s 0 seg r /\ st = seg ++ r /\ forall kw sig body, s <> SFuncDef kw sig body)) as [Hd|(seg & Hs & -> & Hne)].
  { do 4 (match type of H with vw (p_or ?p ?q ?s) = _ => destruct (vw_or_inv p q s) as [E|E] end; rewrite E in H; clear E;
      [|first [left; exact H
              |right; pose proof H as H'; first [apply inv_dbg_annotation in H|apply inv_func_deps in H|apply inv_func_decl in H];
               destruct H as (seg & Hs & Es); exists seg; split; [exact Hs|]; split; [exact Es|]; intros kw sig body; apply inv_map in H' as (x & _ & ->);
               repeat match goal with p : (_ * _)%type |- _ => destruct p end; discriminate]]).
    right; pose proof H as H'; apply inv_global_var in H; destruct H as (seg & Hs & Es); exists seg; split; [exact Hs|]; split; [exact Es|]; intros kw sig body; apply inv_map in H' as (x & _ & ->);
               repeat match goal with p : (_ * _)%type |- _ => destruct p end; discriminate. }
  - unfold g_func_def in Hd. pinv.
    match goal with H : vw (g_func_signature _ _) = _ |- _ => apply inv_signature in H as (-> & sseg & Hs & ->) end.
    match goal with H : vw (g_func_body _ _) = VOk ?n _ _ |- _ => assert (n = 0) as -> by lia; apply body_inv in H as (bseg & Hb & ->) end.
    eexists. split; [cbn [stmt_at]; do 3 eexists; split; [exact Hs|]; split; [exact Hb|]; split; [eassumption|reflexivity]|].
    cbn [app]. apps.
  - exists seg. split; [|reflexivity]. destruct s; try exact Hs. exfalso. eapply Hne. reflexivity.
Qed.
Lemma any_seg s seg r : stmt_seg any_form s 0 seg r -> (forall kw sig body, s <> SFuncDef kw sig body) -> stmt_seg proper_form s 0 seg r.
Proof. intros H Hn. inversion H; subst; try (constructor; assumption). exfalso. eapply Hn. reflexivity. Qed.
Lemma stmt_fw s seg (r : strm) : stmt_at s seg r -> vw (g_stmt_alternatives eoi (seg ++ r)) = VOk 0 s r.
Proof.
  intros H. destruct s as [| | kw sig body | |]; try (refine (proj2 (fw_stmt_alternatives eoi _ _ _ _ (any_seg _ _ _ H _))); intros; discriminate).
  destruct H as (sseg & bseg & e & Hs & Hb & He & ->). unfold g_stmt_alternatives. do 2 apply vw_or_ok.
  rewrite vw_or_fail by (rewrite vw_or_fail by reflexivity; reflexivity). unfold g_func_def. cbn [app]. rewrite <- !app_assoc. fw. rewrite fw_just. cbn [vbind]. rewrite span_one.
  rewrite (fw_signature eoi sig sseg) by assumption. cbn [vbind]. rewrite (body_fw _ _ _ Hb). cbn [vbind].
  destruct (fw_eol eoi _ _ He) as (y & ->). reflexivity.
Qed.
Lemma stmt_at_head s seg r : stmt_at s seg r -> exists t q, seg = t :: q /\ fst t <> TNewline.
Proof.
  intros H. destruct s as [| | kw sig body | |]; try exact (stmt_head _ _ _ _ _ H).
  destruct H as (sseg & bseg & e & _ & _ & _ & ->). do 2 eexists. split; [reflexivity|discriminate].
Qed.
Lemma statement_inv (st : strm) s r : vw (g_statement eoi st) = VOk 0 s r ->
  exists pre seg post, newlines pre /\ newlines post /\ stmt_at s seg (post ++ r) /\ st = pre ++ seg ++ post ++ r.
Proof.
  unfold g_statement. fold (g_stmt_alternatives eoi). intros H. rewrite vw_padded_by in H.
  apply vbind_ok in H as (n1 & a1 & r1 & H1 & H). apply vbind_ok in H as (n2 & a2 & r2 & H2 & H).
  apply vbind_ok in H as (n3 & a3 & r3 & H3 & H). injection H as En <- <-. assert (n2 = 0) as -> by lia.
  apply inv_nls in H1 as (-> & pre & Hpre & -> & _). apply stmt_inv in H2 as (seg & Hs & ->).
  apply inv_nls in H3 as (-> & post & Hpost & -> & Hx). exists pre, seg, post. auto.
Qed.
Lemma statement_fw s pre seg post (r : strm) : newlines pre -> newlines post -> stmt_at s seg (post ++ r) ->
  vw (g_statement eoi (pre ++ seg ++ post ++ r)) = VOk 0 s (strip r).
Proof.
  intros Hpre Hpost H. pose proof (stmt_fw _ _ _ H) as E.
  destruct (stmt_at_head _ _ _ H) as ([t sp] & q & -> & Ht).
  unfold g_statement. fold (g_stmt_alternatives eoi). erewrite fw_padded.
  - rewrite strip_nls by exact Hpost. reflexivity.
  - rewrite strip_nls by exact Hpre. cbn [app]. rewrite strip_id by exact Ht. exact E.
Qed.

(** modules *)
Lemma stmts_inv (st : strm) n ss r : iter (fun s => vw (p_recover (g_statement eoi) s)) st n ss r -> r = [] -> n = 0 -> module_at ss st.
Proof.
  induction 1 as [st H|st m s r n ss r' H _ IH]; intros Hr Hn; [subst; constructor|].
  assert (m = 0 /\ n = 0) as [-> ->] by lia. specialize (IH Hr eq_refl).
  destruct (recover_cases (g_statement eoi) st) as [(n' & a' & q & E & E')|[[E E']|(E & k & _ & E')]]; rewrite E' in H; try discriminate.
  - injection H as -> -> ->. apply statement_inv in E as (pre & seg & post & H1 & H2 & H3 & ->). apply ma_cons; assumption.
  - destruct (vretry _ (tl st)) eqn:F; try discriminate.
Qed.
Lemma module_inv (st : strm) ss r : vw (g_module eoi st) = VOk 0 ss r -> module_at ss st.
Proof.
  unfold g_module. intros H. pinv.
  match goal with H : vw (p_repeated _ _) = _ |- _ => apply inv_rep0 in H; [|gp]; apply stmts_inv in H; [|reflexivity|lia] end. assumption.
Qed.
Lemma stmts_fw ss (toks : strm) : module_at ss toks -> ss <> [] -> chain eoi toks 0 ss [].
Proof.
  induction 1 as [|s ss pre seg post rest Hpre Hpost Hs Hss IH]; intros Hne; [congruence|].
  pose proof (statement_fw s pre seg post rest Hpre Hpost Hs) as E.
  change 0 with (0 + 0). econstructor; [apply vw_recover_ok; exact E|]. destruct ss as [|s' ss].
  - inversion Hss; subst. constructor. reflexivity.
  - assert (s' :: ss <> []) as Hne' by discriminate. specialize (IH Hne'). inversion IH; subst.
    econstructor; [rewrite <- recover_strip; eassumption|assumption].
Qed.
Lemma module_fw ss (toks : strm) : module_at ss toks -> vw (g_module eoi toks) = VOk 0 ss [].
Proof.
  intros H. destruct (module_chain eoi toks) as (n' & l & r & Hc & ->). destruct ss as [|s ss].
  - inversion H; subst. inversion Hc; subst; [reflexivity|]. discriminate.
  - assert (s :: ss <> []) as Hne by discriminate. pose proof (stmts_fw _ _ H Hne) as Hk.
    destruct (iter_det _ _ _ _ _ Hc _ _ _ Hk) as (-> & -> & ->). reflexivity.
Qed.
End X.

Lemma parse_exact src toks ss : parse_tokens src toks = Val (Some ss, []) <-> module_at ss (without_comments toks).
Proof.
  pose proof (parse_view src toks) as V. split.
  - intros H. destruct (vw (g_module _ _)) as [n l r| |] eqn:E; [| |contradiction].
    + destruct V as (errs & V & El). rewrite H in V. injection V as -> <-. cbn in El. subst n.
      exact (module_inv _ _ _ _ E).
    + destruct V as (errs & V & _). rewrite H in V. discriminate.
  - intros H. rewrite (module_fw _ _ _ H) in V. destruct V as (errs & -> & E). destruct errs; [reflexivity|discriminate].
Qed.
Lemma exact_unique toks ss ss' : module_at ss toks -> module_at ss' toks -> ss = ss'.
Proof.
  intros H H'. pose proof (module_fw (mkSpan 0 0) _ _ H) as E. rewrite (module_fw (mkSpan 0 0) _ _ H') in E. congruence.
Qed.
Lemma parse_rejects src toks : (exists o errs, parse_tokens src toks = Val (o, errs) /\ errs <> []) <->
  ~ exists ss, module_at ss (without_comments toks).
Proof.
  split.
  - intros (o & errs & E & Hne) (ss & H). apply (parse_exact src) in H. rewrite H in E. injection E as _ <-. congruence.
  - intros H. destruct (parse_tokens_total src toks) as (o & errs & E). exists o, errs. split; [exact E|]. intros ->.
    destruct o as [ss|]; [apply H; exists ss; apply (parse_exact src); exact E|].
    pose proof (parse_view src toks) as V. destruct (vw (g_module _ _)) as [n l r| |]; [| |exact V].
    + destruct V as (errs & V & _). rewrite E in V. discriminate.
    + destruct V as (errs & V & Hne). rewrite E in V. injection V as <-. congruence.
Qed.
Lemma tokenize_none u src errs : tokenize u src = Val (None, errs) -> errs <> [].
Proof.
  unfold tokenize, parse_recovery. destruct (tokenizer _ _ _) as [es a alt r|es e|]; try discriminate.
  intros H; injection H as <-. rewrite map_app. destruct (map l_err es); discriminate.
Qed.
Lemma document_exact u src toks ss : parse_from_str u src = Val (mkPR toks ss []) <->
  tokenize u src = Val (Some toks, []) /\ module_at ss (without_comments toks).
Proof.
  unfold parse_from_str. split.
  - destruct (tokenize u src) as [[[t|] errs]|] eqn:E; cbn [rbind]; try discriminate.
    + destruct (parse_tokens src t) as [[o e2]|] eqn:E2; cbn [rbind]; try discriminate. intros H. injection H as -> H1 H2.
      apply app_eq_nil in H2 as [H2 H3]. apply map_eq_nil in H2, H3. subst. split; [reflexivity|].
      destruct o as [l|].
      * apply (parse_exact src). exact E2.
      * exfalso. pose proof (parse_view src toks) as V. destruct (vw (g_module _ _)) as [n l r| |]; [| |exact V].
        -- destruct V as (errs & V & _). rewrite E2 in V. discriminate.
        -- destruct V as (errs & V & Hne). rewrite E2 in V. injection V as <-. congruence.
    + intros H. injection H as _ _ H. rewrite app_nil_r in H. apply map_eq_nil in H. subst. exfalso. exact (tokenize_none _ _ _ E eq_refl).
  - intros [-> H]. cbn [rbind]. apply (parse_exact src) in H. rewrite H. reflexivity.
Qed.

(** every instruction of the tree is the preferred reading at its place *)
Lemma instrs_at_in l seg rest : instrs_at l seg rest -> forall i, In i l ->
  exists before s r, seg ++ rest = before ++ s ++ r /\ instr_at i s r.
Proof.
  induction 1 as [|i l pre seg post more rest _ _ _ Hi _ IH]; intros j [].
  - subst j. exists pre, seg, (post ++ more ++ rest). split; [rewrite <- !app_assoc; reflexivity|exact Hi].
  - destruct (IH _ H) as (before & s & r & E & Hj). exists (pre ++ seg ++ post ++ before), s, r.
    split; [rewrite <- !app_assoc; rewrite E; reflexivity|exact Hj].
Qed.
Lemma blocks_at_in l seg rest : blocks_at l seg rest -> forall b i, In b l -> In i (bb_instrs b) ->
  exists before s r, seg ++ rest = before ++ s ++ r /\ instr_at i s r.
Proof.
  induction 1 as [|b l seg more rest Hb _ IH]; intros b' i [] Hi.
  - subst b'. destruct Hb as (label & comma & nls & m & _ & _ & _ & _ & Hm & -> & _).
    destruct (instrs_at_in _ _ _ Hm _ Hi) as (before & s & r & E & Hj).
    exists (tident label :: tp (ch ":") comma :: nls ++ before), s, r. split; [|exact Hj].
    cbn [app]. rewrite <- !app_assoc. rewrite E. reflexivity.
  - destruct (IH _ _ H Hi) as (before & s & r & E & Hj). exists (seg ++ before), s, r.
    split; [rewrite <- !app_assoc; rewrite E; reflexivity|exact Hj].
Qed.
Lemma module_at_in ss toks : module_at ss toks -> forall kw sig body b i, In (SFuncDef kw sig body) ss -> In b (fb_blocks body) -> In i (bb_instrs b) ->
  exists before s r, toks = before ++ s ++ r /\ instr_at i s r.
Proof.
  induction 1 as [|s ss pre seg post rest _ _ Hs _ IH]; intros kw sig body b i [] Hb Hi.
  - subst s. destruct Hs as (sseg & bseg & e & _ & (nls & o & s1 & bbs & s2 & _ & _ & Ho & Hbs & Eb & ->) & _ & ->).
    assert (exists before s r, s1 ++ s2 ++ tp (ch "}") (fb_close body) :: e ++ post ++ rest = before ++ s ++ r /\ instr_at i s r) as (before & s & r & E & Hj).
    { assert (In b bbs -> exists before s r, s1 ++ s2 ++ tp (ch "}") (fb_close body) :: e ++ post ++ rest = before ++ s ++ r /\ instr_at i s r) as Hlater.
      { intros Hin. destruct (blocks_at_in _ _ _ Hbs _ _ Hin Hi) as (before & s & r & E & Hj). exists (s1 ++ before), s, r.
        split; [rewrite <- app_assoc; f_equal; exact E|exact Hj]. }
      rewrite Eb in Hb. destruct o as [b0|]; [|exact (Hlater Hb)]. destruct Hb as [->|Hb]; [|exact (Hlater Hb)].
      destruct Ho as (_ & _ & Ho & _). exact (instrs_at_in _ _ _ Ho _ Hi). }
    exists (pre ++ (TDefine, kw) :: sseg ++ tp (ch "{") (fb_open body) :: nls ++ before), s, r. split; [|exact Hj].
    repeat (rewrite <- app_assoc; cbn [app]). do 5 f_equal. rewrite <- E. repeat (rewrite <- app_assoc; cbn [app]). reflexivity.
  - destruct (IH _ _ _ _ _ H Hb Hi) as (before & s' & r & E & Hj). exists (pre ++ seg ++ post ++ before), s', r.
    split; [rewrite E, <- !app_assoc; reflexivity|exact Hj].
Qed.
Lemma reads_det f m refs dbg st rest m' refs' dbg' rest' : reads f m refs dbg st rest -> reads f m' refs' dbg' st rest' ->
  m = m' /\ refs = refs' /\ dbg = dbg' /\ rest = rest'.
Proof.
  intros H H'. destruct (reads_parse (mkSpan 0 0) _ _ _ _ _ _ H) as (s & E), (reads_parse (mkSpan 0 0) _ _ _ _ _ _ H') as (s' & E').
  rewrite E in E'. injection E' as <- <- <- _ <-. auto.
Qed.
Lemma reads_no_targets f m dbg st rest : reads f m [] dbg st rest -> f = FPhi \/ f = FOther.
Proof. intros (body & Hb & _). inversion Hb; auto. Qed.
Lemma other_no_targets m refs dbg st rest : reads FOther m refs dbg st rest -> refs = [].
Proof. intros (body & Hb & _). inversion Hb; reflexivity. Qed.
Lemma instruction_reading src toks ss : parse_tokens src toks = Val (Some ss, []) ->
  forall kw sig body b i, In (SFuncDef kw sig body) ss -> In b (fb_blocks body) -> In i (bb_instrs b) ->
  exists before st q, without_comments toks = before ++ st /\ st = tident (i_instr i) :: q /\
    (exists f rest, reads f (i_instr i) (i_refs i) (i_dbg i) st rest /\ preferred f st) /\
    (i_refs i = [] <-> forall f m refs dbg rest, reads f m refs dbg st rest -> refs = []).
Proof.
  intros H kw sig body b i Hs Hb Hi. apply parse_exact in H.
  destruct (module_at_in _ _ H _ _ _ _ _ Hs Hb Hi) as (before & s & r & E & (f & tgt & st & _ & Est & Hr & Hp & _)).
  pose proof Hr as (bd & Hbd & _ & Ebd & _). destruct (body_head _ _ _ _ Hbd) as (q & Eq).
  exists (before ++ tgt), st. eexists. split; [rewrite E, Est, <- app_assoc; reflexivity|].
  split; [rewrite Ebd, Eq; cbn [app]; reflexivity|]. split; [exists f, r; auto|]. split.
  - intros Er f' m refs dbg rest Hr'. pose proof (Hp _ _ _ _ _ Hr') as Hk. rewrite Er in Hr.
    destruct (reads_no_targets _ _ _ _ _ Hr) as [->| ->]; cbn [rank] in Hk.
    + destruct f'; cbn [rank] in Hk; try lia; [|exact (other_no_targets _ _ _ _ _ Hr')].
      destruct (reads_det _ _ _ _ _ _ _ _ _ _ Hr Hr') as (_ & <- & _). reflexivity.
    + destruct f'; cbn [rank] in Hk; try lia. exact (other_no_targets _ _ _ _ _ Hr').
  - intros Hall. exact (Hall _ _ _ _ _ Hr).
Qed.
