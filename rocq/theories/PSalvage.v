(** Parsing with errors is exactly the grammar of SpecSalvage.v. *)
From Verif Require Import Text Chumsky Tokenizer Parser PChumsky PGram SpecParse SpecExact SpecSalvage PParse PSound PParseProps PComplete PLocal PExact.

Lemma retry_fail {I A} (p : list (I * span) -> view I A) st : vretry p st = VFail -> forall g r, st = g ++ r -> p r = VFail.
Proof.
  induction st as [|x st IH]; cbn [vretry]; intros H g r E.
  - symmetry in E. apply app_eq_nil in E as [-> ->]. destruct (p []); [discriminate|reflexivity|discriminate].
  - destruct (p (x :: st)) eqn:F; try discriminate. destruct g as [|y g]; [cbn in E; subst r; exact F|]. injection E as <- E. exact (IH H g r E).
Qed.
Lemma retry_ok {I A} (p : list (I * span) -> view I A) st n s r : vretry p st = VOk n s r ->
  exists g st', st = g ++ st' /\ p st' = VOk n s r /\ forall g1 g2, g = g1 ++ g2 -> g2 <> [] -> p (g2 ++ st') = VFail.
Proof.
  induction st as [|x st IH]; cbn [vretry]; intros H.
  - exists [], []. split; [reflexivity|]. split; [destruct (p []); congruence|]. intros g1 g2 E Hn. symmetry in E. apply app_eq_nil in E as [_ E]. congruence.
  - destruct (p (x :: st)) eqn:F; try discriminate.
    + exists [], (x :: st). split; [reflexivity|]. split; [congruence|]. intros g1 g2 E Hn. symmetry in E. apply app_eq_nil in E as [_ E]. congruence.
    + apply IH in H as (g & st' & -> & H & K). exists (x :: g), st'. split; [reflexivity|]. split; [exact H|]. intros g1 g2 E Hn.
      destruct g1 as [|y g1]; [cbn in E; subst g2; exact F|]. injection E as <- E. exact (K g1 g2 E Hn).
Qed.

(** ** The parser reads what the grammar allows, with the same complaints *)
Section S.
Variable eoi : span.
Ltac pinv1 := match goal with
  | H : vw (p_map _ _ _) = VOk _ _ _ |- _ => apply inv_map in H as (? & H & ?)
  | H : vw (p_map_with_span _ _ _ _) = VOk _ _ _ |- _ =>
      first [apply inv_just_span in H as (? & ?) | apply inv_mws in H as (? & H & ?)]
  | H : vw (p_then _ _ _) = VOk _ _ _ |- _ =>
      apply inv_then in H; let H' := fresh "H" in destruct H as (? & ? & ? & ? & ? & H & H' & ? & ?)
  | H : vw (p_ignore_then _ _ _) = VOk _ _ _ |- _ =>
      apply inv_ignore_then in H; let H' := fresh "H" in destruct H as (? & ? & ? & ? & H & H' & ?)
  | H : vw (p_then_ignore _ _ _) = VOk _ _ _ |- _ =>
      apply inv_then_ignore in H; let H' := fresh "H" in destruct H as (? & ? & ? & ? & H & H' & ?)
  | H : vw (p_just _ _ _ _) = VOk _ _ _ |- _ => apply inv_just in H as (? & ? & ? & ?)
  | H : vw (p_any _ _) = VOk _ _ _ |- _ => apply inv_any in H as (? & ? & ?)
  | H : vw (p_end _ _) = VOk _ _ _ |- _ => apply inv_end in H as (? & ? & ?)
  | H : vw (g_func_modifier _ _) = VOk _ _ _ |- _ => apply inv_func_modifier in H as (? & ?)
  | H : vw (g_global_name _ _) = VOk _ _ _ |- _ => apply inv_global_name in H as (? & ?)
  | H : vw (g_local_name _ _) = VOk _ _ _ |- _ => apply inv_local_name in H as (? & ?)
  | H : vw (g_type _ _) = VOk _ _ _ |- _ => apply inv_type in H as (? & ?)
  | H : vw (g_ident _ _) = VOk _ _ _ |- _ => apply inv_ident in H as (? & ?)
  | H : vw (g_dbg_ref _ _) = VOk _ _ _ |- _ => apply inv_dbg_ref in H as (? & ?)
  | H : vw (g_hexnum _ _) = VOk _ _ _ |- _ => apply inv_hexnum in H as (? & ?)
  | H : vw (g_nl_ahead _ _) = VOk _ _ _ |- _ => apply inv_nl_ahead in H as (? & ? & ? & ? & ?)
  | H : vw (g_kw_spanned _ _ _) = VOk _ _ _ |- _ => apply inv_kw_spanned in H as (? & ? & ?)
  | H : vw (g_eol _ _) = VOk _ _ _ |- _ => apply inv_eol in H as (? & ? & ? & ?)
  | H : vw (p_or_not (g_dbg_ref _) _) = VOk _ _ _ |- _ => apply inv_dbg_opt in H as (? & ?)
  end; subst.
Ltac pinv := unfold p_delimited_by, p_padded_by in *; repeat pinv1.

Ltac apps := repeat first [progress cbn [app] | rewrite <- app_assoc]; reflexivity.
Ltac fw1 := first
  [ rewrite vw_map | rewrite vw_to | rewrite vw_map_with_span | rewrite vw_then | rewrite vw_ignore_then | rewrite vw_then_ignore
  | rewrite fw_punct | rewrite fw_kw | rewrite fw_ident | rewrite fw_local | rewrite fw_global | rewrite fw_type
  | rewrite fw_dbg | rewrite fw_hex | rewrite fw_mod | rewrite fw_any | rewrite fw_nl_ahead | rewrite fw_opt_dbg ].
Ltac fw := repeat (fw1; cbn [vbind]).



Notation parser_of := (parser_of eoi).
Lemma clean_reads f m refs dbg st rest : reads_with f 0 m refs dbg st rest <-> reads f m refs dbg st rest.
Proof. split; intros (body & H1 & H2 & H3); exists body; auto. Qed.
Lemma fw_blamed m soup c1 k1 e1 t1 c2 k2 e2 t2 dbg sp (r : strm) : skip_seg (str "cont") soup ->
  ends_with (fst m) (str "br") = false ->
  exists s, vw (g_overflowbr eoi ((tident m :: soup ++ [tp (ch ",") c1; tkw (str "cont") k1; tp (ch "=") e1; tident t1;
                            tp (ch ",") c2; tkw (str "overflow") k2; tp (ch "=") e2; tident t2])
     ++ opt_seg tdbg dbg ++ tnl sp :: r)) = VOk 1 (mkInstr None m [t1; t2] dbg s) (tnl sp :: r).
Proof.
  intros Hs Hm. eexists. unfold g_overflowbr. cbn [app]. rewrite <- app_assoc. cbn [app]. fw. rewrite vw_validate. fw. rewrite Hm.
  cbn [vbind]. destruct (fw_skip eoi (str "cont") soup c1 k1 (tp (ch "=") e1 :: tident t1 :: tp (ch ",") c2 ::
    tkw (str "overflow") k2 :: tp (ch "=") e2 :: tident t2 :: opt_seg tdbg dbg ++ tnl sp :: r) Hs) as (l & ->).
  cbn [vbind]. fw. reflexivity.
Qed.
Lemma with_parse f n m refs dbg st rest : reads_with f n m refs dbg st rest ->
  exists s, vw (parser_of f st) = VOk n (mkInstr None m refs dbg s) rest.
Proof.
  intros H. destruct n as [|n]; [apply (reads_parse eoi), clean_reads; exact H|].
  destruct H as (body & Hb & He & -> & sp & q & ->). destruct f; try discriminate. cbn in He. inversion Hb; subst.
  destruct (ends_with _ _) eqn:E; [discriminate|]. injection He as ->. apply fw_blamed; assumption.
Qed.
Lemma parse_with f n st i r : vw (parser_of f st) = VOk n i r -> i_target i = None /\ reads_with f n (i_instr i) (i_refs i) (i_dbg i) st r.
Proof.
  intros H. assert (exists seg, alt_of f i n seg r /\ st = seg ++ r) as (seg & (body & Ht & Hb & -> & He & Hr) & ->).
  { destruct f; cbn [PExact.parser_of] in H; [apply inv_br in H|apply inv_condbr in H|apply inv_overflowbr in H|apply inv_switch in H|apply inv_phi in H|apply inv_any_instr in H]; exact H. }
  split; [exact Ht|]. exists body. split; [exact Hb|]. split; [exact He|]. split; [rewrite <- app_assoc; reflexivity|exact Hr].
Qed.

Ltac strict_all := repeat apply strict_or; apply strict_of.
Lemma alternatives_one st : exists f, vw (g_instr_alternatives eoi st) = vw (parser_of f st).
Proof.
  rewrite alternatives_unfold.
  do 5 (match goal with |- exists f, vw (p_or ?p ?q ?s) = _ => destruct (vw_or_inv p q s) as [E|E]; rewrite E; clear E; [|eexists; reflexivity] end). eexists. reflexivity.
Qed.
Lemma or_fail_both {A} (p q : parser (I:=token) A) st : strict p -> strict q -> vw (p_or p q st) = VFail -> vw (p st) = VFail /\ vw (q st) = VFail.
Proof.
  intros [_ Hp] [_ Hq] H. pose proof (Hp st) as Hp'. pose proof (Hq st) as Hq'. destruct (vw_or_inv p q st) as [E|E]; rewrite E in H.
  - split; [exact H|]. rewrite vw_or_fail in E by exact H. congruence.
  - split; [|exact H]. destruct (vw (p st)) as [[|n] a r| |] eqn:F; [|rewrite (vw_or_err_fail _ _ _ _ _ _ F H) in E; congruence|reflexivity|congruence].
    rewrite (vw_or_ok _ _ _ _ _ F) in E. congruence.
Qed.
Lemma alternatives_fail st f : vw (g_instr_alternatives eoi st) = VFail -> vw (parser_of f st) = VFail.
Proof.
  rewrite alternatives_unfold. intros H. do 5 (apply or_fail_both in H as [H ?]; [|strict_all|strict_all]). destruct f; assumption.
Qed.
Lemma reads_few f n m refs dbg st rest : reads_with f n m refs dbg st rest -> n = 0 \/ n = 1 /\ f = FOverflow.
Proof. intros (body & _ & -> & _). destruct f; cbn; auto. destruct (ends_with _ _); auto. Qed.
Lemma best_clean f st : best f 0 st <-> preferred f st.
Proof.
  split; intros H.
  - intros f' m refs dbg rest Hr. apply clean_reads in Hr. destruct (H _ _ _ _ _ _ Hr) as [K|[_ K]]; [lia|exact K].
  - intros f' [|n'] m refs dbg rest Hr; [|left; lia]. right. split; [reflexivity|]. apply clean_reads in Hr. exact (H _ _ _ _ _ Hr).
Qed.
Lemma best_blamed f n st : best f (S n) st -> forall f' m refs dbg rest, ~ reads f' m refs dbg st rest.
Proof. intros H f' m refs dbg rest Hr. apply clean_reads in Hr. destruct (H _ _ _ _ _ _ Hr) as [K|[K _]]; [lia|discriminate]. Qed.
Lemma some_preferred f' m refs dbg st rest : reads f' m refs dbg st rest ->
  exists f0 m refs dbg rest, reads f0 m refs dbg st rest /\ preferred f0 st.
Proof.
  intros Hr'. remember (rank f') as k eqn:Hk. revert f' m refs dbg rest Hk Hr'. induction k as [k IH] using (well_founded_induction lt_wf). intros f' m refs dbg rest Hk Hr.
          assert (Hd : (forall g, rank g < rank f' -> unclean (parser_of g) st) \/ exists g, rank g < rank f' /\ ~ unclean (parser_of g) st).
          { assert (D : forall g, unclean (parser_of g) st \/ ~ unclean (parser_of g) st).
            { intros g. destruct (vw (parser_of g st)) as [[|] a q| |] eqn:E; [right|left|left|left]; [intros U; exact (U _ _ E)| | |]; intros a' q'; congruence. }
            destruct (D FBr) as [D0|D0]; [|destruct (Nat.lt_ge_cases (rank FBr) (rank f')); [right; eauto|]].
            all: destruct (D FCond) as [D1|D1]; [|destruct (Nat.lt_ge_cases (rank FCond) (rank f')); [right; eauto|]].
            all: destruct (D FOverflow) as [D2|D2]; [|destruct (Nat.lt_ge_cases (rank FOverflow) (rank f')); [right; eauto|]].
            all: destruct (D FSwitch) as [D3|D3]; [|destruct (Nat.lt_ge_cases (rank FSwitch) (rank f')); [right; eauto|]].
            all: destruct (D FPhi) as [D4|D4]; [|destruct (Nat.lt_ge_cases (rank FPhi) (rank f')); [right; eauto|]].
            all: destruct (D FOther) as [D5|D5]; [|destruct (Nat.lt_ge_cases (rank FOther) (rank f')); [right; eauto|]].
            all: left; intros [] Hg; try assumption; exfalso; lia. }
          destruct Hd as [Hd|(g & Hg & U)].
          - exists f', m, refs, dbg, rest. split; [exact Hr|]. apply (preferred_unclean eoi). exact Hd.
          - assert (exists m refs dbg rest, reads g m refs dbg st rest) as (m' & refs' & dbg' & rest' & Hr2).
            { destruct (vw (parser_of g st)) as [[|] a q| |] eqn:E; [|exfalso; apply U; intros a' q'; congruence..]. apply parse_reads in E as [_ E]. eauto. }
            eapply (IH (rank g)); [lia|reflexivity|exact Hr2].
Qed.
Lemma alternatives_exact st n i r : vw (g_instr_alternatives eoi st) = VOk n i r <-> exists f, vw (parser_of f st) = VOk n i r /\ best f n st.
Proof.
  destruct n as [|n].
  - rewrite alternatives_clean. split; intros (f & H1 & H2); exists f; split; try exact H1.
    + apply best_clean, (preferred_unclean eoi). exact H2.
    + apply preferred_unclean, best_clean. exact H2.
  - split.
    + intros H. destruct (alternatives_one st) as (f & E). rewrite H in E. exists f. split; [symmetry; exact E|].
      pose proof (parse_with _ _ _ _ _ (eq_sym E)) as [_ Hr]. destruct (reads_few _ _ _ _ _ _ _ Hr) as [|[En ->]]; [discriminate|].
      intros f' [|n'] m refs dbg rest Hr'.
      * exfalso. apply clean_reads in Hr'. assert (exists f0 m refs dbg rest, reads f0 m refs dbg st rest /\ preferred f0 st) as (f0 & m0 & refs0 & dbg0 & rest0 & R0 & P0).
        { exact (some_preferred _ _ _ _ _ _ Hr'). }
        destruct (reads_parse eoi _ _ _ _ _ _ R0) as (s & E0). assert (K : vw (g_instr_alternatives eoi st) = VOk 0 (mkInstr None m0 refs0 dbg0 s) rest0).
        { apply alternatives_clean. exists f0. split; [exact E0|]. apply preferred_unclean. exact P0. }
        congruence.
      * destruct (reads_few _ _ _ _ _ _ _ Hr') as [|[En' ->]]; [discriminate|]. right. split; [congruence|lia].
    + intros (f & H & Hb). pose proof (parse_with _ _ _ _ _ H) as [_ Hr]. destruct (reads_few _ _ _ _ _ _ _ Hr) as [|[En ->]]; [discriminate|].
      destruct (vw (g_instr_alternatives eoi st)) as [[|k] j q| |] eqn:E.
      * exfalso. apply alternatives_clean in E as (g & E & _). apply parse_reads in E as [_ E]. exact (best_blamed _ _ _ Hb _ _ _ _ _ E).
      * destruct (alternatives_one st) as (g & E'). rewrite E in E'. pose proof (parse_with _ _ _ _ _ (eq_sym E')) as [_ Hg]. destruct (reads_few _ _ _ _ _ _ _ Hg) as [|[_ ->]]; [discriminate|]. congruence.
      * apply (alternatives_fail st FOverflow) in E. congruence.
      * destruct (alternatives_one st) as (g & E'). rewrite E in E'. destruct (strict_of eoi g) as [_ K]. exfalso. exact (K st (eq_sym E')).
Qed.
(** instructions *)
Lemma instr_exact_inv (st : strm) n i r : vw (g_instruction eoi st) = VOk n i r ->
  exists seg, st = seg ++ r /\ instr_in i n seg r /\ exists sp q, r = tnl sp :: q.
Proof.
  intros H0. unfold g_instruction in H0. apply inv_mws in H0 as ([tg i'] & H & Ei).
  apply inv_then in H as (n1 & n2 & tg' & i'' & r1 & H1 & H2 & E & En). injection E as <- <-.
  assert (n1 = 0) as ->.
  { apply inv_or_not in H1 as [(x & -> & H)|(-> & -> & -> & _)]; [pinv; reflexivity|reflexivity]. }
  cbn in En. subst n2.
  apply alternatives_exact in H2 as (f & H2 & Hp). apply parse_with in H2 as [Ht Hr].
  pose proof Hr as (body & Hb & He & Er & Hnl).
  assert (exists tgt, target_seg tg tgt /\ st = tgt ++ r1) as (tgt & Hg & ->).
  { apply inv_or_not in H1 as [(x & -> & H)|(-> & _ & -> & _)].
    - pinv. eexists [_; _; _]. split; [do 2 eexists; reflexivity|reflexivity].
    - exists []. split; reflexivity. }
  exists (tgt ++ body ++ opt_seg tdbg (i_dbg i')). split; [rewrite Er, <- !app_assoc; reflexivity|]. split; [|exact Hnl].
  subst i. exists f, tgt, r1. cbn [i_target i_instr i_refs i_dbg i_span].
  split; [exact Hg|]. split; [rewrite Er, <- !app_assoc; reflexivity|]. split; [exact Hr|]. split; [exact Hp|].
  assert (tgt ++ r1 = (tgt ++ body ++ opt_seg tdbg (i_dbg i')) ++ r) as -> by (rewrite Er at 1; rewrite <- !app_assoc; reflexivity).
  apply span_since_cover. apply body_seg_ne in Hb. destruct tgt; [|discriminate]. cbn [app]. apply cover_app_ne. exact Hb.
Qed.
Lemma instr_in_head i n seg r : instr_in i n seg r -> (exists t q, seg = t :: q /\ fst t <> TNewline) /\ (exists sp q, r = tnl sp :: q).
Proof.
  intros (f & tgt & st & Ht & E & (body & Hb & _ & -> & Hr) & _). split; [|exact Hr].
  rewrite !app_assoc in E. apply app_inv_tail in E. subst seg. destruct (i_target i); cbn in Ht.
  - destruct Ht as (ty & e & ->). do 2 eexists. split; [reflexivity|discriminate].
  - subst. destruct (body_head _ _ _ _ Hb) as (q & ->). do 2 eexists. split; [reflexivity|discriminate].
Qed.
Lemma instr_exact_fw i n seg (r : strm) : instr_in i n seg r -> vw (g_instruction eoi (seg ++ r)) = VOk n i r.
Proof.
  intros H. destruct (instr_in_head _ _ _ _ H) as [(t0 & q0 & Eseg & _) _].
  destruct H as (f & tgt & st & Ht & E & Hr & Hp & Hsp).
  unfold g_instruction. rewrite vw_map_with_span, vw_then.
  destruct (with_parse _ _ _ _ _ _ _ Hr) as (s & Ea).
  assert (vw (g_instr_alternatives eoi st) = VOk n (mkInstr None (i_instr i) (i_refs i) (i_dbg i) s) r) as Eb.
  { apply alternatives_exact. exists f. split; [exact Ea|exact Hp]. }
  assert (vw (p_or_not (p_then_ignore (p_ignore_then (g_type eoi) (g_local_name eoi)) (p_just token_eqb eoi (TPunct (ch "="))))
     (seg ++ r)) = VOk 0 (i_target i) st) as ->.
  { rewrite E, vw_or_not. destruct (i_target i) as [x|]; cbn [target_seg] in Ht.
    - destruct Ht as (ty & e & ->). cbn [app]. rewrite vw_then_ignore, vw_ignore_then, fw_type. cbn [vbind]. rewrite fw_local. cbn [vbind].
      rewrite fw_punct. reflexivity.
    - subst tgt. cbn [app]. destruct Hr as (body & Hb & _ & -> & _). destruct (body_head _ _ _ _ Hb) as (q & ->). reflexivity. }
  cbn [vbind]. rewrite Eb. cbn [vbind i_instr i_refs i_dbg]. rewrite span_since_cover by (rewrite Eseg; discriminate). rewrite <- Hsp.
  destruct i; reflexivity.
Qed.

Notation PI := (p_padded_by (g_instruction eoi) (g_nls eoi)).
Lemma padded_inv (st : strm) n i r : vw (PI st) = VOk n i r ->
  exists pre seg post, newlines pre /\ newlines post /\ post <> [] /\ instr_in i n seg (post ++ r) /\ st = pre ++ seg ++ post ++ r.
Proof.
  intros H. rewrite vw_padded_by in H.
  apply vbind_ok in H as (n1 & a1 & r1 & H1 & H). apply vbind_ok in H as (n2 & a2 & r2 & H2 & H).
  apply vbind_ok in H as (n3 & a3 & r3 & H3 & H). injection H as En <- <-.
  apply inv_nls in H1 as (-> & pre & Hpre & -> & _). apply instr_exact_inv in H2 as (seg & -> & Hs & sp & q & ->).
  apply inv_nls in H3 as (-> & post & Hpost & E & Hx). assert (n2 = n) as -> by lia. exists pre, seg, post.
  split; [exact Hpre|]. split; [exact Hpost|]. rewrite <- E. split; [|split; [exact Hs|reflexivity]].
  intros ->. cbn in E. eapply Hx. symmetry. exact E.
Qed.
Lemma instrs_inv (st : strm) n l r : iter (fun s => vw (PI s)) st n l r ->
  exists seg, instrs_in l n seg r /\ st = seg ++ r.
Proof.
  induction 1 as [st H|st m a r n l r' H _ IH]; [exists []; split; [constructor|reflexivity]|].
  destruct IH as (rest & IH' & ->).
  apply padded_inv in H as (pre & seg & post & H1 & H2 & H3 & H4 & ->).
  exists (pre ++ seg ++ post ++ rest). split; [apply ii_cons; assumption|]. rewrite <- !app_assoc. reflexivity.
Qed.
Lemma instrs_fw l n seg (after : strm) : instrs_in l n seg after -> after_instrs after ->
  iter (fun s => vw (PI s)) (strip (seg ++ after)) n l after.
Proof.
  induction 1 as [|i l n m pre seg post more rest Hpre Hpost Hne Hi Hl IH]; intros Ha.
  - cbn [app]. rewrite after_strip by exact Ha. constructor. apply after_fail. exact Ha.
  - specialize (IH Ha). destruct (instr_in_head _ _ _ _ Hi) as [([t sp] & q & E & Ht) _].
    pose proof (instr_exact_fw _ _ _ _ Hi) as Hw.
    rewrite <- !app_assoc. rewrite strip_nls by exact Hpre. subst seg. cbn [app] in *. rewrite strip_id by exact Ht.
    econstructor; [|exact IH].
    erewrite fw_padded; [|rewrite strip_id by exact Ht; exact Hw].
    f_equal. rewrite strip_nls by exact Hpost. reflexivity.
Qed.

(** blocks *)
Lemma block_inv (st : strm) n b r : vw (g_basic_block eoi st) = VOk n b r -> exists seg, block_in b n seg r /\ st = seg ++ r.
Proof.
  unfold g_basic_block. intros H. pinv.
  match goal with H : vw (g_nls1 _ _) = _ |- _ => apply inv_nls1 in H as (-> & nls & Hn & Hne & -> & _) end.
  match goal with H : vw (p_repeated _ _) = _ |- _ => apply inv_rep0 in H; [|gp]; apply instrs_inv in H as (seg & Hs & ->) end.
  eexists. split; [do 4 eexists; cbn [mk_labelled_bb bb_label bb_label_comma bb_instrs bb_span];
    split; [reflexivity|]; split; [reflexivity|]; split; [exact Hn|]; split; [exact Hne|]; split; [exact Hs|];
    split; [reflexivity|]|].
  - rewrite olast_end. reflexivity.
  - unfold tp. cbn [app]. apps.
Qed.
Lemma blocks_inv (st : strm) n l r : iter (fun s => vw (g_basic_block eoi s)) st n l r ->
  exists seg, blocks_in l n seg r /\ st = seg ++ r.
Proof.
  induction 1 as [st H|st m a r n l r' H _ IH]; [exists []; split; [constructor|reflexivity]|].
  destruct IH as (rest & IH' & ->).
  apply block_inv in H as (seg & H1 & ->).
  exists (seg ++ rest). split; [apply bi_cons; assumption|]. rewrite <- app_assoc. reflexivity.
Qed.
Lemma block_in_after b n seg rest : block_in b n seg rest -> forall r, after_instrs (seg ++ r).
Proof.
  intros (label & comma & nls & more & _ & _ & Hn & Hne & _ & -> & _) r. left.
  destruct nls as [|[t sp] nls]; [congruence|]. inversion Hn; subst. cbn in *. subst t.
  do 4 eexists. reflexivity.
Qed.
Lemma blocks_in_after l n seg c r : blocks_in l n seg (tp (ch "}") c :: r) -> after_instrs (seg ++ tp (ch "}") c :: r).
Proof.
  intros H. inversion H; subst; [right; do 2 eexists; reflexivity|]. rewrite <- app_assoc. eapply block_in_after. eassumption.
Qed.
Lemma block_fw b n seg (after : strm) : block_in b n seg after -> after_instrs after ->
  vw (g_basic_block eoi (seg ++ after)) = VOk n b after.
Proof.
  intros (label & comma & nls & rest & Hl & Hc & Hn & Hne & Hi & -> & Hsp) Ha.
  pose proof (instrs_fw _ _ _ _ Hi Ha) as Hit.
  destruct nls as [|[nl nsp] nls]; [congruence|]. inversion Hn as [|? ? Hnl Hn']; subst. cbn in Hnl. subst nl.
  unfold g_basic_block. cbn [app]. rewrite <- app_assoc. fw. unfold tp. rewrite span_one.
  destruct (fw_nls1 eoi nsp (nls ++ rest ++ after)) as (l & E). unfold tnl in E. rewrite E. cbn [vbind].
  rewrite strip_nls by exact Hn'. erewrite fw_repeated; [|gp|exact Hit]. cbn [vbind]. unfold mk_labelled_bb.
  rewrite olast_end, <- Hsp, ?Nat.add_0_r. destruct b; cbn in *. subst. reflexivity.
Qed.
Lemma blocks_fw l n seg (after : strm) : blocks_in l n seg after -> forall c r, after = tp (ch "}") c :: r ->
  iter (fun s => vw (g_basic_block eoi s)) (seg ++ after) n l after.
Proof.
  induction 1 as [rest|b l n m seg more rest Hb Hl IH]; intros c r ->.
  - constructor. reflexivity.
  - rewrite <- app_assoc. econstructor; [apply block_fw; [exact Hb|]|eapply IH; reflexivity].
    apply (blocks_in_after l m). exact Hl.
Qed.

(** bodies *)
Lemma first_block_inv (st : strm) n o r :
  vw (p_or_not (p_map (p_repeated_at_least 1 PI) mk_initial_bb) st) = VOk n o r ->
  exists seg, first_block_in o n seg r /\ st = seg ++ r.
Proof.
  intros H. apply inv_or_not in H as [(b & -> & H)|(-> & -> & -> & _)].
  - apply inv_map in H as (l & H & ->). apply inv_rep in H as [H Hl]; [|gp].
    apply instrs_inv in H as (seg & Hs & ->). exists seg. split; [|reflexivity].
    cbn [first_block_in mk_initial_bb bb_label bb_label_comma bb_instrs bb_span].
    split; [reflexivity|]. split; [reflexivity|]. split; [exact Hs|].
    destruct l as [|i l]; [cbn in Hl; lia|]. exists i, l. split; [reflexivity|]. f_equal. apply olast_end.
  - exists []. split; [split; reflexivity|reflexivity].
Qed.
Lemma body_inv (st : strm) n b r : vw (g_func_body eoi st) = VOk n b r -> exists seg, fbody_in b n seg r /\ st = seg ++ r.
Proof.
  unfold g_func_body. intros H. pinv.
  match goal with H : vw (g_nls1 _ _) = _ |- _ => apply inv_nls1 in H as (-> & nls & Hn & Hne & -> & _) end.
  match goal with H : vw (p_or_not _ _) = _ |- _ => apply first_block_inv in H as (s1 & Hf & ->) end.
  match goal with H : vw (p_repeated _ _) = _ |- _ => apply inv_rep0 in H; [|gp]; apply blocks_inv in H as (s2 & Hs & ->) end.
  eexists. split; [do 7 eexists; split; [exact Hn|]; split; [exact Hne|]; cbn [fb_blocks fb_open fb_close];
    split; [exact Hf|]; split; [exact Hs|]; split; [reflexivity|]; split; [|reflexivity]; lia|].
  unfold tp. cbn [app]. apps.
Qed.
Lemma body_fw b n seg (r : strm) : fbody_in b n seg r -> vw (g_func_body eoi (seg ++ r)) = VOk n b r.
Proof.
  intros (nls & o & n1 & s1 & bbs & n2 & s2 & Hn & Hne & Ho & Hb & Ebl & -> & ->).
  pose proof (blocks_fw _ _ _ _ Hb _ _ eq_refl) as Hit.
  destruct nls as [|[nl nsp] nls]; [congruence|]. inversion Hn as [|? ? Hnl Hn']; subst. cbn in Hnl. subst nl.
  assert (vw (p_or_not (p_map (p_repeated_at_least 1 PI) mk_initial_bb)
     (strip (s1 ++ s2 ++ tp (ch "}") (fb_close b) :: r))) = VOk n1 o (s2 ++ tp (ch "}") (fb_close b) :: r)) as E.
  { pose proof (blocks_in_after _ _ _ _ _ Hb) as Ha. destruct o as [b0|].
    - destruct Ho as (H1 & H2 & H3 & i & q & H4 & H5). pose proof (instrs_fw _ _ _ _ H3 Ha) as Hi.
      rewrite vw_or_not, vw_map. erewrite fw_rep_at_least; [|gp|exact Hi]. rewrite H4 at 1. cbn [length Nat.ltb Nat.leb vbind].
      f_equal. f_equal. unfold mk_initial_bb. rewrite olast_end. rewrite H4 at 2. cbn iota. rewrite <- H5. destruct b0; cbn in *; subst; reflexivity.
    - destruct Ho as [-> ->]. cbn [app]. rewrite after_strip by exact Ha.
      rewrite vw_or_not, vw_map. erewrite fw_rep_at_least; [|gp|constructor; apply after_fail; exact Ha]. reflexivity. }
  unfold g_func_body. cbn [app]. rewrite <- !app_assoc. cbn [app]. fw. rewrite span_one_tp.
  destruct (fw_nls1 eoi nsp (nls ++ s1 ++ s2 ++ tp (ch "}") (fb_close b) :: r)) as (l & E1). unfold tnl in E1. rewrite E1. cbn [vbind].
  rewrite strip_nls by exact Hn'. rewrite E. cbn [vbind]. erewrite fw_repeated; [|gp|exact Hit]. cbn [vbind].
  fw. rewrite span_one_tp. rewrite <- Ebl, ?Nat.add_0_r. destruct b; reflexivity.
Qed.

(** statements *)
Lemma or_last_fail {A} (p q : parser (I:=token) A) st v : vw (q st) = VFail -> vw (p st) = v -> vw (p_or p q st) = v.
Proof.
  intros Hq <-. destruct (vw (p st)) as [[|n] a r| |] eqn:E; [exact (vw_or_ok _ _ _ _ _ E)|exact (vw_or_err_fail _ _ _ _ _ _ E Hq)|rewrite vw_or_fail by exact E; exact Hq|exact (vw_or_panic _ _ _ E)].
Qed.
Lemma stmt_inv (st : strm) n s r : vw (g_stmt_alternatives eoi st) = VOk n s r -> exists seg, stmt_in s n seg r /\ st = seg ++ r.
Proof.
  unfold g_stmt_alternatives. intros H.
  assert (vw (g_func_def eoi st) = VOk n s r \/ (exists seg, stmt_seg any_form s n seg r /\ st = seg ++ r /\ forall kw sig body, s <> SFuncDef kw sig body)) as [Hd|(seg & Hs & -> & Hne)].
  { do 4 (match type of H with vw (p_or ?p ?q ?s) = _ => destruct (vw_or_inv p q s) as [E|E] end; rewrite E in H; clear E;
      [|first [left; exact H
              |right; pose proof H as H'; first [apply inv_dbg_annotation in H|apply inv_func_deps in H|apply inv_func_decl in H];
               destruct H as (seg & Hs & Es); exists seg; split; [exact Hs|]; split; [exact Es|]; intros kw sig body; apply inv_map in H' as (x & _ & ->);
               repeat match goal with p : (_ * _)%type |- _ => destruct p end; discriminate]]).
    right; pose proof H as H'; apply inv_global_var in H; destruct H as (seg & Hs & Es); exists seg; split; [exact Hs|]; split; [exact Es|]; intros kw sig body; apply inv_map in H' as (x & _ & ->);
               repeat match goal with p : (_ * _)%type |- _ => destruct p end; discriminate. }
  - unfold g_func_def in Hd. pinv.
    match goal with H : vw (g_func_signature _ _) = _ |- _ => apply inv_signature in H as (-> & sseg & Hs & ->) end.
    match goal with H : vw (g_func_body _ _) = VOk ?n _ _ |- _ => apply body_inv in H as (bseg & Hb & ->) end.
    eexists. split; [cbn [stmt_in]; rewrite ?Nat.add_0_r; do 3 eexists; split; [exact Hs|]; split; [exact Hb|]; split; [eassumption|reflexivity]|].
    cbn [app]. apps.
  - exists seg. split; [|reflexivity]. destruct s; try (inversion Hs; subst; split; [reflexivity|exact Hs]). exfalso. eapply Hne. reflexivity.
Qed.
Lemma stmt_fw s n seg (r : strm) : stmt_in s n seg r -> vw (g_stmt_alternatives eoi (seg ++ r)) = VOk n s r.
Proof.
  intros H. destruct s as [| | kw sig body | |]; try (destruct H as [-> H]; refine (proj2 (fw_stmt_alternatives eoi _ _ _ _ (any_seg _ _ _ H _))); intros; discriminate).
  destruct H as (sseg & bseg & e & Hs & Hb & He & ->). unfold g_stmt_alternatives.
  cut (vw (g_func_def eoi (((TDefine, kw) :: sseg ++ bseg ++ e) ++ r)) = VOk n (SFuncDef kw sig body) r).
  { intros E. rewrite <- E. apply or_last_fail; [reflexivity|]. apply or_last_fail; [reflexivity|].
    rewrite vw_or_fail by (rewrite vw_or_fail by reflexivity; reflexivity). reflexivity. }
  unfold g_func_def. cbn [app]. rewrite <- !app_assoc. fw. rewrite fw_just. cbn [vbind]. rewrite span_one.
  rewrite (fw_signature eoi sig sseg) by assumption. cbn [vbind]. rewrite (body_fw _ _ _ _ Hb). cbn [vbind].
  destruct (fw_eol eoi _ _ He) as (y & ->). cbn [vbind]. rewrite ?Nat.add_0_r. reflexivity.
Qed.
Lemma stmt_in_head s n seg r : stmt_in s n seg r -> exists t q, seg = t :: q /\ fst t <> TNewline.
Proof.
  intros H. destruct s as [| | kw sig body | |]; try exact (stmt_head _ _ _ _ _ (proj2 H)).
  destruct H as (sseg & bseg & e & _ & _ & _ & ->). do 2 eexists. split; [reflexivity|discriminate].
Qed.
Notation G := (g_statement eoi).
Lemma next_exact (st : strm) n s r : vw (G st) = VOk n s r <-> next st s n r.
Proof.
  unfold g_statement. fold (g_stmt_alternatives eoi). split.
  - intros H. rewrite vw_padded_by in H.
    apply vbind_ok in H as (n1 & a1 & r1 & H1 & H). apply vbind_ok in H as (n2 & a2 & r2 & H2 & H).
    apply vbind_ok in H as (n3 & a3 & r3 & H3 & H). injection H as En <- <-.
    apply inv_nls in H1 as (-> & pre & Hpre & -> & _). apply stmt_inv in H2 as (seg & Hs & ->).
    apply inv_nls in H3 as (-> & post & Hpost & -> & Hx). assert (n2 = n) as -> by lia. exists pre, seg, post. auto.
  - intros (pre & seg & post & Hpre & Hpost & Hl & H & ->). pose proof (stmt_fw _ _ _ _ H) as E.
    assert (Hr : strip r = r).
    { destruct r as [|[t' sp'] r]; [reflexivity|]. destruct (token_eqb_spec t' TNewline) as [->|Hn]; [exfalso; exact (Hl sp' r eq_refl)|]. apply strip_id. exact Hn. }
    destruct (stmt_in_head _ _ _ _ H) as ([t sp] & q & -> & Ht). erewrite fw_padded; cycle 1.
    + rewrite strip_nls by exact Hpre. cbn [app]. rewrite strip_id by exact Ht. exact E.
    + rewrite strip_nls by exact Hpost. rewrite Hr. reflexivity.
Qed.
Lemma unreadable_exact (st : strm) : vw (G st) = VFail <-> unreadable st.
Proof.
  destruct (s_statement eoi) as [_ Hp]. split.
  - intros H s n rest Hn. apply next_exact in Hn. congruence.
  - intros H. destruct (vw (G st)) as [n s r| |] eqn:E; [|reflexivity|exfalso; exact (Hp st E)]. exfalso. apply next_exact in E. exact (H _ _ _ E).
Qed.
Notation R := (p_recover (g_statement eoi)).
Lemma recover_fail (st : strm) : vw (G st) = VFail -> vw (R st) = vadd 1 (vretry (fun s => vw (G s)) (tl st)).
Proof.
  intros H. unfold p_recover. destruct (G st) as [|es e|]; try discriminate. rewrite <- (vw_retry (G) es e). destruct st; reflexivity.
Qed.
Lemma recover_view (st : strm) : vw (G st) = VFail -> exists v, vretry (fun s => vw (G s)) (tl st) = v /\ vw (R st) = vadd 1 v.
Proof. intros H. eexists. split; [reflexivity|]. exact (recover_fail _ H). Qed.
Definition outcome (l : list statement) (r : strm) : option (list statement) := match r with [] => Some l | _ => None end.
Definition cost (n : nat) (r : strm) : nat := match r with [] => n | _ => n + 1 end.
Lemma chain_salvage (st : strm) n l r : chain eoi st n l r -> salvage st (outcome l r) (cost n r).
Proof.
  unfold chain. induction 1 as [st H|st m s r n l r' H _ IH].
  - destruct st as [|t st]; [constructor|]. cbn [outcome cost]. destruct (vw (G (t :: st))) as [| |] eqn:E.
    + rewrite (vw_recover_ok _ _ _ _ _ E) in H. discriminate.
    + destruct (recover_view _ E) as (v & F & E'). rewrite E' in H. destruct v; try discriminate. cbn [tl] in F. apply sv_lost; [discriminate|]. intros g q Eq. apply unreadable_exact.
      destruct g as [|y g]; [cbn in Eq; subst q; exact E|]. injection Eq as <- Eq. exact (retry_fail _ _ F g q Eq).
    + rewrite (vw_recover_panic _ _ E) in H. discriminate.
  - assert (outcome (s :: l) r' = option_map (cons s) (outcome l r')) as -> by (destruct r'; reflexivity).
    assert (cost (m + n) r' = m + cost n r') as -> by (destruct r'; cbn; lia). destruct (vw (G st)) as [m' s' q| |] eqn:E.
    + rewrite (vw_recover_ok _ _ _ _ _ E) in H. injection H as -> -> ->. apply sv_next with r; [exact (proj1 (next_exact _ _ _ _) E)|exact IH].
    + destruct (recover_view _ E) as (v & F & E'). rewrite E' in H. destruct v as [m' s' q| |]; try discriminate. cbn in H. injection H as <- -> ->.
      destruct st as [|t st]; [exfalso; cbn [tl] in F; apply retry_ok in F as ([|] & st' & E2 & F & _); [cbn in E2; subst st'; pose proof (eq_trans (eq_sym F) E); discriminate|discriminate]|]. cbn [tl] in F. apply retry_ok in F as (g & st' & -> & F & K).
      change (t :: g ++ st') with ((t :: g) ++ st'). change (S m') with (1 + m'). apply sv_skip with r; [discriminate| |exact (proj1 (next_exact _ _ _ _) F)|exact IH].
      intros g1 g2 Eg Hn. apply unreadable_exact. destruct g1 as [|y g1]; [cbn in Eg; subst g2; exact E|]. injection Eg as <- Eg. exact (K g1 g2 Eg Hn).
    + rewrite (vw_recover_panic _ _ E) in H. discriminate.
Qed.

Lemma retry_all (st : strm) : (forall g r, st = g ++ r -> unreadable r) -> vretry (fun s => vw (G s)) st = VFail.
Proof.
  induction st as [|x st IH]; intros H; cbn [vretry].
  - rewrite (proj2 (unreadable_exact []) (H [] [] eq_refl)). reflexivity.
  - rewrite (proj2 (unreadable_exact _) (H [] _ eq_refl)). apply IH. intros g r E. apply (H (x :: g) r). rewrite E. reflexivity.
Qed.
Lemma retry_past (g st : strm) n s r : (forall g1 g2, g = g1 ++ g2 -> g2 <> [] -> unreadable (g2 ++ st)) -> vw (G st) = VOk n s r ->
  vretry (fun q => vw (G q)) (g ++ st) = VOk n s r.
Proof.
  induction g as [|x g IH]; intros H E; cbn [app vretry].
  - destruct st; cbn [vretry]; rewrite E; reflexivity.
  - change (x :: g ++ st) with ((x :: g) ++ st). rewrite (proj2 (unreadable_exact _) (H [] (x :: g) eq_refl ltac:(discriminate))). cbn [app]. apply IH; [|exact E].
    intros g1 g2 Eg. apply (H (x :: g1) g2). rewrite Eg. reflexivity.
Qed.
Lemma salvage_chain (st : strm) o k : salvage st o k -> exists n l r, chain eoi st n l r /\ o = outcome l r /\ k = cost n r.
Proof.
  intros H. unfold chain. induction H as [|st s n rest o m Hx Hs IH|g st s n rest o m Hg Hu Hx Hs IH|st Hne Hu].
  - exists 0, [], []. split; [constructor; reflexivity|auto].
  - destruct IH as (n' & l & r & H & -> & ->).
    exists (n + n'), (s :: l), r. split; [econstructor; [apply vw_recover_ok; exact (proj2 (next_exact _ _ _ _) Hx)|exact H]|]. split; [destruct r; reflexivity|destruct r; cbn; lia].
  - destruct IH as (n' & l & r & H & -> & ->).
    exists (1 + n + n'), (s :: l), r. split; [|split; [destruct r; reflexivity|destruct r; cbn; lia]]. econstructor; [|exact H].
    destruct g as [|x g]; [congruence|]. rewrite (recover_fail ((x :: g) ++ st)) by (apply unreadable_exact; exact (Hu [] (x :: g) eq_refl Hg)). cbn [app tl].
    rewrite (retry_past g st n s rest); [reflexivity| |exact (proj2 (next_exact _ _ _ _) Hx)]. intros g1 g2 E. apply (Hu (x :: g1) g2). rewrite E. reflexivity.
  - exists 0, [], st. destruct st as [|x st]; [congruence|]. split; [|auto]. constructor. rewrite (recover_fail (x :: st)) by (apply unreadable_exact; exact (Hu [] _ eq_refl)). cbn [tl].
    rewrite retry_all; [reflexivity|]. intros g r E. apply (Hu (x :: g) r). rewrite E. reflexivity.
Qed.
Lemma module_counts (st : strm) : exists n l r, chain eoi st n l r /\
  match g_module eoi st with POk es l' _ _ => r = [] /\ l' = l /\ length es = n | PErr es e => r <> [] /\ length es = n | PPanic => False end.
Proof.
  destruct (s_stmt_recover eoi) as [Hc Hn]. destruct (iter_exists (fun s => vw (R s)) Hc Hn (length st) st (le_n _)) as (n & l & r & H).
  exists n, l, r. split; [exact H|]. unfold g_module, p_then_ignore, p_map, p_then. pose proof (vw_repeated0 _ _ _ _ _ Hc H) as E. apply vw_ok in E as (es & alt & -> & En).
  destruct r as [|t r]; cbn.
  - rewrite app_nil_r. auto.
  - rewrite app_nil_r. split; [discriminate|exact En].
Qed.
End S.

Lemma parse_salvages src toks : exists o errs, parse_tokens src toks = Val (o, errs) /\ salvage (without_comments toks) o (length errs).
Proof.
  unfold parse_tokens, parse_recovery. cbv zeta. rewrite (filter_ext not_comment (fun t => match fst t with TComment => false | _ => true end)) by (intros [[] ?]; reflexivity).
  fold (without_comments toks). destruct (module_counts (mkSpan (byte_len src) (byte_len src + 1)) (without_comments toks)) as (n & l & r & H & K).
  apply chain_salvage in H. destruct (g_module _ _) as [es l' alt r'|es e|]; [| |contradiction].
  - destruct K as (-> & -> & <-). eexists _, _. split; [reflexivity|]. rewrite map_length. exact H.
  - destruct K as (Hr & <-). eexists _, _. split; [reflexivity|]. rewrite map_length, app_length. destruct r; [congruence|]. exact H.
Qed.
Lemma salvage_unique st o n o' n' : salvage st o n -> salvage st o' n' -> o = o' /\ n = n'.
Proof.
  intros H H'. destruct (salvage_chain (mkSpan 0 0) _ _ _ H) as (m & l & r & C & -> & ->). destruct (salvage_chain (mkSpan 0 0) _ _ _ H') as (m' & l' & r' & C' & -> & ->).
  destruct (iter_det _ _ _ _ _ C _ _ _ C') as (-> & -> & ->). auto.
Qed.
Lemma parse_salvage src toks o n : (exists errs, parse_tokens src toks = Val (o, errs) /\ length errs = n) <-> salvage (without_comments toks) o n.
Proof.
  destruct (parse_salvages src toks) as (o' & errs & E & H). split.
  - intros (errs' & E' & <-). rewrite E in E'. injection E' as <- <-. exact H.
  - intros H'. destruct (salvage_unique _ _ _ _ _ H H') as [-> <-]. eauto.
Qed.
Lemma salvage_total toks : exists o n, salvage toks o n.
Proof.
  destruct (module_counts (mkSpan 0 0) toks) as (n & l & r & H & _). apply chain_salvage in H. eauto.
Qed.
Lemma salvage_clean toks ss : salvage (without_comments toks) (Some ss) 0 <-> module_at ss (without_comments toks).
Proof.
  rewrite <- (parse_salvage []), <- (parse_exact []). split; [|eauto]. intros (errs & E & Hn). apply length_zero_iff_nil in Hn. subst errs. exact E.
Qed.
Lemma document_salvage u src pr : parse_from_str u src = Val pr ->
  exists toks lerrs, tokenize u src = Val (toks, lerrs) /\
    match toks with
    | Some ts => exists o n, salvage (without_comments ts) o n /\ pr_stmts pr = match o with Some ss => ss | None => [] end /\
        length (pr_errors pr) = length lerrs + n
    | None => pr_stmts pr = [] /\ length (pr_errors pr) = length lerrs
    end.
Proof.
  unfold parse_from_str. intros H. destruct (tokenize u src) as [[toks lerrs]|] eqn:T; [|discriminate]. cbn [rbind] in H. exists toks, lerrs. split; [reflexivity|].
  destruct toks as [ts|].
  - destruct (parse_salvages src ts) as (o & errs & E & S). rewrite E in H. cbn [rbind] in H. injection H as <-. exists o, (length errs). split; [exact S|].
    split; [reflexivity|]. cbn [pr_errors]. rewrite app_length, !map_length. reflexivity.
  - cbn [rbind] in H. injection H as <-. split; [reflexivity|]. cbn [pr_errors]. rewrite app_length, !map_length. cbn. lia.
Qed.

(** never more errors than tokens *)
Lemma instr_few i n seg r : instr_in i n seg r -> n <= length seg.
Proof.
  intros H. destruct (instr_in_head _ _ _ _ H) as [(t & q & -> & _) _]. destruct H as (f & tgt & st & _ & _ & Hr & _). apply reads_few in Hr. cbn. lia.
Qed.
Lemma instrs_few l n seg r : instrs_in l n seg r -> n <= length seg.
Proof. induction 1 as [|i l n m pre seg post more rest _ _ _ Hi _ IH]; [cbn; lia|]. apply instr_few in Hi. rewrite !app_length. lia. Qed.
Lemma block_few b n seg r : block_in b n seg r -> n <= length seg.
Proof. intros (lb & c & nls & more & _ & _ & _ & _ & H & -> & _). apply instrs_few in H. cbn. rewrite app_length. lia. Qed.
Lemma blocks_few l n seg r : blocks_in l n seg r -> n <= length seg.
Proof. induction 1 as [|b l n m seg more rest Hb _ IH]; [cbn; lia|]. apply block_few in Hb. rewrite app_length. lia. Qed.
Lemma stmt_few s n seg r : stmt_in s n seg r -> n <= length seg.
Proof.
  intros H. destruct s as [| |kw sig body| |]; try (destruct H as [-> _]; lia). destruct H as (sseg & bseg & e & _ & (nls & o & n1 & s1 & bbs & n2 & s2 & _ & _ & H1 & H2 & _ & -> & ->) & _ & ->).
  apply blocks_few in H2. assert (n1 <= length s1) by (destruct o as [b|]; [destruct H1 as (_ & _ & H1 & _); exact (instrs_few _ _ _ _ H1)|destruct H1 as [-> ->]; lia]).
  cbn. rewrite !app_length. cbn. rewrite !app_length. lia.
Qed.
Lemma next_few st s n r : next st s n r -> n + length r <= length st.
Proof. intros (pre & seg & post & _ & _ & _ & H & ->). apply stmt_few in H. rewrite !app_length. lia. Qed.
Lemma salvage_few toks o n : salvage toks o n -> n <= length toks.
Proof.
  induction 1 as [|st s n rest o m H _ IH|g st s n rest o m Hg _ H _ IH|st Hne _]; [cbn; lia| | |destruct st; [congruence|cbn; lia]]; apply next_few in H.
  - lia.
  - rewrite app_length. destruct g; [congruence|]. cbn. lia.
Qed.
Lemma parse_few src toks o errs : parse_tokens src toks = Val (o, errs) -> length errs <= length (without_comments toks).
Proof. intros H. apply salvage_few with o. apply (parse_salvage src). eauto. Qed.
