(** Control flow graphs and incoming-branch hints. *)
From Verif Require Import Text Rope Chumsky Tokenizer Parser Numbers Index SemTok Diag Rename Cfg Backtrace Server SpecText SpecLex SpecParse SpecIndex SpecDiag SpecCfg
  PText PRope PLexSpec PLexProps PTokens PParse PParseProps PIndex PIndexDoc PIndexText PDiag PDiagDoc.

(** ** Statements of a parsed document *)
Lemma module_stmt_in ok ss n toks s : module_seg ok ss n toks -> In s ss ->
  exists k seg rest, stmt_seg ok s k seg rest.
Proof. induction 1; intros Hin; [contradiction| |]; (destruct Hin as [<-|Hin]; eauto). Qed.
Definition labelled_alike (bb : basic_block) : Prop :=
  (bb_label bb = None /\ bb_label_comma bb = None) \/ exists l c, bb_label bb = Some l /\ bb_label_comma bb = Some c.
Lemma def_labels u src pr kw sig body : parse_from_str u src = Val pr -> In (SFuncDef kw sig body) (pr_stmts pr) ->
  Forall labelled_alike (fb_blocks body).
Proof.
  intros H Hin. apply parse_from_str_module in H as [_ [E|[n Hm]]]; [rewrite E in Hin; contradiction|].
  destruct (module_stmt_in _ _ _ _ _ Hm Hin) as (k & seg & rest & Hs). inversion Hs as [| |kw' sig' sseg body' n' bseg e' rest' Hsig Hb He| |]; subst.
  destruct Hb as (nls & o & n1 & seg1 & bbs & n2 & seg2 & _ & _ & Ho & Hbs & -> & _ & _).
  assert (Forall labelled_alike bbs) as Hl.
  { clear - Hbs. induction Hbs as [|b l n m seg rest Hb _ IH]; constructor; [|exact IH].
    destruct Hb as (label & comma & _ & _ & E1 & E2 & _). right. eauto. }
  destruct o as [b|]; [|exact Hl]. constructor; [|exact Hl]. destruct Ho as (E1 & E2 & _). left. auto.
Qed.

(** ** Names in the tree *)
Lemma token_lexeme u src pr t sp : parse_from_str u src = Val pr -> In (t, sp) (pr_tokens pr) -> exists w, lexeme u t w.
Proof.
  intros H Hin. apply parse_from_str_cases in H as [(errs & E & Ep & _)|(toks' & errs & E & Ep & _)]; [rewrite Ep in Hin; contradiction|].
  rewrite Ep in Hin. apply tokenize_lexes in E.
  destruct (lexes_texts_errors _ _ _ _ _ E [] eq_refl _ _ Hin) as (g & w & _ & E2). eauto.
Qed.
Lemma name_char_plain u c : name_char u c \/ c = ch ":" \/ In c (str "@%!") -> c <> DQUOTE /\ c <> LF.
Proof.
  intros H. split; intros ->; (destruct H as [[H|[H|H]]|[H|H]]; [discriminate H|discriminate H|discriminate H|discriminate H|]);
    cbn in H; repeat (destruct H as [H|H]; [discriminate H|]); exact H.
Qed.
Lemma name_lexeme_chars u t w n : lexeme u t w -> token_name t = Some n ->
  forall c, In c n -> name_char u c \/ c = ch ":" \/ In c (str "@%!").
Proof.
  intros H E. pose proof (lexeme_name _ _ _ _ H E) as <-.
  assert (forall w c, name_tail u w -> In c w -> name_char u c \/ c = ch ":" \/ In c (str "@%!")) as Ht.
  { intros x c [Hx _] Hc. destruct (Hx c Hc); auto. }
  intros c Hc. destruct H; try discriminate E.
  - destruct Hc as [<-|Hc]; [|eauto]. left. destruct H as [H|H]; [left|right; right]; exact H.
  - destruct Hc as [<-|Hc]; [|eauto]. right. right. cbn. auto.
  - destruct Hc as [<-|Hc]; [|eauto]. right. right. cbn. auto.
  - destruct Hc as [<-|Hc]; [|eauto]. right. right. cbn. auto.
Qed.
Lemma token_plain u src pr t sp n : parse_from_str u src = Val pr -> In (t, sp) (pr_tokens pr) -> token_name t = Some n -> plain_name n.
Proof.
  intros H Hin E. destruct (token_lexeme _ _ _ _ _ H Hin) as (w & Hw).
  split; intros Hc; apply (name_lexeme_chars _ _ _ _ Hw E) in Hc; apply name_char_plain in Hc; tauto.
Qed.

(** ** The functions of an index *)
Lemma function_body_at u src pr ix id fb : indexed u src pr ix -> nth_error (function_bodies ix) id = Some fb ->
  exists kw sig body, In (SFuncDef kw sig body) (pr_stmts pr) /\ nth_error (function_defs (pr_stmts pr)) id = Some (sig, body) /\ fb_name fb = fs_name sig /\ basic_blocks fb = fb_blocks body /\ complete_range fb = mkSpan (sp_start kw) (sp_end (fb_close body)).
Proof.
  intros H Hid. apply indexed_ok in H as ([_ _ _ _ H1 H2 H3 _ _ _] & _).
  apply (map_nth_error fb_name) in Hid as E1. apply (map_nth_error complete_range) in Hid as E2. apply (map_nth_error basic_blocks) in Hid as E3.
  rewrite H1 in E1. rewrite H2 in E2. rewrite H3 in E3. clear H1 H2 H3 Hid. revert id E1 E2 E3.
  induction (pr_stmts pr) as [|s ss IH]; intros id E1 E2 E3; [destruct id; discriminate|].
  destruct s; try (destruct (IH id E1 E2 E3) as (kw0 & sig0 & body0 & Hin & G); exists kw0, sig0, body0; split; [right; exact Hin|exact G]).
  destruct id as [|id].
  - cbn in E1, E2, E3. injection E1 as E1. injection E2 as E2. injection E3 as E3. do 3 eexists. split; [left; reflexivity|].
    split; [reflexivity|]. auto.
  - destruct (IH id E1 E2 E3) as (kw0 & sig0 & body0 & Hin & G). exists kw0, sig0, body0. split; [right; exact Hin|exact G].
Qed.
Lemma in_stmt_tokens s ss : In s ss -> forall t, In t (stmt_tokens s) -> In t (flat_map stmt_tokens ss).
Proof. intros H t Ht. apply in_flat_map. eauto. Qed.
Lemma tree_token_in u src pr s t : parse_from_str u src = Val pr -> In s (pr_stmts pr) -> In t (stmt_tokens s) -> In t (pr_tokens pr).
Proof. intros H Hs Ht. eapply subseq_in; [exact (provenance _ _ _ H)|]. eapply in_stmt_tokens; eassumption. Qed.
Lemma block_tokens_in kw sig body bb t : In bb (fb_blocks body) -> In t (bb_tokens bb) -> In t (stmt_tokens (SFuncDef kw sig body)).
Proof.
  intros Hb Ht. cbn [stmt_tokens]. right. apply in_or_app. right. apply in_or_app. right. apply in_or_app. left. apply in_flat_map. eauto.
Qed.
Lemma instr_tokens_in bb i t : In i (bb_instrs bb) -> In t (instr_tokens i) -> In t (bb_tokens bb).
Proof. intros Hi Ht. unfold bb_tokens. apply in_or_app. right. apply in_or_app. right. apply in_flat_map. eauto. Qed.

Section Function.
Variables (u : uclass) (src : text) (pr : parser_result) (ix : hir_index) (fb : function_body).
Hypothesis Hix : indexed u src pr ix.
Hypothesis Hfb : In fb (function_bodies ix).
Lemma fb_stmt : exists kw sig body, In (SFuncDef kw sig body) (pr_stmts pr) /\ fb_name fb = fs_name sig /\ basic_blocks fb = fb_blocks body /\ complete_range fb = mkSpan (sp_start kw) (sp_end (fb_close body)).
Proof.
  apply In_nth_error in Hfb as [id Hid]. destruct (function_body_at _ _ _ _ _ _ Hix Hid) as (kw & sig & body & H1 & _ & H2 & H3 & H4).
  exists kw, sig, body. auto.
Qed.
Lemma fb_name_plain : plain_name (fst (fb_name fb)).
Proof.
  destruct fb_stmt as (kw & sig & body & Hin & E & _). rewrite E. destruct Hix as [Hp _].
  apply (token_plain _ _ _ (TGlobalName (fst (fs_name sig))) (snd (fs_name sig)) _ Hp); [|reflexivity].
  eapply tree_token_in; [exact Hp|exact Hin|]. cbn [stmt_tokens]. right. apply in_or_app. left. unfold sig_tokens. apply in_or_app. right. right. left. reflexivity.
Qed.
Lemma fb_label_plain bb l : In bb (basic_blocks fb) -> bb_label bb = Some l -> plain_name (fst l).
Proof.
  destruct fb_stmt as (kw & sig & body & Hin & _ & E & _). rewrite E. intros Hb El. destruct Hix as [Hp _].
  apply (token_plain _ _ _ (TIdent (fst l)) (snd l) _ Hp); [|reflexivity].
  eapply tree_token_in; [exact Hp|exact Hin|]. eapply block_tokens_in; [exact Hb|]. unfold bb_tokens. rewrite El. left. reflexivity.
Qed.
Lemma fb_ref_plain bb i r : In bb (basic_blocks fb) -> In i (bb_instrs bb) -> In r (i_refs i) -> plain_name (fst r).
Proof.
  destruct fb_stmt as (kw & sig & body & Hin & _ & E & _). rewrite E. intros Hb Hi Hr. destruct Hix as [Hp _].
  apply (token_plain _ _ _ (TIdent (fst r)) (snd r) _ Hp); [|reflexivity].
  eapply tree_token_in; [exact Hp|exact Hin|]. eapply block_tokens_in; [exact Hb|]. eapply instr_tokens_in; [exact Hi|].
  unfold instr_tokens. apply in_or_app. right. apply in_or_app. right. apply in_or_app. left. apply (in_map tident) in Hr. exact Hr.
Qed.
End Function.

(** ** Edges *)
Lemma branching_iff i : is_branching i = true <-> branch i.
Proof.
  unfold is_branching, branch, mnemonic. rewrite orb_true_iff, ends_with_spec.
  destruct (text_eqb_spec (fst (i_instr i)) (str "switch")); intuition congruence.
Qed.
Lemma in_cfg_edges blocks a b : In (a, b) (cfg_edges blocks) <-> cfg_edge blocks a b.
Proof.
  unfold cfg_edges, bb_edges. rewrite in_flat_map. split.
  - intros (bb & Hb & H). apply in_flat_map in H as (i & Hi & H). destruct (bb_label bb) as [l|] eqn:El; [|contradiction].
    destruct (is_branching i) eqn:Ei; [|contradiction]. apply in_map_iff in H as (r & Er & Hr). inversion Er; subst.
    exists l. split; [reflexivity|]. exists bb, i, r. apply branching_iff in Ei. auto 8.
  - intros (l & <- & bb & i & r & Hb & El & Hi & Hbr & Hr & <-). exists bb. split; [exact Hb|]. apply in_flat_map. exists i. split; [exact Hi|].
    rewrite El. apply branching_iff in Hbr. rewrite Hbr. apply (in_map (fun t : spanned => (fst l, fst t))) in Hr. exact Hr.
Qed.

(** ** The text *)
Lemma escape_plain x : ~ In DQUOTE x -> escape_dot_label x = quote x.
Proof.
  intros H. unfold escape_dot_label, quote. cbn [app]. f_equal. f_equal. induction x as [|c x IH]; [reflexivity|].
  cbn [flat_map]. destruct (N.eqb_spec c DQUOTE) as [->|]; [exfalso; apply H; left; reflexivity|]. cbn [app]. f_equal. apply IH. intros Hx. apply H. right. exact Hx.
Qed.
Definition with_lf (ls : list text) : text := flat_map (fun l => l ++ [LF]) ls.
Lemma lf_split a b x y : ~ In LF a -> ~ In LF b -> a ++ LF :: x = b ++ LF :: y -> a = b /\ x = y.
Proof.
  revert b. induction a as [|c a IH]; intros [|d b] Ha Hb E; cbn in E.
  - injection E as E. auto.
  - injection E as <- _. exfalso. apply Hb. left. reflexivity.
  - injection E as -> _. exfalso. apply Ha. left. reflexivity.
  - injection E as <- E. apply IH in E as [-> ->]; [auto|intros H; apply Ha; right; exact H|intros H; apply Hb; right; exact H].
Qed.
Lemma is_line_iff ls x : Forall (fun l => ~ In LF l) ls -> is_line (with_lf ls) x <-> In x ls.
Proof.
  intros Hl. split.
  - intros (Hx & pre & post & E & Hpre). revert pre E Hpre. induction Hl as [|l ls Hl0 Hl IH]; intros pre E Hpre.
    + exfalso. cbn in E. destruct pre; [destruct x|]; discriminate E.
    + cbn [with_lf flat_map] in E. rewrite <- app_assoc in E. destruct Hpre as [->|[p ->]].
      * cbn [app] in E. apply lf_split in E as [-> _]; [left; reflexivity|exact Hl0|exact Hx].
      * right. rewrite <- !app_assoc in E. cbn [app] in E.
        destruct (in_dec N.eq_dec LF p) as [Hp|Hp].
        -- apply in_split in Hp as (p1 & p2 & Hp'). assert (exists q1 q2, p = q1 ++ LF :: q2 /\ ~ In LF q1) as (q1 & q2 & -> & Hq).
           { clear - Hp'. subst p. induction p1 as [|c p1 IH]; [exists [], p2; split; [reflexivity|intros []]|].
             destruct (N.eq_dec c LF) as [->|Hc]; [exists [], (p1 ++ LF :: p2); split; [reflexivity|intros []]|].
             destruct IH as (q1 & q2 & E & Hq). exists (c :: q1), q2. cbn [app]. rewrite E. split; [reflexivity|]. intros [H|H]; [congruence|exact (Hq H)]. }
           rewrite <- app_assoc in E. cbn [app] in E. apply lf_split in E as [_ E]; [|exact Hl0|exact Hq].
           apply (IH (q2 ++ [LF])); [|right; eauto]. rewrite <- app_assoc. exact E.
        -- apply lf_split in E as [_ E]; [|exact Hl0|exact Hp]. apply (IH []); [exact E|left; reflexivity].
  - intros Hin. split; [rewrite Forall_forall in Hl; apply Hl; exact Hin|]. apply in_split in Hin as (l1 & l2 & ->).
    exists (with_lf l1), (with_lf l2). unfold with_lf. rewrite flat_map_app. cbn [flat_map]. rewrite <- !app_assoc. split; [reflexivity|].
    destruct l1 as [|a l1 _] using rev_ind; [left; reflexivity|]. right. rewrite flat_map_app. cbn [flat_map]. rewrite app_nil_r, app_assoc. eauto.
Qed.
Lemma dquote_split a b x y : ~ In DQUOTE a -> ~ In DQUOTE b -> a ++ DQUOTE :: x = b ++ DQUOTE :: y -> a = b /\ x = y.
Proof.
  revert b. induction a as [|c a IH]; intros [|d b] Ha Hb E; cbn in E.
  - injection E as E. auto.
  - injection E as <- _. exfalso. apply Hb. left. reflexivity.
  - injection E as -> _. exfalso. apply Ha. left. reflexivity.
  - injection E as <- E. apply IH in E as [-> ->]; [auto|intros H; apply Ha; right; exact H|intros H; apply Hb; right; exact H].
Qed.
Lemma dot_edge_eq a b : dot_edge a b = str "  " ++ [DQUOTE] ++ a ++ DQUOTE :: (str " -> " ++ [DQUOTE] ++ b ++ DQUOTE :: []).
Proof. unfold dot_edge, quote. rewrite <- !app_comm_cons, <- !app_assoc. reflexivity. Qed.
Lemma dot_edge_inj a b a' b' : plain_name a -> plain_name b -> plain_name a' -> plain_name b' -> dot_edge a b = dot_edge a' b' -> a = a' /\ b = b'.
Proof.
  intros [Ha _] [Hb _] [Ha' _] [Hb' _] E. rewrite !dot_edge_eq in E. apply app_inv_head in E. apply app_inv_head in E.
  apply dquote_split in E as [-> E]; [|assumption|assumption]. apply app_inv_head in E. apply app_inv_head in E.
  apply dquote_split in E as [-> _]; auto.
Qed.
Lemma dot_edge_no_lf a b : plain_name a -> plain_name b -> ~ In LF (dot_edge a b).
Proof.
  intros [_ Ha] [_ Hb]. unfold dot_edge, quote. intros H. rewrite !in_app_iff in H. cbn [In] in H. rewrite !in_app_iff in H.
  destruct H as [H|[[H|[H|H]]|[H|[H|[H|H]]]]]; try contradiction; try discriminate H;
  cbn in H; repeat (destruct H as [H|H]; [discriminate H|]); exact H.
Qed.
Lemma dot_frame_not_edge name a b : ~ In (dot_edge a b) (dot_frame name).
Proof. unfold dot_frame, dot_edge, quote. intros H. cbn [In] in H. repeat (destruct H as [H|H]; [discriminate H|]). exact H. Qed.

Section Dot.
Variables (u : uclass) (src : text) (pr : parser_result) (ix : hir_index) (fb : function_body).
Hypothesis Hix : indexed u src pr ix.
Hypothesis Hfb : In fb (function_bodies ix).
Lemma edge_names_plain a b : cfg_edge (basic_blocks fb) a b -> plain_name a /\ plain_name b.
Proof.
  intros (l & <- & bb & i & r & Hb & El & Hi & _ & Hr & <-).
  split; [eapply fb_label_plain; eassumption|eapply fb_ref_plain; eassumption].
Qed.
Definition dot_lines : list text :=
  firstn 4 (dot_frame (fst (fb_name fb))) ++ map (fun e => dot_edge (fst e) (snd e)) (cfg_edges (basic_blocks fb)) ++ [str "}"].
Lemma dot_is_lines : create_cfg_dot_visualization fb = with_lf dot_lines.
Proof.
  assert (flat_map edge_line (cfg_edges (basic_blocks fb)) = with_lf (map (fun e => dot_edge (fst e) (snd e)) (cfg_edges (basic_blocks fb)))) as E.
  { unfold with_lf. rewrite flat_map_concat_map, flat_map_concat_map, map_map. f_equal. apply map_ext_in. intros [a b] Hin. apply in_cfg_edges in Hin.
    apply edge_names_plain in Hin as [[Ha _] [Hb _]]. unfold edge_line, dot_edge. cbn [fst snd]. rewrite !escape_plain by assumption. unfold nl. rewrite <- !app_assoc. reflexivity. }
  unfold create_cfg_dot_visualization, dot_lines, dot_frame. rewrite E. unfold with_lf, nl. rewrite !flat_map_app. cbn [firstn flat_map]. rewrite <- !app_assoc.
  cbn [app]. reflexivity.
Qed.
Lemma dot_lines_no_lf : Forall (fun l => ~ In LF l) dot_lines.
Proof.
  unfold dot_lines. apply Forall_app. split; [|apply Forall_app; split].
  - pose proof (fb_name_plain _ _ _ _ _ Hix Hfb) as [_ Hn]. cbn [firstn dot_frame].
    constructor; [intros H; apply in_app_iff in H as [H|H]; [|exact (Hn H)]; cbn in H; repeat (destruct H as [H|H]; [discriminate H|]); exact H|].
    repeat (constructor; [intros H; cbn in H; repeat (destruct H as [H|H]; [discriminate H|]); exact H|]). constructor.
  - apply Forall_forall. intros x Hx. apply in_map_iff in Hx as ([a b] & <- & Hin). apply in_cfg_edges in Hin. apply edge_names_plain in Hin as [Ha Hb].
    apply dot_edge_no_lf; assumption.
  - constructor; [|constructor]. intros [H|[]]. discriminate H.
Qed.
Lemma dot_line_iff x : is_line (create_cfg_dot_visualization fb) x <->
  In x (dot_frame (fst (fb_name fb))) \/ exists a b, cfg_edge (basic_blocks fb) a b /\ x = dot_edge a b.
Proof.
  rewrite dot_is_lines, is_line_iff by exact dot_lines_no_lf. unfold dot_lines. rewrite !in_app_iff.
  assert (In x (map (fun e => dot_edge (fst e) (snd e)) (cfg_edges (basic_blocks fb))) <-> exists a b, cfg_edge (basic_blocks fb) a b /\ x = dot_edge a b) as ->.
  { rewrite in_map_iff. split.
    - intros ([a b] & <- & H). apply in_cfg_edges in H. eauto.
    - intros (a & b & H & ->). exists (a, b). apply in_cfg_edges in H. auto. }
  unfold dot_frame. cbn [firstn In]. tauto.
Qed.
Lemma dot_edge_iff a b : plain_name a -> plain_name b ->
  (is_line (create_cfg_dot_visualization fb) (dot_edge a b) <-> cfg_edge (basic_blocks fb) a b).
Proof.
  intros Ha Hb. rewrite dot_line_iff. split.
  - intros [H|(a' & b' & H & E)]; [apply dot_frame_not_edge in H; contradiction|].
    pose proof (edge_names_plain _ _ H) as [Ha' Hb']. apply dot_edge_inj in E as [-> ->]; assumption.
  - intros H. right. eauto.
Qed.
End Dot.
