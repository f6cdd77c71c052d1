(** Incoming-branch hints and code lenses. *)
From Verif Require Import Text Rope Chumsky Tokenizer Parser Numbers Index SemTok Diag Rename Cfg Backtrace Server SpecText SpecLex SpecParse SpecIndex SpecDiag SpecBacktrace SpecNumbers SpecCfg
  PText PRope PLexSpec PLexProps PTokens PParse PParseProps PIndex PIndexDoc PIndexText PDiag PDiagDoc PCfg PNumbers PBacktrace.

Lemma spanned_eqb_spec (a b : spanned) : spanned_eqb a b = true <-> a = b.
Proof.
  unfold spanned_eqb. destruct a as [x s], b as [y t]. cbn [fst snd]. rewrite andb_true_iff, span_eqb_spec.
  destruct (text_eqb_spec x y); split; intros H; try (destruct H; discriminate); [destruct H; congruence|inversion H; auto|inversion H; congruence].
Qed.
Lemma once_spec l : forall seen, (forall x, In x (once seen l) <-> In x l /\ ~ In x seen) /\ NoDup (once seen l).
Proof.
  induction l as [|a l IH]; intros seen; cbn [once]; [split; [tauto|constructor]|].
  destruct (existsb (spanned_eqb a) seen) eqn:E.
  - apply existsb_exists in E as (b & Hb & E). apply spanned_eqb_spec in E as <-. destruct (IH seen) as [H1 H2]. split; [|exact H2].
    intros x. rewrite H1. cbn [In]. split; [tauto|]. intros [[->|H] Hn]; [contradiction|auto].
  - assert (~ In a seen) as Ha.
    { intros Ha. apply (proj1 (existsb_false _ _) E) in Ha. assert (spanned_eqb a a = true) by (apply spanned_eqb_spec; reflexivity). congruence. }
    destruct (IH (seen ++ [a])) as [H1 H2]. split.
    + intros x. cbn [In]. rewrite H1, in_app_iff. cbn [In]. split.
      * intros [<-|[H Hn]]; [tauto|]. split; [tauto|]. intros Hs. apply Hn. auto.
      * intros [[->|H] Hn]; [auto|]. destruct (spanned_eqb a x) eqn:E'; [apply spanned_eqb_spec in E'; auto|].
        right. split; [exact H|]. intros [Hs|[->|[]]]; [contradiction|]. assert (spanned_eqb x x = true) by (apply spanned_eqb_spec; reflexivity). congruence.
    + constructor; [|exact H2]. rewrite H1, in_app_iff. cbn. tauto.
Qed.
Lemma incoming_listed blocks b : lists_incoming blocks b (incoming_labels blocks b).
Proof.
  unfold incoming_labels. destruct (once_spec (flat_map (branches_to b) blocks) []) as [H1 H2]. split; [exact H2|].
  intros x. rewrite H1, in_flat_map. unfold branches_to, block_branches. split.
  - intros [(bb & Hb & H) _]. destruct (bb_label bb) as [l|] eqn:El; [|contradiction]. apply in_flat_map in H as (i & Hi & H).
    destruct (is_branching i) eqn:Ei; [|contradiction]. apply in_flat_map in H as (r & Hr & H).
    destruct (text_eqb_spec b (fst r)) as [->|]; [|contradiction]. destruct H as [<-|[]]. apply branching_iff in Ei. exists bb, i, r. auto 8.
  - intros (bb & i & r & Hb & El & Hi & Hbr & Hr & <-). split; [|intros []]. exists bb. split; [exact Hb|]. rewrite El.
    apply in_flat_map. exists i. split; [exact Hi|]. apply branching_iff in Hbr. rewrite Hbr. apply in_flat_map. exists r. split; [exact Hr|].
    destruct (text_eqb_spec (fst r) (fst r)); [left; reflexivity|congruence].
Qed.

(** ** Opened documents *)
Lemma opened_indexed e s uri src d : opened e s uri src d ->
  exists pr, indexed (e_u e) src pr (doc_index d) /\ doc_rope d = src /\ doc_stmts d = pr_stmts pr /\ get_doc s uri = Some d.
Proof.
  intros [H1 [diags H2]]. destruct (analyze_cases e uri src) as (pr & E & [[_ H]|[_ (d' & diags' & H & G1 & G2 & G3)]]); [congruence|].
  assert (d' = d) as -> by congruence. exists pr. auto.
Qed.
Lemma function_bodies_defs u src pr ix : indexed u src pr ix ->
  Forall2 (fun fb def => fb_name fb = fs_name (fst def) /\ basic_blocks fb = fb_blocks (snd def)) (function_bodies ix) (function_defs (pr_stmts pr)).
Proof.
  intros H. assert (length (function_bodies ix) = length (function_defs (pr_stmts pr))) as Hlen.
  { apply indexed_ok in H as ([_ _ _ _ H1 _ _ _ _ _] & _). rewrite <- (map_length fb_name), H1. unfold function_defs. clear.
    induction (pr_stmts pr) as [|s ss IH]; [reflexivity|]. cbn. rewrite !app_length, IH. destruct s; reflexivity. }
  assert (forall n fb, nth_error (function_bodies ix) n = Some fb -> exists def, nth_error (function_defs (pr_stmts pr)) n = Some def /\
    fb_name fb = fs_name (fst def) /\ basic_blocks fb = fb_blocks (snd def)) as Hn.
  { intros n fb Hn. destruct (function_body_at _ _ _ _ _ _ H Hn) as (kw & sig & body & _ & E & E1 & E2 & _). exists (sig, body). auto. }
  clear H. revert Hlen Hn. generalize (function_defs (pr_stmts pr)) as defs. generalize (function_bodies ix) as fbs.
  induction fbs as [|fb fbs IH]; intros [|def defs] Hlen Hn; try discriminate Hlen; constructor.
  - destruct (Hn 0 fb eq_refl) as (def' & E & G). cbn in E. assert (def' = def) as -> by congruence. exact G.
  - apply IH; [cbn in Hlen; lia|]. intros n fb' E. exact (Hn (S n) fb' E).
Qed.

Lemma Forall2_nth_error_iff {A B} (R : A -> B -> Prop) l m : Forall2 R l m <->
  length l = length m /\ forall n a b, nth_error l n = Some a -> nth_error m n = Some b -> R a b.
Proof.
  split.
  - induction 1 as [|a b l m H _ [IH1 IH2]]; [split; [reflexivity|intros [|] ? ? E; discriminate E]|]. split; [cbn; congruence|].
    intros [|n] x y E1 E2; cbn in E1, E2; [congruence|eauto].
  - revert m. induction l as [|a l IH]; intros [|b m] [E H]; try discriminate E; constructor; [apply (H 0); reflexivity|].
    apply IH. split; [cbn in E; lia|]. intros n x y E1 E2. apply (H (S n)); assumption.
Qed.
Section Hints.
Variables (e : env) (s : server) (uri src : text) (d : doc) (pr : parser_result).
Hypothesis Hsrc : plain_document src.
Hypothesis Hix : indexed (e_u e) src pr (doc_index d).
Hypothesis Hrope : doc_rope d = src.

Lemma token_range t : In t (pr_tokens pr) -> sp_start (snd t) <= sp_end (snd t) /\ sp_end (snd t) <= length src.
Proof.
  intros Ht. destruct Hix as [Hp _]. apply parse_from_str_module in Hp as [Hsp _].
  destruct (spans_in_each _ _ _ _ Hsp Ht) as (H1 & H2 & H3). lia.
Qed.
Lemma incoming_parts_text l : Forall (fun x => sp_start (snd x) <= sp_end (snd x) /\ sp_end (snd x) <= length src) l ->
  incoming_parts src uri 0 l = incoming_text src uri l.
Proof.
  assert (forall n l, Forall (fun x : spanned => sp_start (snd x) <= sp_end (snd x) /\ sp_end (snd x) <= length src) l ->
    incoming_parts src uri (S n) l = flat_map (incoming_label src uri (str ", ")) l) as Hr.
  { intros n l0 H. revert n. induction H as [|x l0 [H1 H2] H IH]; intros n; [reflexivity|]. cbn [incoming_parts flat_map].
    rewrite (plain_range src (snd x) Hsrc H1 H2), IH. reflexivity. }
  intros H. destruct H as [|x l0 [H1 H2] H]; [reflexivity|]. cbn [incoming_parts incoming_text].
  rewrite (plain_range src (snd x) Hsrc H1 H2), (Hr 0 l0 H). reflexivity.
Qed.
Lemma one_block fb bb id : nth_error (function_bodies (doc_index d)) id = Some fb -> In bb (basic_blocks fb) ->
  exists hs, block_hint src uri (basic_blocks fb) bb hs /\
    match incoming_hint src uri fb bb with Some h => [h] | None => [] end = hs.
Proof.
  intros Hid Hbb. unfold block_hint, incoming_hint. destruct (bb_label bb) as [l|] eqn:El; cbn [obind]; [|eauto].
  destruct (indexed_ok _ _ _ _ Hix) as ([_ _ _ _ _ _ _ Hinc _ _] & _). rewrite (Hinc _ _ Hid).
  pose proof (incoming_listed (basic_blocks fb) (fst l)) as Hls. set (ls := incoming_labels (basic_blocks fb) (fst l)) in *.
  assert (Forall (fun x => sp_start (snd x) <= sp_end (snd x) /\ sp_end (snd x) <= length src) ls) as Hsp.
  { apply Forall_forall. intros x Hx. apply (proj1 (proj2 Hls x)) in Hx as (bb' & i & r & Hb & E & _). change (snd x) with (snd (tident x)).
    apply token_range. destruct (function_body_at _ _ _ _ _ _ Hix Hid) as (kw & sig & body & Hs & _ & _ & Eb & _). rewrite Eb in Hb. destruct Hix as [Hp _].
    eapply tree_token_in; [exact Hp|exact Hs|]. eapply block_tokens_in; [exact Hb|]. unfold bb_tokens. rewrite E. left. reflexivity. }
  destruct (function_body_at _ _ _ _ _ _ Hix Hid) as (kw & sig & body & Hs & _ & _ & Eb & _).
  assert (exists c, bb_label_comma bb = Some c /\ sp_end c <= length src) as (c & Ec & Hc).
  { destruct Hix as [Hp _]. pose proof (def_labels _ _ _ _ _ _ Hp Hs) as Hl. rewrite Forall_forall in Hl. rewrite Eb in Hbb.
    destruct (Hl bb Hbb) as [[E _]|(l' & c & _ & Ec)]; [congruence|]. exists c. split; [exact Ec|].
    change c with (snd (tp (ch ":") c)). apply token_range. eapply tree_token_in; [exact Hp|exact Hs|]. eapply block_tokens_in; [exact Hbb|].
    unfold bb_tokens. apply in_or_app. right. apply in_or_app. left. rewrite Ec. left. reflexivity. }
  rewrite Ec. destruct Hsrc as (Ha & Hp & Hsm). cbn [obind]. rewrite positions_are_lsp_ascii by assumption. cbn [obind].
  destruct ls as [|x ls']; cbn [obind].
  - exists []. split; [|reflexivity]. exists []. auto.
  - eexists. split; [|reflexivity]. exists (x :: ls'). split; [exact Hls|]. right. split; [discriminate|]. exists c. split; [reflexivity|].
    rewrite (incoming_parts_text (x :: ls') Hsp). reflexivity.
Qed.
Lemma filter_map_concat {A B} (f : A -> option B) l : filter_map f l = concat (map (fun a => match f a with Some b => [b] | None => [] end) l).
Proof. induction l as [|a l IH]; [reflexivity|]. cbn. rewrite IH. destruct (f a); reflexivity. Qed.
Lemma map_hints fb blocks l : (forall bb, In bb l -> exists hs, block_hint src uri blocks bb hs /\
    match incoming_hint src uri fb bb with Some h => [h] | None => [] end = hs) ->
  exists hss, Forall2 (fun x hs => block_hint src uri (fst x) (snd x) hs) (map (pair blocks) l) hss /\
    filter_map (incoming_hint src uri fb) l = concat hss.
Proof.
  intros Hb. induction l as [|bb l IHl]; [exists []; split; [constructor|reflexivity]|].
  destruct IHl as (hss' & G1 & G2); [intros; apply Hb; right; assumption|]. destruct (Hb bb (or_introl eq_refl)) as (hs & G3 & <-).
  eexists (_ :: hss'). split; [constructor; [exact G3|exact G1]|]. cbn [filter_map concat]. rewrite <- G2. destruct (incoming_hint src uri fb bb); reflexivity.
Qed.
Lemma incoming_hints_spec : exists hss,
  Forall2 (fun x hs => block_hint src uri (fst x) (snd x) hs) (blocks_in_context (pr_stmts pr)) hss /\
  incoming_hints d uri = concat hss.
Proof.
  unfold incoming_hints, blocks_in_context. rewrite Hrope. pose proof (function_bodies_defs _ _ _ _ Hix) as HF.
  assert (forall fb, In fb (function_bodies (doc_index d)) -> forall bb, In bb (basic_blocks fb) -> exists hs, block_hint src uri (basic_blocks fb) bb hs /\
    match incoming_hint src uri fb bb with Some h => [h] | None => [] end = hs) as Hb.
  { intros fb Hfb bb Hbb. apply In_nth_error in Hfb as [id Hid]. eapply one_block; eassumption. }
  clear Hix. induction HF as [|fb def fbs defs [_ E] HF IH]; [exists []; split; [constructor|reflexivity]|].
  destruct IH as (hss & H1 & H2); [intros; apply Hb; [right; assumption|assumption]|].
  assert (exists hss', Forall2 (fun x hs => block_hint src uri (fst x) (snd x) hs) (map (pair (fb_blocks (snd def))) (fb_blocks (snd def))) hss' /\
    filter_map (incoming_hint src uri fb) (basic_blocks fb) = concat hss') as (hss' & H3 & H4).
  { specialize (Hb fb (or_introl eq_refl)). rewrite E in Hb. rewrite E. apply map_hints. exact Hb. }
  exists (hss' ++ hss). split; [cbn [flat_map]; apply Forall2_app; assumption|]. cbn [flat_map]. rewrite H4, H2, concat_app. reflexivity.
Qed.

(** ** The other hints *)
Lemma end_hints_spec : filter_map (end_hint d uri) (function_bodies (doc_index d)) = map (function_end_hint src uri) (function_defs (pr_stmts pr)).
Proof.
  assert (Forall2 (fun fb def => end_hint d uri fb = Some (function_end_hint src uri def)) (function_bodies (doc_index d)) (function_defs (pr_stmts pr))) as H.
  { pose proof (function_bodies_defs _ _ _ _ Hix) as HF. apply Forall2_nth_error_iff. apply Forall2_nth_error_iff in HF. destruct HF as [Hlen HF].
    split; [exact Hlen|]. intros n fb def E1 E2. destruct (HF n fb def E1 E2) as [En Eb].
    destruct (function_body_at _ _ _ _ _ _ Hix E1) as (kw & sig & body & Hs & E & _ & _ & Er).
    assert (def = (sig, body)) as -> by congruence. unfold end_hint, function_end_hint. cbn [fst snd] in *. rewrite Hrope, Er, En. cbn [sp_end].
    assert (sp_end (fb_close body) <= length src) as Hc.
    { change (fb_close body) with (snd (tp (ch "}") (fb_close body))). apply token_range. destruct Hix as [Hp _]. eapply tree_token_in; [exact Hp|exact Hs|].
      cbn [stmt_tokens]. right. apply in_or_app. right. apply in_or_app. right. apply in_or_app. right. left. reflexivity. }
    assert (In (tglobal (fs_name sig)) (pr_tokens pr)) as Hn.
    { destruct Hix as [Hp _]. eapply tree_token_in; [exact Hp|exact Hs|].
      cbn [stmt_tokens]. right. apply in_or_app. left. unfold sig_tokens. apply in_or_app. right. right. left. reflexivity. }
    apply token_range in Hn as [H1 H2]. destruct Hsrc as (Ha & Hp & Hsm). rewrite positions_are_lsp_ascii by assumption. cbn [obind].
    rewrite (plain_range src (snd (fs_name sig)) Hsrc H1 H2). reflexivity. }
  induction H as [|fb def fbs defs H _ IH]; [reflexivity|]. cbn. rewrite H, IH. reflexivity.
Qed.

Lemma shortened_spec x y : shorten_name x 50 = Val y -> shortened x y.
Proof.
  intros H. destruct (Nat.lt_ge_cases (byte_len x) 48) as [Hl|Hl].
  - left. split; [exact Hl|]. rewrite (shorten_name_short x Hl) in H. congruence.
  - right. split; [exact Hl|]. apply (shorten_name_long x y Hl) in H as (p & q & H). eauto.
Qed.
Lemma sanitized_spec u x : sanitized u x (sanitize_markdown_code u x).
Proof.
  pose proof (sanitize_spec u x) as H. unfold sanitized. induction H as [|c c' r r' [H1 H2] _ IH]; constructor; [|exact IH].
  destruct (is_alphabetic u c) eqn:E1; [left; assert (md_allowed u c) by (left; exact E1); auto|]. destruct (is_numeric u c) eqn:E2; [left; assert (md_allowed u c) by (right; left; exact E2); auto|].
  destruct (is_whitespace u c) eqn:E3; [left; assert (md_allowed u c) by (right; right; left; exact E3); auto|].
  destruct (in_dec N.eq_dec c (str ".,:+-=/*<>_")) as [E4|E4]; [left; assert (md_allowed u c) by (right; right; right; exact E4); auto|].
  right. assert (~ md_allowed u c) as Hn by (intros [G|[G|[G|G]]]; congruence). split; [exact Hn|]. exact (H2 Hn).
Qed.
Lemma frame_md_spec u disp f t : format_frame_as_md u disp f = Val t -> frame_md u disp f t.
Proof.
  unfold format_frame_as_md, frame_md. intros H. exists (sanitize_markdown_code u (f_symbol f)). split; [apply sanitized_spec|].
  destruct (f_filepath f) as [fp|]; [|injection H as <-; reflexivity]. destruct (shorten_filepath_spec fp) as (short & E & Hs). rewrite E in H. cbn [rbind] in H.
  exists short, (render_N (f_line f)). split; [exact Hs|]. split; [apply render_N_canonical|].
  destruct (f_resolved f) as [r|]; injection H as <-; rewrite <- !app_assoc; reflexivity.
Qed.
Lemma glued_join_text c l : join [c] l = glued c l.
Proof. induction l as [|x [|y l] IH]; [reflexivity|reflexivity|]. cbn [join glued] in *. rewrite IH. reflexivity. Qed.
Lemma tooltip_spec u disp frames t : backtrace_json_to_md u disp frames = Val t -> backtrace_md u disp frames t.
Proof.
  unfold backtrace_json_to_md, backtrace_md. destruct (rmapM (format_frame_as_md u disp) frames) as [ls|] eqn:E; [|discriminate]. cbn [rmap rbind]. intros H. injection H as <-.
  exists ls. split; [|apply glued_join_text]. revert ls E. induction frames as [|f frames IH]; cbn [rmapM]; intros ls E; [injection E as <-; constructor|].
  destruct (format_frame_as_md u disp f) as [x|] eqn:Ef; [|discriminate]. cbn [rbind] in E. destruct (rmapM (format_frame_as_md u disp) frames) as [r|]; [|discriminate]. cbn [rbind] in E.
  injection E as <-. constructor; [apply frame_md_spec; exact Ef|apply IH; reflexivity].
Qed.
Lemma backtrace_label disp pos frames h : inlay_hint_for_backtrace (e_u e) disp pos frames = Val h ->
  exists parts tip, h = mkHint pos (parts ++ [mkPart (str "Full backtrace") None (Some tip)]) /\ relevant_parts (e_u e) disp frames parts /\ backtrace_md (e_u e) disp frames tip.
Proof.
  unfold inlay_hint_for_backtrace. pose proof (identify_spec frames) as Hr. destruct (identify_relevant_frames frames) as [n|] eqn:En.
  - destruct (nth_error frames n) as [f|] eqn:Ef; [|discriminate]. destruct (shorten_name (f_symbol f) 50) as [sym|] eqn:Es; [|discriminate].
    cbn [rbind]. destruct (format_frame_as_md (e_u e) disp f) as [tip|] eqn:Emd; [|discriminate]. cbn [rbind].
    destruct (backtrace_json_to_md (e_u e) disp frames) as [tip2|] eqn:Etip; [|discriminate]. cbn [rbind]. intros H. injection H as <-.
    eexists [_; _], tip2. split; [reflexivity|]. split; [|apply tooltip_spec; exact Etip]. exists (Some n). split; [exact Hr|]. exists f, sym, tip. split; [exact Ef|]. split; [apply shortened_spec; exact Es|]. split; [apply frame_md_spec; exact Emd|reflexivity].
  - cbn [rbind]. destruct (backtrace_json_to_md (e_u e) disp frames) as [tip2|] eqn:Etip; [|discriminate]. cbn [rbind]. intros H. injection H as <-.
    exists [], tip2. split; [reflexivity|]. split; [exists None; auto|apply tooltip_spec; exact Etip].
Qed.
Lemma dbg_token i : In i (instructions (pr_stmts pr)) -> forall r, i_dbg i = Some r -> In (tdbg r) (pr_tokens pr).
Proof.
  intros Hi r Er. unfold instructions, function_defs in Hi. apply in_flat_map in Hi as ([sig body] & Hd & Hi).
  apply in_flat_map in Hd as (st & Hst & Hd). destruct st as [| |kw sig' body'| |]; try contradiction. destruct Hd as [Hd|[]]. inversion Hd; subst. cbn [snd] in Hi.
  apply in_flat_map in Hi as (bb & Hb & Hi). destruct Hix as [Hp _]. eapply tree_token_in; [exact Hp|exact Hst|]. eapply block_tokens_in; [exact Hb|].
  eapply instr_tokens_in; [exact Hi|]. unfold instr_tokens. rewrite !in_app_iff. right. right. right. rewrite Er. left. reflexivity.
Qed.
Lemma backtrace_hint_other i hs : backtrace_hint e s d i = Val hs -> Forall other_hint hs.
Proof.
  unfold backtrace_hint. destruct (obind _ _) as [[r j]|]; [|intros H; injection H as <-; constructor].
  destruct (parse_backtrace_from_json _ _ j) as [[frames|]|]; cbn [rbind]; [|intros H; injection H as <-; constructor|discriminate].
  destruct (offset_to_lsp_pos _ _) as [pos|]; [|intros H; injection H as <-; constructor].
  destruct (inlay_hint_for_backtrace _ _ pos frames) as [h|] eqn:E; cbn [rmap rbind]; [|discriminate]. intros H; injection H as <-.
  constructor; [|constructor]. apply backtrace_label in E as (parts & tip & -> & (o & _ & Ho) & _). unfold other_hint. cbn [ih_parts].
  destruct o as [n|]; [|subst parts; do 2 eexists; split; [reflexivity|]; right; discriminate].
  destruct Ho as (f & name & tip' & _ & _ & _ & ->). do 2 eexists. split; [reflexivity|]. right. discriminate.
Qed.
Lemma backtrace_hint_spec i hs : can_resolve (roots s) -> In i (instructions (pr_stmts pr)) -> backtrace_hint e s d i = Val hs ->
  instr_hint e (roots s) src (pr_stmts pr) i hs.
Proof.
  intros Hroots Hi. unfold backtrace_hint, instr_hint, instr_json. destruct (i_dbg i) as [r|] eqn:Er; cbn [obind]; [|intros H; injection H as <-; reflexivity].
  destruct (indexed_ok _ _ _ _ Hix) as ([_ _ _ _ _ _ _ _ _ Hval] & _). rewrite Hval.
  destruct (ann_value src (pr_stmts pr) (fst r)) as [v|]; cbn [obind]; [|intros H; injection H as <-; reflexivity].
  destruct (e_json_parse e v) as [j|]; cbn [obind]; [|intros H; injection H as <-; reflexivity].
  destruct (parse_backtrace_spec (e_fs e) (roots s) j Hroots) as [(fields & l & frames & -> & Ef & -> & HF)|[Hno ->]]; cbn [rbind].
  - apply (dbg_token _ Hi) in Er as Ht. apply token_range in Ht as [_ Ht]. cbn [tdbg snd] in Ht. rewrite Hrope. destruct Hsrc as (Ha & Hp & Hsm).
    rewrite positions_are_lsp_ascii by assumption. destruct (inlay_hint_for_backtrace _ _ _ frames) as [h|] eqn:E; cbn [rmap rbind]; [|discriminate].
    intros H; injection H as <-. right. apply backtrace_label in E as (parts & tip & -> & Hrel & Htip). exists r, frames, parts, tip.
    split; [reflexivity|]. split; [exists fields, l; auto|]. auto.
  - intros H; injection H as <-. left. split; [|reflexivity]. intros frames (fields & l & -> & E & _). exact (Hno _ _ eq_refl E).
Qed.
Lemma rflat_map_val {A B} (f : A -> res (list B)) l : forall y, rflat_map f l = Val y ->
  exists ys, Forall2 (fun a x => f a = Val x) l ys /\ y = concat ys.
Proof.
  induction l as [|a l IH]; intros y; cbn [rflat_map]; [intros H; injection H as <-; exists []; split; [constructor|reflexivity]|].
  destruct (f a) as [x|] eqn:E; [|discriminate]. cbn [rbind]. destruct (rflat_map f l) as [z|]; [|discriminate]. cbn [rbind]. intros H; injection H as <-.
  destruct (IH z eq_refl) as (ys & H1 & ->). exists (x :: ys). split; [constructor; assumption|reflexivity].
Qed.
End Hints.

Lemma inlay_document e s uri src d hints : plain_document src -> opened e s uri src d -> inlay_hint_handler e s uri = Val (Some hints) ->
  exists pr hss bts, parse_from_str (e_u e) src = Val pr /\
    hints = concat hss ++ concat bts ++ map (function_end_hint src uri) (function_defs (pr_stmts pr)) /\
    Forall2 (fun x hs => block_hint src uri (fst x) (snd x) hs) (blocks_in_context (pr_stmts pr)) hss /\
    Forall (Forall other_hint) bts /\
    (can_resolve (roots s) -> Forall2 (instr_hint e (roots s) src (pr_stmts pr)) (instructions (pr_stmts pr)) bts).
Proof.
  intros Hsrc Ho Hh. apply opened_indexed in Ho as (pr & Hix & Hrope & Hst & Hd). unfold inlay_hint_handler in Hh. rewrite Hd, Hst, instructions_eq in Hh.
  destruct (rflat_map (backtrace_hint e s d) (instructions (pr_stmts pr))) as [y|] eqn:Eb; [|discriminate]. cbn [rbind] in Hh. injection Hh as <-.
  apply rflat_map_val in Eb as (bts & Hb & ->). destruct (incoming_hints_spec e uri src d pr Hsrc Hix Hrope) as (hss & H1 & H2).
  exists pr, hss, bts. split; [exact (proj1 Hix)|]. split; [rewrite H2, (end_hints_spec e uri src d pr Hsrc Hix Hrope); reflexivity|]. split; [exact H1|]. split.
  - clear - Hb. induction Hb as [|i hs l bts H _ IH]; constructor; [|exact IH]. eapply backtrace_hint_other. exact H.
  - intros Hr. assert (forall i hs, In i (instructions (pr_stmts pr)) -> backtrace_hint e s d i = Val hs -> instr_hint e (roots s) src (pr_stmts pr) i hs) as Hs.
    { intros i hs. eapply backtrace_hint_spec; eassumption. }
    revert Hs. clear - Hb. induction Hb as [|i hs l bts H _ IH]; intros Hs; constructor; [apply Hs; [left; reflexivity|exact H]|].
    apply IH. intros. apply Hs; [right; assumption|assumption].
Qed.

Lemma md_total u disp frames : exists t, backtrace_json_to_md u disp frames = Val t.
Proof.
  unfold backtrace_json_to_md. assert (exists l, rmapM (format_frame_as_md u disp) frames = Val l) as [l ->]; [|cbn; eauto].
  induction frames as [|f frames [l IH]]; [cbn; eauto|]. cbn [rmapM]. destruct (format_frame_code u disp f) as (code & rest & -> & _).
  cbn [rbind]. rewrite IH. cbn. eauto.
Qed.
Lemma backtrace_label_panics u disp pos frames : inlay_hint_for_backtrace u disp pos frames = Panic ->
  exists n f, relevant_frame frames (Some n) /\ nth_error frames n = Some f /\ forall y, ~ shortened (f_symbol f) y.
Proof.
  unfold inlay_hint_for_backtrace. pose proof (identify_spec frames) as Hr. destruct (md_total u disp frames) as [tip2 ->]. destruct (identify_relevant_frames frames) as [n|] eqn:En; [|discriminate].
  destruct (nth_error frames n) as [f|] eqn:Ef.
  - destruct (shorten_name (f_symbol f) 50) as [sym|] eqn:Es.
    + cbn [rbind]. destruct (format_frame_code u disp f) as (code & rest & -> & _). discriminate.
    + intros _. exists n, f. split; [exact Hr|]. split; [exact Ef|]. intros y [[H ->]|[H Hy]].
      * rewrite (shorten_name_short _ H) in Es. discriminate.
      * apply (shorten_name_long _ y H) in Hy. congruence.
  - intros _. exfalso. cbn [relevant_frame] in Hr. destruct Hr as [(k & p & _ & [[a [E _]] _] & _)|[_ [[a [E _]] _]]]; congruence.
Qed.
Lemma rflat_map_panic {A B} (f : A -> res (list B)) l : rflat_map f l = Panic -> exists a, In a l /\ f a = Panic.
Proof.
  induction l as [|a l IH]; cbn [rflat_map]; [discriminate|]. destruct (f a) as [x|] eqn:E; [|exists a; split; [left; reflexivity|exact E]].
  cbn [rbind]. destruct (rflat_map f l) as [z|]; [discriminate|]. intros H. destruct (IH eq_refl) as (b & Hb & Eb). exists b. split; [right; exact Hb|exact Eb].
Qed.
Lemma inlay_panics e s uri src d : opened e s uri src d -> can_resolve (roots s) -> inlay_hint_handler e s uri = Panic ->
  exists pr i j frames n f, parse_from_str (e_u e) src = Val pr /\ In i (instructions (pr_stmts pr)) /\
    instr_json e src (pr_stmts pr) i = Some j /\ backtrace_frames (e_fs e) (roots s) j frames /\ relevant_frame frames (Some n) /\
    nth_error frames n = Some f /\ forall y, ~ shortened (f_symbol f) y.
Proof.
  intros Ho Hroots Hh. apply opened_indexed in Ho as (pr & Hix & Hrope & Hst & Hd). unfold inlay_hint_handler in Hh. rewrite Hd, Hst, instructions_eq in Hh.
  destruct (rflat_map (backtrace_hint e s d) (instructions (pr_stmts pr))) as [y|] eqn:Eb; [discriminate|].
  apply rflat_map_panic in Eb as (i & Hi & Eb). destruct (indexed_ok _ _ _ _ Hix) as ([_ _ _ _ _ _ _ _ _ Hval] & _).
  unfold backtrace_hint in Eb. exists pr, i. unfold instr_json. destruct (i_dbg i) as [r|] eqn:Er; cbn [obind] in Eb; [|discriminate].
  rewrite Hval in Eb. destruct (ann_value src (pr_stmts pr) (fst r)) as [v|]; cbn [obind] in Eb; [|discriminate].
  destruct (e_json_parse e v) as [j|]; cbn [obind] in Eb; [|discriminate]. exists j.
  destruct (parse_backtrace_spec (e_fs e) (roots s) j Hroots) as [(fields & l & frames & -> & Ef & E & HF)|[Hno E]]; rewrite E in Eb; cbn [rbind] in Eb; [|discriminate].
  destruct (offset_to_lsp_pos _ _); [|discriminate]. destruct (inlay_hint_for_backtrace _ _ _ frames) eqn:E'; [discriminate|].
  apply backtrace_label_panics in E' as (n & f & H1 & H2 & H3). exists frames, n, f.
  split; [exact (proj1 Hix)|]. split; [exact Hi|]. split; [reflexivity|]. split; [exists fields, l; auto|]. auto.
Qed.


(** ** Entries of tooltips *)
Lemma digits_no_break ds : all_digits ds -> no_break ds.
Proof. intros H Hin. apply H in Hin. unfold LF in Hin. lia. Qed.
Lemma frame_md_no_break u disp f t : no_break (f_symbol f) -> (forall fp, f_filepath f = Some fp -> no_break fp) -> (forall r, f_resolved f = Some r -> no_break (disp r)) ->
  frame_md u disp f t -> no_break t.
Proof.
  intros Hs Hf Hr (code & Hc & H). assert (no_break code) as Hcode.
  { unfold no_break in *. clear - Hs Hc. induction Hc as [|c d x y H _ IH]; [intros []|]. intros [->|Hin]; [|apply IH; [intros G; apply Hs; right; exact G|exact Hin]].
    destruct H as [[_ G]|[_ G]]; [apply Hs; left; congruence|discriminate G]. }
  unfold no_break in *. destruct (f_filepath f) as [fp|].
  - destruct H as (short & n & (pre & E & _) & (_ & Hn & _) & ->). specialize (Hf fp eq_refl). unfold all_digits in Hn. apply digits_no_break in Hn. unfold no_break in Hn.
    assert (~ In LF short) as Hshort by (intros G; apply Hf; rewrite E; apply in_or_app; right; exact G).
    destruct (f_resolved f) as [r|]; [specialize (Hr r eq_refl)|]; cbn [app str]; rewrite ?in_app_iff; unfold ch; cbn; intros G;
      repeat match goal with H : _ \/ _ |- _ => destruct H | H : False |- _ => contradiction | H : @eq N _ _ |- _ => discriminate H end; contradiction.
  - subst t. rewrite !in_app_iff. intros G. cbn in G. repeat match goal with H : _ \/ _ |- _ => destruct H | H : False |- _ => contradiction | H : @eq N _ _ |- _ => discriminate H end; contradiction.
Qed.
Lemma tooltip_entries u disp pos frames h : inlay_hint_for_backtrace u disp pos frames = Val h -> frames <> [] ->
  Forall (fun f => no_break (f_symbol f) /\ (forall fp, f_filepath f = Some fp -> no_break fp) /\ (forall r, f_resolved f = Some r -> no_break (disp r))) frames ->
  exists parts tip ls, ih_parts h = parts ++ [mkPart (str "Full backtrace") None (Some tip)] /\
    pieces LF tip (map (app (str "* ")) ls) /\ Forall2 (frame_md u disp) frames ls.
Proof.
  intros H Hne HF. unfold inlay_hint_for_backtrace in H.
  match type of H with rbind ?a _ = _ => destruct a as [parts|]; [|discriminate H] end. cbn [rbind] in H.
  destruct (backtrace_json_to_md u disp frames) as [tip|] eqn:E; [|discriminate H]. cbn [rbind] in H. injection H as <-.
  apply tooltip_spec in E as (ls & Hls & ->). eexists parts, _, ls. split; [reflexivity|]. split; [|exact Hls]. split; [destruct Hls; [contradiction|discriminate]|]. split; [reflexivity|].
  intros w Hw. apply in_map_iff in Hw as (x & <- & Hx).
  assert (exists f, In f frames /\ frame_md u disp f x) as (f & Hf & Hx').
  { clear - Hls Hx. induction Hls as [|f y fr l H _ IH]; [contradiction|]. destruct Hx as [<-|Hx]; [exists f; split; [left; reflexivity|exact H]|]. destruct (IH Hx) as (g & H1 & H2). exists g. split; [right; exact H1|exact H2]. }
  rewrite Forall_forall in HF. destruct (HF f Hf) as (H1 & H2 & H3). pose proof (frame_md_no_break u disp f x H1 H2 H3 Hx') as Hn. unfold no_break in Hn. intros G. apply in_app_or in G as [G|G]; [|contradiction].
  cbn in G. destruct G as [G|[G|[]]]; discriminate G.
Qed.
