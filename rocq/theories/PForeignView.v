(** Outline, folding, lenses, hints and highlighting of documents with characters that are not ASCII. *)
From Verif Require Import Text Rope Chumsky Tokenizer Parser Numbers Index SemTok Diag Rename Cfg Backtrace Server SpecText SpecBytes SpecLex SpecParse SpecIndex SpecDiag SpecBacktrace SpecCfg SpecView SpecSemTok SpecForeign
  PText PRope PLexSpec PLexProps PTokens PParse PParseProps PIndex PIndexDoc PIndexText PDiag PDiagDoc PCfg PBacktrace PHints PView PFold PExt PNav PSemTok PSemDoc PForeign.

(** ** Annotations *)
Lemma fitting_bytes a : forall r, fitting (a ++ r) (byte_len a) = length a.
Proof.
  induction a as [|c a IH]; intros r.
  - cbn [app]. change (byte_len []) with 0. pose proof (fitting_le r 0). cbn [length]. lia.
  - cbn [app]. rewrite fitting_cons. change (byte_len (c :: a)) with (utf8_len c + byte_len a). destruct (Nat.leb_spec (utf8_len c) (utf8_len c + byte_len a)); [|lia].
    replace (utf8_len c + byte_len a - utf8_len c) with (byte_len a) by lia. rewrite IH. reflexivity.
Qed.
Lemma slice_shown src a b v : byte_slice src a b = Val v -> v = text_at src (displaced src (mkSpan a b)).
Proof.
  unfold byte_slice. destruct (Nat.leb_spec a b) as [Hab|]; [|discriminate]. destruct (drop_bytes a src) as [r|] eqn:E1; [|discriminate].
  destruct (take_bytes (b - a) r) as [x|] eqn:E2; [|discriminate]. intros H; injection H as ->.
  apply drop_bytes_inv in E1 as (p & -> & Hp). apply take_bytes_inv in E2 as (q & -> & Hq).
  unfold text_at, displaced. cbn [sp_start sp_end]. subst a. rewrite fitting_bytes.
  assert (b = byte_len (p ++ v)) as -> by (rewrite byte_len_app; lia). rewrite app_assoc, fitting_bytes, app_length.
  rewrite <- app_assoc, skipn_app, skipn_all, Nat.sub_diag. cbn [skipn app]. replace (length p + length v - length p) with (length v) by lia.
  rewrite firstn_app, firstn_all, Nat.sub_diag. cbn [firstn]. rewrite app_nil_r. reflexivity.
Qed.
Lemma values_shown src ss n : Forall (fun s => ~ bad_slice src s) ss -> ann_value src ss n = shown_value src ss n.
Proof.
  unfold ann_value, shown_value. generalize (@None text) as acc. induction ss as [|s ss IH]; intros acc H; [reflexivity|]. inversion H as [|? ? H1 H2]; subst. cbn [fold_left].
  rewrite IH by exact H2. f_equal. unfold bad_slice in H1. destruct (value_range s) as [[[m a] b]|]; [|reflexivity]. destruct (text_eqb n m); [|reflexivity].
  destruct (byte_slice src a b) as [v|] eqn:E; [|exfalso; apply H1; reflexivity]. apply slice_shown in E. congruence.
Qed.
Lemma indexed_slices u src pr ix : indexed u src pr ix -> Forall (fun s => ~ bad_slice src s) (pr_stmts pr).
Proof.
  intros Hix. destruct (indexed_ok _ _ _ _ Hix) as (_ & _ & _ & _ & Hr). destruct Hix as [_ Hc]. destruct (create_index_ok src (pr_tokens pr) (pr_stmts pr) Hr) as [[_ E]|[H _]]; [congruence|exact H].
Qed.

Section Shown.
Variables (e : env) (s : server) (uri src : text) (d : doc) (pr : parser_result).
Hypothesis Hsrc : bmp_document src.
Hypothesis Hix : indexed (e_u e) src pr (doc_index d).
Hypothesis Hrope : doc_rope d = src.

Lemma shown_parts l : Forall (fun x => sp_start (snd x) <= sp_end (snd x) /\ sp_end (snd x) <= length src) l ->
  incoming_parts src uri 0 l = incoming_text src uri (map (shown_name src) l).
Proof.
  assert (forall n l, Forall (fun x : spanned => sp_start (snd x) <= sp_end (snd x) /\ sp_end (snd x) <= length src) l ->
    incoming_parts src uri (S n) l = flat_map (incoming_label src uri (str ", ")) (map (shown_name src) l)) as Hr.
  { intros n l0 H. revert n. induction H as [|x l0 [H1 H2] H IH]; intros n; [reflexivity|]. cbn [incoming_parts flat_map map].
    rewrite (range_shown src (snd x) Hsrc H1 H2), IH. reflexivity. }
  intros H. destruct H as [|x l0 [H1 H2] H]; [reflexivity|]. cbn [incoming_parts incoming_text map].
  rewrite (range_shown src (snd x) Hsrc H1 H2), (Hr 0 l0 H). reflexivity.
Qed.
Lemma shown_block fb bb id : nth_error (function_bodies (doc_index d)) id = Some fb -> In bb (basic_blocks fb) ->
  exists hs, shown_block_hint src uri (basic_blocks fb) bb hs /\
    match incoming_hint src uri fb bb with Some h => [h] | None => [] end = hs.
Proof.
  intros Hid Hbb. unfold shown_block_hint, incoming_hint. destruct (bb_label bb) as [l|] eqn:El; cbn [obind]; [|eauto].
  destruct (indexed_ok _ _ _ _ Hix) as ([_ _ _ _ _ _ _ Hinc _ _] & _). rewrite (Hinc _ _ Hid).
  pose proof (incoming_listed (basic_blocks fb) (fst l)) as Hls. set (ls := incoming_labels (basic_blocks fb) (fst l)) in *.
  assert (Forall (fun x => sp_start (snd x) <= sp_end (snd x) /\ sp_end (snd x) <= length src) ls) as Hsp.
  { apply Forall_forall. intros x Hx. apply (proj1 (proj2 Hls x)) in Hx as (bb' & i & r & Hb & E & _). change (snd x) with (snd (tident x)).
    apply (token_range _ _ _ _ Hix). destruct (function_body_at _ _ _ _ _ _ Hix Hid) as (kw & sig & body & Hs & _ & _ & Eb & _). rewrite Eb in Hb. destruct Hix as [Hp _].
    eapply tree_token_in; [exact Hp|exact Hs|]. eapply block_tokens_in; [exact Hb|]. unfold bb_tokens. rewrite E. left. reflexivity. }
  destruct (function_body_at _ _ _ _ _ _ Hix Hid) as (kw & sig & body & Hs & _ & _ & Eb & _).
  assert (exists c, bb_label_comma bb = Some c /\ sp_end c <= length src) as (c & Ec & Hc).
  { destruct Hix as [Hp _]. pose proof (def_labels _ _ _ _ _ _ Hp Hs) as Hl. rewrite Forall_forall in Hl. rewrite Eb in Hbb.
    destruct (Hl bb Hbb) as [[E _]|(l' & c & _ & Ec)]; [congruence|]. exists c. split; [exact Ec|].
    change c with (snd (tp (ch ":") c)). apply (token_range _ _ _ _ Hix). eapply tree_token_in; [exact Hp|exact Hs|]. eapply block_tokens_in; [exact Hbb|].
    unfold bb_tokens. apply in_or_app. right. apply in_or_app. left. rewrite Ec. left. reflexivity. }
  rewrite Ec. cbn [obind]. rewrite (position_shown src _ Hsrc) by assumption. cbn [obind].
  destruct ls as [|x ls']; cbn [obind].
  - exists []. split; [|reflexivity]. exists []. auto.
  - eexists. split; [|reflexivity]. exists (x :: ls'). split; [exact Hls|]. right. split; [discriminate|]. exists c. split; [reflexivity|].
    rewrite (shown_parts (x :: ls') Hsp). reflexivity.
Qed.
Lemma shown_map_hints fb blocks l : (forall bb, In bb l -> exists hs, shown_block_hint src uri blocks bb hs /\
    match incoming_hint src uri fb bb with Some h => [h] | None => [] end = hs) ->
  exists hss, Forall2 (fun x hs => shown_block_hint src uri (fst x) (snd x) hs) (map (pair blocks) l) hss /\
    filter_map (incoming_hint src uri fb) l = concat hss.
Proof.
  intros Hb. induction l as [|bb l IHl]; [exists []; split; [constructor|reflexivity]|].
  destruct IHl as (hss' & G1 & G2); [intros; apply Hb; right; assumption|]. destruct (Hb bb (or_introl eq_refl)) as (hs & G3 & <-).
  eexists (_ :: hss'). split; [constructor; [exact G3|exact G1]|]. cbn [filter_map concat]. rewrite <- G2. destruct (incoming_hint src uri fb bb); reflexivity.
Qed.
Lemma shown_incoming_hints : exists hss,
  Forall2 (fun x hs => shown_block_hint src uri (fst x) (snd x) hs) (blocks_in_context (pr_stmts pr)) hss /\
  incoming_hints d uri = concat hss.
Proof.
  unfold incoming_hints, blocks_in_context. rewrite Hrope. pose proof (function_bodies_defs _ _ _ _ Hix) as HF.
  assert (forall fb, In fb (function_bodies (doc_index d)) -> forall bb, In bb (basic_blocks fb) -> exists hs, shown_block_hint src uri (basic_blocks fb) bb hs /\
    match incoming_hint src uri fb bb with Some h => [h] | None => [] end = hs) as Hb.
  { intros fb Hfb bb Hbb. apply In_nth_error in Hfb as [id Hid]. eapply shown_block; eassumption. }
  clear Hix. induction HF as [|fb def fbs defs [_ E] HF IH]; [exists []; split; [constructor|reflexivity]|].
  destruct IH as (hss & H1 & H2); [intros; apply Hb; [right; assumption|assumption]|].
  assert (exists hss', Forall2 (fun x hs => shown_block_hint src uri (fst x) (snd x) hs) (map (pair (fb_blocks (snd def))) (fb_blocks (snd def))) hss' /\
    filter_map (incoming_hint src uri fb) (basic_blocks fb) = concat hss') as (hss' & H3 & H4).
  { specialize (Hb fb (or_introl eq_refl)). rewrite E in Hb. rewrite E. apply shown_map_hints. exact Hb. }
  exists (hss' ++ hss). split; [cbn [flat_map]; apply Forall2_app; assumption|]. cbn [flat_map]. rewrite H4, H2, concat_app. reflexivity.
Qed.

(** ** The other hints *)
Lemma shown_end_hints : filter_map (end_hint d uri) (function_bodies (doc_index d)) = map (fun f => function_end_hint src uri (shown_def src f)) (function_defs (pr_stmts pr)).
Proof.
  assert (Forall2 (fun fb def => end_hint d uri fb = Some (function_end_hint src uri (shown_def src def))) (function_bodies (doc_index d)) (function_defs (pr_stmts pr))) as H.
  { pose proof (function_bodies_defs _ _ _ _ Hix) as HF. apply Forall2_nth_error_iff. apply Forall2_nth_error_iff in HF. destruct HF as [Hlen HF].
    split; [exact Hlen|]. intros n fb def E1 E2. destruct (HF n fb def E1 E2) as [En Eb].
    destruct (function_body_at _ _ _ _ _ _ Hix E1) as (kw & sig & body & Hs & E & _ & _ & Er).
    assert (def = (sig, body)) as -> by congruence. unfold end_hint, function_end_hint, shown_def, shown_sig, shown_name. cbn [fst snd fs_name fb_close] in *. rewrite Hrope, Er, En. cbn [sp_end].
    assert (sp_end (fb_close body) <= length src) as Hc.
    { change (fb_close body) with (snd (tp (ch "}") (fb_close body))). apply (token_range _ _ _ _ Hix). destruct Hix as [Hp _]. eapply tree_token_in; [exact Hp|exact Hs|].
      cbn [stmt_tokens]. right. apply in_or_app. right. apply in_or_app. right. apply in_or_app. right. left. reflexivity. }
    assert (In (tglobal (fs_name sig)) (pr_tokens pr)) as Hn.
    { destruct Hix as [Hp _]. eapply tree_token_in; [exact Hp|exact Hs|].
      cbn [stmt_tokens]. right. apply in_or_app. left. unfold sig_tokens. apply in_or_app. right. right. left. reflexivity. }
    apply (token_range _ _ _ _ Hix) in Hn as [H1 H2]. rewrite (position_shown src _ Hsrc) by assumption. cbn [obind].
    rewrite (range_shown src (snd (fs_name sig)) Hsrc H1 H2). reflexivity. }
  induction H as [|fb def fbs defs H _ IH]; [reflexivity|]. cbn. rewrite H, IH. reflexivity.
Qed.

Lemma dbg_written i : In i (instructions (pr_stmts pr)) -> forall r, i_dbg i = Some r -> In (tdbg r) (pr_tokens pr).
Proof.
  intros Hi r Er. unfold instructions, function_defs in Hi. apply in_flat_map in Hi as ([sig body] & Hd & Hi).
  apply in_flat_map in Hd as (st & Hst & Hd). destruct st as [| |kw sig' body'| |]; try contradiction. destruct Hd as [Hd|[]]. inversion Hd; subst. cbn [snd] in Hi.
  apply in_flat_map in Hi as (bb & Hb & Hi). destruct Hix as [Hp _]. eapply tree_token_in; [exact Hp|exact Hst|]. eapply block_tokens_in; [exact Hb|].
  eapply instr_tokens_in; [exact Hi|]. unfold instr_tokens. rewrite !in_app_iff. right. right. right. rewrite Er. left. reflexivity.
Qed.
Lemma shown_backtrace_hint i hs : can_resolve (roots s) -> In i (instructions (pr_stmts pr)) -> backtrace_hint e s d i = Val hs ->
  shown_instr_hint e (roots s) src (pr_stmts pr) i hs.
Proof.
  intros Hroots Hi. unfold backtrace_hint, shown_instr_hint, shown_json. destruct (i_dbg i) as [r|] eqn:Er; cbn [obind]; [|intros H; injection H as <-; reflexivity].
  destruct (indexed_ok _ _ _ _ Hix) as ([_ _ _ _ _ _ _ _ _ Hval] & _). rewrite Hval, (values_shown src _ _ (indexed_slices _ _ _ _ Hix)).
  destruct (shown_value src (pr_stmts pr) (fst r)) as [v|]; cbn [obind]; [|intros H; injection H as <-; reflexivity].
  destruct (e_json_parse e v) as [j|]; cbn [obind]; [|intros H; injection H as <-; reflexivity].
  destruct (parse_backtrace_spec (e_fs e) (roots s) j Hroots) as [(fields & l & frames & -> & Ef & -> & HF)|[Hno ->]]; cbn [rbind].
  - apply (dbg_written _ Hi) in Er as Ht. apply (token_range _ _ _ _ Hix) in Ht as [_ Ht]. cbn [tdbg snd] in Ht. rewrite Hrope.
    rewrite (position_shown src _ Hsrc) by assumption. destruct (inlay_hint_for_backtrace _ _ _ frames) as [h|] eqn:E; cbn [rmap rbind]; [|discriminate].
    intros H; injection H as <-. right. apply (backtrace_label e) in E as (parts & tip & -> & Hrel & Htip). exists r, frames, parts, tip.
    split; [reflexivity|]. split; [exists fields, l; auto|]. auto.
  - intros H; injection H as <-. left. split; [|reflexivity]. intros frames (fields & l & -> & E & _). exact (Hno _ _ eq_refl E).
Qed.
End Shown.

Lemma shown_inlay e s uri src d hints : bmp_document src -> opened e s uri src d -> inlay_hint_handler e s uri = Val (Some hints) ->
  exists pr hss bts, parse_from_str (e_u e) src = Val pr /\
    hints = concat hss ++ concat bts ++ map (fun f => function_end_hint src uri (shown_def src f)) (function_defs (pr_stmts pr)) /\
    Forall2 (fun x hs => shown_block_hint src uri (fst x) (snd x) hs) (blocks_in_context (pr_stmts pr)) hss /\
    Forall (Forall other_hint) bts /\
    (can_resolve (roots s) -> Forall2 (shown_instr_hint e (roots s) src (pr_stmts pr)) (instructions (pr_stmts pr)) bts).
Proof.
  intros Hsrc Ho Hh. apply opened_indexed in Ho as (pr & Hix & Hrope & Hst & Hd). unfold inlay_hint_handler in Hh. rewrite Hd, Hst, instructions_eq in Hh.
  destruct (rflat_map (backtrace_hint e s d) (instructions (pr_stmts pr))) as [y|] eqn:Eb; [|discriminate]. cbn [rbind] in Hh. injection Hh as <-.
  apply rflat_map_val in Eb as (bts & Hb & ->). destruct (shown_incoming_hints e uri src d pr Hsrc Hix Hrope) as (hss & H1 & H2).
  exists pr, hss, bts. split; [exact (proj1 Hix)|]. split; [rewrite H2, (shown_end_hints e uri src d pr Hsrc Hix Hrope); reflexivity|]. split; [exact H1|]. split.
  - clear - Hb. induction Hb as [|i hs l bts H _ IH]; constructor; [|exact IH]. eapply backtrace_hint_other. exact H.
  - intros Hr. assert (forall i hs, In i (instructions (pr_stmts pr)) -> backtrace_hint e s d i = Val hs -> shown_instr_hint e (roots s) src (pr_stmts pr) i hs) as Hs.
    { intros i hs. eapply shown_backtrace_hint; eassumption. }
    revert Hs. clear - Hb. induction Hb as [|i hs l bts H _ IH]; intros Hs; constructor; [apply Hs; [left; reflexivity|exact H]|].
    apply IH. intros. apply Hs; [right; assumption|assumption].
Qed.


(** ** Lenses *)
Lemma shown_lenses e s uri src d : bmp_document src -> visits_all (e_ord e) -> opened e s uri src d ->
  exists ls, code_lens e s uri = Some ls /\
    Permutation ls (map (fun f => function_lens src uri (shown_def src f)) (filter (defined_once (doc_stmts d)) (function_defs (doc_stmts d)))).
Proof.
  intros Hsrc Hord Ho. apply opened_indexed in Ho as (pr & Hix & Hrope & Hst & Hg). rewrite Hst. eexists. split; [eapply code_lens_eq; eassumption|].
  assert (forall l, (forall f sp, In f l -> defs (snd f) = [sp] -> lens_of uri src (fst f) sp = Some (mkLens (lsp_range src (displaced src sp)) (str "visualize-cfg") [JStr uri; JStr (fst f)])) ->
    filter_map (fun f => match defs (snd f) with [sp] => lens_of uri src (fst f) sp | _ => None end) l =
    map (fun x => mkLens (lsp_range src (displaced src (snd x))) (str "visualize-cfg") [JStr uri; JStr (fst x)])
      (flat_map (fun f => match defs (snd f) with [sp] => [(fst f, sp)] | _ => [] end) l)) as Hfm.
  { induction l as [|f l IH]; intros H; [reflexivity|]. cbn [filter_map flat_map]. specialize (H f) as Hf. rewrite IH by (intros; apply H; [right; assumption|assumption]).
    destruct (defs (snd f)) as [|sp [|? ?]]; try reflexivity. rewrite (Hf sp (or_introl eq_refl) eq_refl). reflexivity. }
  rewrite Hfm.
  - transitivity (map (fun x : text * span => mkLens (lsp_range src (displaced src (snd x))) (str "visualize-cfg") [JStr uri; JStr (fst x)])
      (map (fun f => fs_name (fst f)) (filter (defined_once (pr_stmts pr)) (function_defs (pr_stmts pr))))).
    2:{ rewrite map_map. apply Permutation_refl. }
    apply Permutation_map. transitivity (flat_map (fun f : text * use_def_list => match defs (snd f) with [sp] => [(fst f, sp)] | _ => [] end) (functions (doc_index d))).
    { apply Permutation_flat_map. apply Hord. }
    apply NoDup_Permutation.
    + apply nodup_pairs. apply (fun_table _ _ _ _ Hix).
    + pose proof (function_names_nodup _ _ _ _ Hix) as Hn. apply nodup_map_injective; [|apply NoDup_filter; eapply NoDup_map_inv; exact Hn].
      intros x y Hx Hy. apply filter_In in Hx as [Hx _]. apply filter_In in Hy as [Hy _]. exact (nodup_map_inj _ _ x y Hn Hx Hy).
    + intros [n sp]. rewrite in_flat_map, in_map_iff. split.
      * intros ([n' ud] & Hin & Hp). cbn [fst snd] in Hp. destruct (defs ud) as [|sp' [|? ?]] eqn:E; try contradiction. destruct Hp as [Ep|[]]. inversion Ep; subst.
        destruct (single_def _ _ _ _ Hix _ _ _ Hin E) as (f & H1 & H2 & H3). exists f. split; [exact H3|]. apply filter_In. auto.
      * intros (f & Ef & Hf). apply filter_In in Hf as [H1 H2]. destruct (single_in_table _ _ _ _ Hix _ H1 H2) as (ud & H3 & H4). rewrite Ef in *. cbn [fst snd] in *.
        exists (n, ud). split; [exact H3|]. cbn [fst snd]. rewrite H4. left. reflexivity.
  - intros [n ud] sp Hin Hd. cbn [fst snd] in *. eapply Permutation_in in Hin; [|apply Hord]. destruct (single_def _ _ _ _ Hix _ _ _ Hin Hd) as (f & H1 & H2 & H3).
    unfold lens_of. rewrite range_shown; [reflexivity|exact Hsrc| |].
    all: assert (In (occ_token (occ Def KFunction None (n, sp))) (pr_tokens pr)) as Ht; [|apply (token_range _ _ _ _ Hix) in Ht; cbn in Ht; tauto].
    all: destruct (indexed_ok _ _ _ _ Hix) as (_ & _ & Hsp & Hsub & _); eapply recorded_token; try eassumption.
    all: rewrite (recorded_eq _ _ _ Hsp Hsub); apply in_or_app; left.
    all: assert (In (occ Def KFunction None (n, sp)) (filter (of_kind Def KFunction None) (tree_occs 0 (pr_stmts pr)))) as Hf; [|apply filter_In in Hf; tauto].
    all: rewrite fun_occs; apply in_map_iff; exists f; rewrite H3; auto.
Qed.

(** ** Outline *)
Section Outline.
Variables (e : env) (s : server) (uri src : text) (d : doc) (pr : parser_result).
Hypothesis Hix : indexed (e_u e) src pr (doc_index d).
Hypothesis Hrope : doc_rope d = src.
Hypothesis Hget : get_doc s uri = Some d.
Hypothesis Hsrc : bmp_document src.

Lemma shown_variables : visits_all (e_ord e) ->
  Permutation (flat_map (fun f => filter_map (fun sp => obind (range_to_lsp src sp) (fun r => Some (mkSym (fst f) SKConstant r r))) (defs (snd f))) (e_ord e (global_vars (doc_index d))))
    (map (fun x => variable_symbol src (shown_name src x)) (variable_names (pr_stmts pr))).
Proof.
  intros Hord. destruct (indexed_ok _ _ _ _ Hix) as (_ & Hi & Hsp & Hsub & _). pose proof (ii_glob _ _ Hi) as Ht.
  assert (Hall : forall n ud sp, In (n, ud) (global_vars (doc_index d)) -> In sp (defs ud) -> sp_start sp <= sp_end sp /\ sp_end sp <= length src).
  { intros n ud sp Hin Hs. destruct Ht as [Hk Ht]. apply (in_alookup _ _ _ Hk) in Hin. specialize (Ht n). rewrite Hin in Ht. destruct Ht as (_ & _ & Ht & _).
    rewrite Ht in Hs. apply in_spans_of in Hs as (o & Ho & <- & _). apply (recorded_range _ _ _ _ Hix). exact Ho. }
  transitivity (map (fun x => variable_symbol src (shown_name src x)) (flat_map (fun x => map (pair (fst x)) (get_use_def_kind (snd x) Def)) (e_ord e (global_vars (doc_index d))))).
  - assert (forall m, (forall x sp, In x m -> In sp (defs (snd x)) -> sp_start sp <= sp_end sp /\ sp_end sp <= length src) ->
      flat_map (fun f => filter_map (fun sp => obind (range_to_lsp src sp) (fun r => Some (mkSym (fst f) SKConstant r r))) (defs (snd f))) m =
      map (fun x => variable_symbol src (shown_name src x)) (flat_map (fun x : text * use_def_list => map (pair (fst x)) (get_use_def_kind (snd x) Def)) m)) as G.
    { induction m as [|x m IH]; intros Hm; [reflexivity|]. cbn [flat_map]. rewrite map_app, IH by (intros; eapply Hm; [right; eassumption|assumption]). f_equal.
      rewrite map_map. apply filter_map_all. intros sp Hs. destruct (Hm x sp (or_introl eq_refl) Hs). rewrite range_shown by assumption. reflexivity. }
    rewrite G; [apply Permutation_refl|]. intros [n ud] sp Hin Hs. eapply Permutation_in in Hin; [|apply Hord]. eapply Hall; eassumption.
  - transitivity (map (fun x => variable_symbol src (shown_name src x)) (flat_map (fun x => map (pair (fst x)) (get_use_def_kind (snd x) Def)) (global_vars (doc_index d)))).
    { apply Permutation_map, Permutation_flat_map, Hord. }
    apply Permutation_map. transitivity (map (fun o => (o_name o, o_span o)) (filter (of_kind Def KGlobalVar None) (recorded (pr_stmts pr) (pr_tokens pr)))).
    { apply table_pairs; [exact Ht|]. eapply recorded_nodup; eassumption. }
    rewrite (recorded_defs _ _ _ _ Hix), var_occs, map_map. unfold var_names, variable_names. erewrite map_ext; [rewrite map_id; apply Permutation_refl|]. intros [? ?]; reflexivity.
Qed.
Lemma shown_functions :
  filter_map (fun f => obind (range_to_lsp src (complete_range f)) (fun r => obind (range_to_lsp src (snd (fb_name f))) (fun r' =>
    Some (mkSym (fst (fb_name f)) SKFunction r r')))) (function_bodies (doc_index d)) = function_outline src (map (shown_function src) (pr_stmts pr)) /\
  Forall (fun x => range_in (ds_selection x) (ds_range x)) (function_outline src (map (shown_function src) (pr_stmts pr))).
Proof.
  destruct (indexed_ok _ _ _ _ Hix) as (Ho & _). pose proof (io_ranges _ _ _ _ Ho) as Hr. pose proof (io_names _ _ _ _ Ho) as Hn.
  set (fsym := fun x : span * (func_sig * func_body) => mkSym (fst (fs_name (fst (snd x)))) SKFunction (lsp_range src (displaced src (range3 x))) (lsp_range src (displaced src (snd (fs_name (fst (snd x))))))).
  assert (function_outline src (map (shown_function src) (pr_stmts pr)) = map fsym (defs3 (pr_stmts pr))) as Ef.
  { unfold function_outline, defs3. clear. induction (pr_stmts pr) as [|x ss IH]; [reflexivity|]. cbn [flat_map map]. rewrite map_app, <- IH. destruct x; reflexivity. }
  assert (map fb_name (function_bodies (doc_index d)) = map (fun x => fs_name (fst (snd x))) (defs3 (pr_stmts pr))) as Hn'.
  { rewrite Hn. unfold defs3. clear. induction (pr_stmts pr) as [|x ss IH]; [reflexivity|]. cbn [flat_map]. rewrite map_app, <- IH. destruct x; reflexivity. }
  rewrite ranges3 in Hr. rewrite Ef.
  pose proof (def3_bounds e src d pr Hix Hrope (proj2 Hsrc)) as Hb.
  assert (forall x, In x (defs3 (pr_stmts pr)) -> let sp := snd (fs_name (fst (snd x))) in
    sp_start (range3 x) <= sp_start sp /\ sp_start sp <= sp_end sp /\ sp_end sp <= sp_end (range3 x)) as Hname.
  { intros [kw [sig body]] Hx. apply in_defs3 in Hx. cbn [fst snd] in *. pose proof Hix as [Hp _]. pose proof (layout _ _ _ Hp) as (W & _ & _). rewrite Forall_forall in W. apply W in Hx as [W1 _].
    cbn [range3 fst snd sp_start sp_end]. cbn [app] in W1. inversion W1 as [|? ? ? _ K1 K2]; subst. inversion K2 as [|? ? ? K3 K4 K5]; subst. inversion K5 as [|? ? ? K6 K7 K8]; subst.
    assert (forall l n, ranges_in_order n (l ++ [fb_close body]) -> n <= sp_end (fb_close body)) as Hl.
    { induction l as [|b l IH]; intros n Hl; inversion Hl as [|? ? ? R1 R2 R3]; subst; [lia|]. apply IH in R3. lia. }
    apply Hl in K8. cbv zeta. lia. }
  assert (forall p q, p <= q -> q <= length src -> pos_le (lsp_position src p) (lsp_position src q)) as Hm.
  { intros p q. exact (bmp_mono src p q Hsrc). }
  split.
  - revert Hr Hn' Hb Hname. generalize (defs3 (pr_stmts pr)) as l. clear - Hsrc. induction (function_bodies (doc_index d)) as [|fb fbs IH]; intros [|x l] Hr Hn' Hb Hname; try discriminate; [reflexivity|].
    cbn [map] in Hr, Hn'. injection Hr as R1 R2. injection Hn' as N1 N2. cbn [filter_map map]. rewrite R1, N1.
    destruct (Hb x (or_introl eq_refl)) as (B1 & B2 & _). destruct (Hname x (or_introl eq_refl)) as (C1 & C2 & C3).
    rewrite !range_shown by (assumption || lia). cbn [obind]. f_equal. apply IH; [exact R2|exact N2| |]; intros; [apply Hb|apply Hname]; right; assumption.
  - apply Forall_forall. intros y Hy. apply in_map_iff in Hy as (x & <- & Hx). destruct (Hb x Hx) as (B1 & B2 & _). destruct (Hname x Hx) as (C1 & C2 & C3).
    cbn [ds_selection ds_range fsym lsp_range r_start r_end displaced sp_start sp_end]. split; apply Hm; (apply fitting_mono; lia) || apply fitting_length.
Qed.

End Outline.
Lemma shown_outline e s uri src d : bmp_document src -> visits_all (e_ord e) -> opened e s uri src d ->
  exists vs, document_symbol e s uri = Some (vs ++ function_outline src (map (shown_function src) (doc_stmts d))) /\
    Permutation vs (map (fun x => variable_symbol src (shown_name src x)) (variable_names (doc_stmts d))) /\
    Forall (fun x => range_in (ds_selection x) (ds_range x)) (function_outline src (map (shown_function src) (doc_stmts d))).
Proof.
  intros Hsrc Hord Ho. apply opened_indexed in Ho as (pr & Hix & Hrope & -> & Hg). unfold document_symbol. rewrite Hg. cbn [obind]. rewrite Hrope.
  destruct (shown_functions e src d pr Hix Hrope Hsrc) as [E1 E2]. rewrite E1. eexists. split; [reflexivity|]. split; [|exact E2].
  apply (shown_variables e src d pr Hix Hsrc); assumption.
Qed.

(** ** Folding *)
Lemma shown_folds e s uri src d : bmp_document src -> opened e s uri src d ->
  exists fs bss, folding_range s uri = Some (fs ++ concat bss) /\
    Forall2 (fun sp x => folds src (displaced src sp) x) (flat_map func_ranges (doc_stmts d)) fs /\
    Forall2 (Forall2 (fun sp x => folds src (displaced src sp) x)) (block_spans (doc_stmts d)) bss.
Proof.
  intros Hsrc Ho. apply opened_indexed in Ho as (pr & Hix & Hrope & -> & Hg).
  destruct (folding_eq e s uri src d pr Hix Hrope Hg (proj2 Hsrc)) as (fs & bss & E & HF & HB). exists fs, bss. split; [exact E|].
  pose proof (def3_bounds e src d pr Hix Hrope (proj2 Hsrc)) as Hb.
  assert (forall sp x, sp_start sp <= sp_end sp -> sp_end sp <= length src -> fold_at src sp x -> folds src (displaced src sp) x) as G.
  { intros sp x H1 H2 (r & Er & F1 & F2). rewrite range_shown in Er by assumption. injection Er as <-. split; assumption. }
  split.
  - rewrite ranges3. apply Forall2_map_l. revert HF. clear - G Hb. generalize fs. induction (defs3 (pr_stmts pr)) as [|x l IH]; intros fs0 HF; inversion HF as [|? ? ? ? H1 H2]; subst; constructor.
    + destruct (Hb x (or_introl eq_refl)) as (B1 & B2 & _). apply G; [lia|exact B2|exact H1].
    + apply IH; [intros z Hz; apply Hb; right; exact Hz|exact H2].
  - rewrite blocks3_eq. apply Forall2_map_l. revert HB. clear - G Hb. generalize bss. induction (defs3 (pr_stmts pr)) as [|x l IH]; intros bs0 HB; inversion HB as [|? ? ? ? H1 H2]; subst; constructor.
    + destruct (Hb x (or_introl eq_refl)) as (B1 & B2 & B3). clear - G H1 B2 B3. induction H1; constructor; inversion B3 as [|? ? K1 K2]; subst; [apply G; [lia|lia|assumption]|auto].
    + apply IH; [intros z Hz; apply Hb; right; exact Hz|exact H2].
Qed.

(** ** Highlighting *)
Lemma shown_tokens u src toks errs : bmp_document src -> tokenize u src = Val (Some toks, errs) ->
  exists hs out, semantic_tokens_from_tokens toks = Val hs /\ convert_to_lsp_tokens src hs = Val out /\
    Forall2 (shows (shown_place src)) (filter_map highlighted toks) (decode out).
Proof.
  intros Hsrc H. eapply document_semantic_tokens; [exact (proj2 Hsrc)| |exact H]. intros p Hp. apply position_shown; assumption.
Qed.
