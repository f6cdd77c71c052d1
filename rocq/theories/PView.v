(** Code lenses, document symbols, folding ranges, definitions and references. *)
From Verif Require Import Text Rope Chumsky Tokenizer Parser Numbers Index SemTok Diag Rename Cfg Backtrace Server SpecText SpecLex SpecParse SpecIndex SpecDiag SpecBacktrace SpecCfg
  PText PRope PLexSpec PLexProps PTokens PParse PParseProps PIndex PIndexDoc PIndexText PDiag PDiagDoc PCfg PHints.

(** ** Definitions in the tree *)
Lemma body_occ_local id (sig : func_sig) (body : func_body) o : In o (param_occs id sig ++ flat_map (block_occs id) (fb_blocks body)) ->
  o_kind o = KLocalVar \/ o_kind o = KLabel.
Proof.
  intros H. apply in_app_iff in H as [H|H].
  - apply in_map_iff in H as (a & <- & _). left. reflexivity.
  - apply in_flat_map in H as (bb & _ & H). unfold block_occs in H. apply in_app_iff in H as [H|H].
    + unfold label_occs in H. destruct (bb_label bb); [|contradiction]. destruct H as [<-|[]]. right. reflexivity.
    + apply in_flat_map in H as (i & _ & H). unfold instr_occs in H. apply in_app_iff in H as [H|H].
      * unfold target_occs in H. destruct (i_target i); [|contradiction]. destruct H as [<-|[]]. left. reflexivity.
      * apply in_map_iff in H as (r & <- & _). right. reflexivity.
Qed.
Definition of_kind (ud : use_def_kind) (k : symbol_kind) (b : option nat) (o : occurrence) : bool :=
  (match o_ud o, ud with Decl, Decl | Def, Def | Use, Use => true | _, _ => false end) &&
  (if kind_dec (o_kind o) k then true else false) && (if body_dec (o_body o) b then true else false).
Lemma entry_of_kind ud k b n o : entry_is ud k b n o = of_kind ud k b o && text_eqb (o_name o) n.
Proof. reflexivity. Qed.
Lemma of_kind_spec ud k b o : of_kind ud k b o = true <-> o_ud o = ud /\ o_kind o = k /\ o_body o = b.
Proof.
  unfold of_kind. destruct (kind_dec (o_kind o) k) as [E1|E1], (body_dec (o_body o) b) as [E2|E2]; rewrite ?andb_false_r, ?andb_true_r;
    try (split; [discriminate|intuition congruence]).
  destruct (o_ud o), ud; split; intuition congruence.
Qed.
Lemma filter_none {A} (f : A -> bool) l : (forall x, In x l -> f x = false) -> filter f l = [].
Proof. induction l as [|a l IH]; intros H; [reflexivity|]. cbn. rewrite (H a (or_introl eq_refl)). apply IH. intros. apply H. right. assumption. Qed.
Lemma body_occ_filter ud k id sig body : k <> KLocalVar -> k <> KLabel ->
  filter (of_kind ud k None) (param_occs id sig ++ flat_map (block_occs id) (fb_blocks body)) = [].
Proof.
  intros H1 H2. apply filter_none. intros o Ho. apply body_occ_local in Ho. destruct (of_kind ud k None o) eqn:E; [|reflexivity].
  apply of_kind_spec in E as (_ & E & _). destruct Ho; congruence.
Qed.
Definition var_names (ss : list statement) : list spanned :=
  flat_map (fun s => match s with SGlobalVar x _ => [x] | _ => [] end) ss.
Lemma var_occs ss : forall id, filter (of_kind Def KGlobalVar None) (tree_occs id ss) = map (occ Def KGlobalVar None) (var_names ss).
Proof.
  induction ss as [|s ss IH]; intros id; [reflexivity|]. cbn [tree_occs var_names flat_map]. rewrite filter_app, IH, map_app. f_equal.
  destruct s; cbn [stmt_occs]; try reflexivity. cbn [filter]. rewrite body_occ_filter by discriminate. reflexivity.
Qed.
Lemma fun_occs ss : forall id, filter (of_kind Def KFunction None) (tree_occs id ss) = map (fun f => occ Def KFunction None (fs_name (fst f))) (function_defs ss).
Proof.
  induction ss as [|s ss IH]; intros id; [reflexivity|]. cbn [tree_occs function_defs flat_map]. fold (function_defs ss). rewrite filter_app, IH, map_app. f_equal.
  destruct s; cbn [stmt_occs]; try reflexivity. cbn [filter]. rewrite body_occ_filter by discriminate. reflexivity.
Qed.
Lemma filter_filter_and {A} (f g : A -> bool) l : filter (fun x => f x && g x) l = filter g (filter f l).
Proof. induction l as [|a l IH]; [reflexivity|]. cbn. destruct (f a); cbn; rewrite IH; reflexivity. Qed.

(** ** Tables as sets of pairs *)
Lemma table_pairs m l ud k b : table_is m l k b -> NoDup l ->
  Permutation (flat_map (fun e => map (pair (fst e)) (get_use_def_kind (snd e) ud)) m)
              (map (fun o => (o_name o, o_span o)) (filter (of_kind ud k b) l)).
Proof.
  intros [Hk Ht] Hl.
  assert (Hget : forall n e, In (n, e) m -> get_use_def_kind e ud = spans_of l ud k b n).
  { intros n e Hin. apply (in_alookup _ _ _ Hk) in Hin. specialize (Ht n). rewrite Hin in Ht. destruct ud; cbn; tauto. }
  assert (Hinj : NoDup (map (fun o => (o_name o, o_span o)) (filter (of_kind ud k b) l))).
  { apply nodup_map_injective; [|apply NoDup_filter; exact Hl]. intros x y Hx Hy E. apply filter_In in Hx as [_ Hx]. apply filter_In in Hy as [_ Hy].
    apply of_kind_spec in Hx as (X1 & X2 & X3). apply of_kind_spec in Hy as (Y1 & Y2 & Y3). inversion E. destruct x, y; cbn in *; congruence. }
  apply NoDup_Permutation; [|exact Hinj|].
  - clear Hinj. revert Hk Hget. clear Ht. induction m as [|[n e] m IH]; intros Hk Hget; [constructor|]. cbn [flat_map map fst snd] in *. inversion Hk as [|? ? Hk1 Hk2]; subst.
    apply nodup_app.
    + apply nodup_map_injective; [intros ? ? _ _ E; inversion E; reflexivity|]. cbn [fst snd]. rewrite (Hget n e (or_introl eq_refl)).
      apply spans_of_nodup. exact Hl.
    + apply IH; [exact Hk2|]. intros. apply Hget. right. assumption.
    + intros [n' sp] H1 H2. apply in_map_iff in H1 as (? & E & _). inversion E; subst n'. apply in_flat_map in H2 as ([n' e'] & H2 & H3).
      apply in_map_iff in H3 as (? & E' & _). inversion E'; subst. apply Hk1. apply in_map_iff. exists (n, e'). auto.
  - intros [n sp]. rewrite in_flat_map, in_map_iff. split.
    + intros ([n' e] & Hin & H). apply in_map_iff in H as (sp' & E & H). inversion E; subst. cbn [fst snd] in *. rewrite (Hget n e Hin) in H.
      apply in_spans_of in H as (o & Ho & <- & H1 & H2 & H3 & <-). exists o. split; [reflexivity|]. apply filter_In. rewrite of_kind_spec. auto.
    + intros (o & E & Ho). inversion E; subst. apply filter_In in Ho as [Ho Hs]. apply of_kind_spec in Hs as (E1 & E2 & E3).
      specialize (Ht (o_name o)). destruct (alookup (o_name o) m) as [e|] eqn:El.
      * exists (o_name o, e). split; [apply alookup_in; exact El|]. apply in_map_iff. exists (o_span o). split; [reflexivity|]. cbn [fst snd]. rewrite (Hget _ _ (alookup_in _ _ _ El)).
        apply in_spans_of. exists o. auto 10.
      * exfalso. apply Ht. exists o. auto.
Qed.

(** ** Code lenses *)
Section Document.
Variables (e : env) (s : server) (uri src : text) (d : doc) (pr : parser_result).
Hypothesis Hix : indexed (e_u e) src pr (doc_index d).
Hypothesis Hrope : doc_rope d = src.
Hypothesis Hstmts : doc_stmts d = pr_stmts pr.
Hypothesis Hget : get_doc s uri = Some d.

Lemma def_spans k n : spans_of (recorded (pr_stmts pr) (pr_tokens pr)) Def k None n =
  map o_span (filter (fun o => text_eqb (o_name o) n) (filter (of_kind Def k None) (tree_occs 0 (pr_stmts pr)))).
Proof.
  destruct (indexed_ok _ _ _ _ Hix) as (_ & _ & Hsp & Hsub & _). rewrite (spans_of_tree _ _ _ Hsp Hsub) by discriminate.
  unfold spans_of. rewrite <- filter_filter_and. reflexivity.
Qed.
Lemma fun_spans n : spans_of (recorded (pr_stmts pr) (pr_tokens pr)) Def KFunction None n =
  map (fun f => snd (fs_name (fst f))) (filter (fun f => text_eqb (fst (fs_name (fst f))) n) (function_defs (pr_stmts pr))).
Proof.
  rewrite def_spans, fun_occs. induction (function_defs (pr_stmts pr)) as [|f l IH]; [reflexivity|]. cbn [map filter].
  change (o_name (occ Def KFunction None (fs_name (fst f)))) with (fst (fs_name (fst f))).
  destruct (text_eqb (fst (fs_name (fst f))) n); cbn [map]; rewrite IH; reflexivity.
Qed.
Lemma fun_table : table_is (functions (doc_index d)) (recorded (pr_stmts pr) (pr_tokens pr)) KFunction None.
Proof. destruct (indexed_ok _ _ _ _ Hix) as (_ & Hi & _). apply (ii_fun _ _ Hi). Qed.
Lemma var_table : table_is (global_vars (doc_index d)) (recorded (pr_stmts pr) (pr_tokens pr)) KGlobalVar None.
Proof. destruct (indexed_ok _ _ _ _ Hix) as (_ & Hi & _). apply (ii_glob _ _ Hi). Qed.

Lemma same_name_filter f : filter (same_name f) (function_defs (pr_stmts pr)) =
  filter (fun g => text_eqb (fst (fs_name (fst g))) (fst (fs_name (fst f)))) (function_defs (pr_stmts pr)).
Proof.
  apply filter_ext. intros g. unfold same_name. destruct (text_eqb_spec (fst (fs_name (fst f))) (fst (fs_name (fst g)))) as [->|H].
  - destruct (text_eqb_spec (fst (fs_name (fst g))) (fst (fs_name (fst g)))); congruence.
  - destruct (text_eqb_spec (fst (fs_name (fst g))) (fst (fs_name (fst f)))); congruence.
Qed.
Lemma defined_once_spec f : In f (function_defs (pr_stmts pr)) -> defined_once (pr_stmts pr) f = true ->
  filter (same_name f) (function_defs (pr_stmts pr)) = [f].
Proof.
  intros H1 H2. unfold defined_once in H2. apply Nat.eqb_eq in H2.
  assert (In f (filter (same_name f) (function_defs (pr_stmts pr)))) as H3.
  { apply filter_In. split; [exact H1|]. unfold same_name. destruct (text_eqb_spec (fst (fs_name (fst f))) (fst (fs_name (fst f)))); congruence. }
  destruct (filter _ _) as [|g [|h l]]; cbn in H2; try discriminate. destruct H3 as [->|[]]. reflexivity.
Qed.
(** the single definitions in the table *)
Lemma single_def n ud sp : In (n, ud) (functions (doc_index d)) -> defs ud = [sp] ->
  exists f, In f (function_defs (pr_stmts pr)) /\ defined_once (pr_stmts pr) f = true /\ fs_name (fst f) = (n, sp).
Proof.
  intros Hin Hd. destruct fun_table as [Hk Ht]. apply (in_alookup _ _ _ Hk) in Hin. specialize (Ht n). rewrite Hin in Ht.
  destruct Ht as (_ & _ & Ht & _). rewrite Hd, fun_spans in Ht. destruct (filter _ _) as [|f [|g l]] eqn:E; try discriminate Ht.
  assert (In f (filter (fun f => text_eqb (fst (fs_name (fst f))) n) (function_defs (pr_stmts pr)))) as Hf by (rewrite E; left; reflexivity).
  apply filter_In in Hf as [Hf En]. destruct (text_eqb_spec (fst (fs_name (fst f))) n) as [En'|]; [|discriminate]. exists f. split; [exact Hf|].
  split; [unfold defined_once; rewrite same_name_filter, En', E; reflexivity|]. inversion Ht. rewrite <- En'. apply surjective_pairing.
Qed.
Lemma single_in_table f : In f (function_defs (pr_stmts pr)) -> defined_once (pr_stmts pr) f = true ->
  exists ud, In (fst (fs_name (fst f)), ud) (functions (doc_index d)) /\ defs ud = [snd (fs_name (fst f))].
Proof.
  intros Hf H1. apply (defined_once_spec _ Hf) in H1. destruct fun_table as [Hk Ht]. specialize (Ht (fst (fs_name (fst f)))).
  pose proof (fun_spans (fst (fs_name (fst f)))) as Hs. rewrite <- same_name_filter, H1 in Hs. cbn [map] in Hs.
  destruct (alookup (fst (fs_name (fst f))) (functions (doc_index d))) as [ud|] eqn:E.
  - exists ud. split; [apply alookup_in; exact E|]. destruct Ht as (_ & _ & Ht & _). congruence.
  - exfalso. apply Ht. assert (In (snd (fs_name (fst f))) (spans_of (recorded (pr_stmts pr) (pr_tokens pr)) Def KFunction None (fst (fs_name (fst f))))) as Hin
      by (rewrite Hs; left; reflexivity). apply in_spans_of in Hin as (o & Ho & _ & _ & H2 & H3 & H4). exists o. auto.
Qed.
(** the range sent for a definition *)
Definition lens_of (n : text) (sp : span) : option lens :=
  obind (range_to_lsp src sp) (fun r => Some (mkLens r (str "visualize-cfg") [JStr uri; JStr n])).
Lemma code_lens_eq : code_lens e s uri = Some (filter_map (fun f => match defs (snd f) with [sp] => lens_of (fst f) sp | _ => None end) (e_ord e (functions (doc_index d)))).
Proof. unfold code_lens. rewrite Hget. cbn [obind]. rewrite Hrope. reflexivity. Qed.
End Document.

Lemma nodup_pairs (m : amap use_def_list) : NoDup (map fst m) ->
  NoDup (flat_map (fun f => match defs (snd f) with [sp] => [(fst f, sp)] | _ => [] end) m).
Proof.
  induction m as [|[n ud] m IH]; intros H; [constructor|]. inversion H as [|? ? H1 H2]; subst. cbn [flat_map fst snd].
  destruct (defs ud) as [|sp [|? ?]]; cbn [app]; try (apply IH; exact H2). constructor; [|apply IH; exact H2].
  intros Hin. apply in_flat_map in Hin as ([n' ud'] & Hin & Hp). cbn [fst snd] in Hp. destruct (defs ud') as [|sp' [|? ?]]; try contradiction.
  destruct Hp as [E|[]]. inversion E; subst. apply H1. apply in_map_iff. exists (n, ud'). auto.
Qed.
Lemma function_names_nodup u src pr ix : indexed u src pr ix -> NoDup (map (fun f => fs_name (fst f)) (function_defs (pr_stmts pr))).
Proof.
  intros H. destruct (indexed_ok _ _ _ _ H) as (_ & _ & Hsp & Hsub & Hr). pose proof (tree_nodup _ _ _ Hsp Hsub) as Hn.
  apply NoDup_map_inv in Hn. apply (NoDup_filter (of_kind Def KFunction None)) in Hn. rewrite fun_occs in Hn.
  rewrite <- (map_map (fun f => fs_name (fst f)) (occ Def KFunction None)) in Hn. apply NoDup_map_inv in Hn. exact Hn.
Qed.
Lemma code_lenses e s uri src d : plain_document src -> visits_all (e_ord e) -> opened e s uri src d ->
  exists ls, code_lens e s uri = Some ls /\
    Permutation ls (map (function_lens src uri) (filter (defined_once (doc_stmts d)) (function_defs (doc_stmts d)))).
Proof.
  intros Hsrc Hord Ho. apply opened_indexed in Ho as (pr & Hix & Hrope & Hst & Hg). rewrite Hst. eexists. split; [eapply code_lens_eq; eassumption|].
  assert (forall l, (forall f sp, In f l -> defs (snd f) = [sp] -> lens_of uri src (fst f) sp = Some (mkLens (lsp_range src sp) (str "visualize-cfg") [JStr uri; JStr (fst f)])) ->
    filter_map (fun f => match defs (snd f) with [sp] => lens_of uri src (fst f) sp | _ => None end) l =
    map (fun x => mkLens (lsp_range src (snd x)) (str "visualize-cfg") [JStr uri; JStr (fst x)])
      (flat_map (fun f => match defs (snd f) with [sp] => [(fst f, sp)] | _ => [] end) l)) as Hfm.
  { induction l as [|f l IH]; intros H; [reflexivity|]. cbn [filter_map flat_map]. specialize (H f) as Hf. rewrite IH by (intros; apply H; [right; assumption|assumption]).
    destruct (defs (snd f)) as [|sp [|? ?]]; try reflexivity. rewrite (Hf sp (or_introl eq_refl) eq_refl). reflexivity. }
  rewrite Hfm.
  - transitivity (map (fun x : text * span => mkLens (lsp_range src (snd x)) (str "visualize-cfg") [JStr uri; JStr (fst x)])
      (map (fun f => fs_name (fst f)) (filter (defined_once (pr_stmts pr)) (function_defs (pr_stmts pr))))).
    2:{ rewrite map_map. apply Permutation_refl. }
    apply Permutation_map. transitivity (flat_map (fun f : text * use_def_list => match defs (snd f) with [sp] => [(fst f, sp)] | _ => [] end) (functions (doc_index d))).
    { apply Permutation_flat_map. apply Hord. }
    apply NoDup_Permutation.
    + apply nodup_pairs. apply (fun_table _ _ _ _ Hix).
    + pose proof (function_names_nodup _ _ _ _ Hix) as Hn. apply nodup_map_injective; [|apply NoDup_filter; eapply NoDup_map_inv; exact Hn].
      intros x y Hx Hy. apply filter_In in Hx as [Hx _]. apply filter_In in Hy as [Hy _]. exact (nodup_map_inj _ _ x y Hn Hx Hy).
    + intros [n sp]. rewrite in_flat_map, in_map_iff. split.
      * intros ([n' ud] & Hin & Hp). cbn [fst snd] in Hp. destruct (defs ud) as [|sp' [|? ?]] eqn:E; try contradiction. destruct Hp as [Ep|[]]. inversion Ep; subst.
        destruct (single_def _ _ _ _ Hix _ _ _ Hin E) as (f & H1 & H2 & H3). exists f. split; [exact H3|]. apply filter_In. auto.
      * intros (f & Ef & Hf). apply filter_In in Hf as [H1 H2]. destruct (single_in_table _ _ _ _ Hix _ H1 H2) as (ud & H3 & H4). rewrite Ef in *. cbn [fst snd] in *.
        exists (n, ud). split; [exact H3|]. cbn [fst snd]. rewrite H4. left. reflexivity.
  - intros [n ud] sp Hin Hd. cbn [fst snd] in *. eapply Permutation_in in Hin; [|apply Hord]. destruct (single_def _ _ _ _ Hix _ _ _ Hin Hd) as (f & H1 & H2 & H3).
    unfold lens_of. rewrite plain_range; [reflexivity|exact Hsrc| |].
    all: assert (In (occ_token (occ Def KFunction None (n, sp))) (pr_tokens pr)) as Ht; [|apply (token_range _ _ _ _ Hix) in Ht; cbn in Ht; tauto].
    all: destruct (indexed_ok _ _ _ _ Hix) as (_ & _ & Hsp & Hsub & _); eapply recorded_token; try eassumption.
    all: rewrite (recorded_eq _ _ _ Hsp Hsub); apply in_or_app; left.
    all: assert (In (occ Def KFunction None (n, sp)) (filter (of_kind Def KFunction None) (tree_occs 0 (pr_stmts pr)))) as Hf; [|apply filter_In in Hf; tauto].
    all: rewrite fun_occs; apply in_map_iff; exists f; rewrite H3; auto.
Qed.
(** whatever the text, a lens belongs to a function *)
Lemma lens_sound e s uri src d ls x : visits_all (e_ord e) -> opened e s uri src d -> code_lens e s uri = Some ls -> In x ls ->
  exists f, In f (function_defs (doc_stmts d)) /\ defined_once (doc_stmts d) f = true /\
    cl_command x = str "visualize-cfg" /\ cl_args x = [JStr uri; JStr (fst (fs_name (fst f)))].
Proof.
  intros Hord Ho Hl Hx. apply opened_indexed in Ho as (pr & Hix & Hrope & Hst & Hg). rewrite (code_lens_eq e s uri src d Hrope Hg) in Hl.
  injection Hl as <-. apply in_filter_map in Hx as ([n ud] & Hin & Hx). cbn [fst snd] in Hx. destruct (defs ud) as [|sp [|? ?]] eqn:E; try discriminate.
  eapply Permutation_in in Hin; [|apply Hord]. destruct (single_def _ _ _ _ Hix _ _ _ Hin E) as (f & H1 & H2 & H3). exists f. rewrite Hst. split; [exact H1|]. split; [exact H2|].
  unfold lens_of in Hx. destruct (range_to_lsp src sp); [|discriminate]. injection Hx as <-. rewrite H3. auto.
Qed.
Lemma show_body e s uri src d f : opened e s uri src d -> In f (function_defs (doc_stmts d)) -> defined_once (doc_stmts d) f = true ->
  exists u pr fb, indexed u src pr (doc_index d) /\ In fb (function_bodies (doc_index d)) /\ fb_name fb = fs_name (fst f) /\ basic_blocks fb = fb_blocks (snd f) /\
    execute_command s (str "visualize-cfg") [JStr uri; JStr (fst (fs_name (fst f)))] =
      Reply (mkShow (str "CFG for " ++ fst (fs_name (fst f))) (create_cfg_dot_visualization fb)).
Proof.
  intros Ho Hf H1. apply opened_indexed in Ho as (pr & Hix & Hrope & Hst & Hg). rewrite Hst in *. pose proof (function_bodies_defs _ _ _ _ Hix) as HF.
  pose proof (defined_once_spec _ _ Hf H1) as Hu. unfold execute_command. rewrite Hg.
  replace (text_eqb (str "visualize-cfg") (str "visualize-cfg")) with true by (symmetry; destruct (text_eqb_spec (str "visualize-cfg") (str "visualize-cfg")); congruence).
  destruct (find _ _) as [fb|] eqn:E.
  - apply find_some in E as [Hin En].
    destruct (text_eqb_spec (fst (fb_name fb)) (fst (fs_name (fst f)))) as [En'|]; [|discriminate].
    apply In_nth_error in Hin as Hn. destruct Hn as [id Hn]. destruct (function_body_at _ _ _ _ _ _ Hix Hn) as (kw & sig & body & _ & Hd & E1 & E2 & _).
    assert ((sig, body) = f) as <-.
    { assert (In (sig, body) (filter (same_name f) (function_defs (pr_stmts pr)))) as G; [|rewrite Hu in G; destruct G as [<-|[]]; reflexivity].
      apply filter_In. split; [eapply nth_error_In; exact Hd|]. unfold same_name. cbn [fst]. rewrite <- E1, En'.
      destruct (text_eqb_spec (fst (fs_name (fst f))) (fst (fs_name (fst f)))); congruence. }
    cbn [fst snd] in *. eexists _, pr, fb. split; [exact Hix|]. split; [exact Hin|]. split; [exact E1|]. split; [exact E2|reflexivity].
  - exfalso. apply In_nth_error in Hf as [id Hf']. destruct (nth_error (function_bodies (doc_index d)) id) as [fb|] eqn:En.
    + apply Forall2_nth_error_iff in HF as [_ HF]. destruct (HF _ _ _ En Hf') as [E1 _]. apply nth_error_In in En. eapply find_none in E; [|exact En].
      cbn in E. rewrite E1 in E. destruct (text_eqb_spec (fst (fs_name (fst f))) (fst (fs_name (fst f)))); congruence.
    + apply Forall2_nth_error_iff in HF as [HF _]. apply nth_error_None in En. assert (nth_error (function_defs (pr_stmts pr)) id <> None) as G by congruence.
      apply nth_error_Some in G. lia.
Qed.
Lemma show_graph_of e s uri src d f : opened e s uri src d -> In f (function_defs (doc_stmts d)) -> defined_once (doc_stmts d) f = true ->
  exists t, execute_command s (str "visualize-cfg") [JStr uri; JStr (fst (fs_name (fst f)))] =
      Reply (mkShow (str "CFG for " ++ fst (fs_name (fst f))) t) /\
    graph_of (fst (fs_name (fst f))) (fb_blocks (snd f)) t.
Proof.
  intros Ho Hf H1. destruct (show_body _ _ _ _ _ _ Ho Hf H1) as (u & pr & fb & Hix & Hin & E1 & E2 & E). eexists. split; [exact E|].
  intros x. rewrite (dot_line_iff _ _ _ _ _ Hix Hin), E1, E2. tauto.
Qed.

(** ** Hints *)
Lemma document_end_hints e s uri src d hints : plain_document src -> opened e s uri src d -> inlay_hint_handler e s uri = Val (Some hints) ->
  exists pre, hints = pre ++ map (function_end_hint src uri) (function_defs (doc_stmts d)).
Proof.
  intros H1 H2 H3. destruct (inlay_document _ _ _ _ _ _ H1 H2 H3) as (pr & hss & bts & Hp & E & _).
  apply opened_indexed in H2 as (pr' & [Hp' _] & _ & -> & _). assert (pr' = pr) as -> by congruence.
  exists (concat hss ++ concat bts). rewrite <- app_assoc. exact E.
Qed.
Lemma document_backtrace_hints e s uri src d hints : plain_document src -> opened e s uri src d -> can_resolve (roots s) ->
  inlay_hint_handler e s uri = Val (Some hints) ->
  exists pre bts post, hints = pre ++ concat bts ++ post /\ Forall2 (instr_hint e (roots s) src (doc_stmts d)) (instructions (doc_stmts d)) bts.
Proof.
  intros H1 H2 Hr H3. destruct (inlay_document _ _ _ _ _ _ H1 H2 H3) as (pr & hss & bts & Hp & E & _ & _ & H).
  apply opened_indexed in H2 as (pr' & [Hp' _] & _ & -> & _). assert (pr' = pr) as -> by congruence.
  exists (concat hss), bts, (map (function_end_hint src uri) (function_defs (pr_stmts pr))). split; [exact E|exact (H Hr)].
Qed.
