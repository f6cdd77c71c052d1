(** Definition, declaration, references and rename agree about a symbol. *)
From Verif Require Import Text Rope Chumsky Tokenizer Parser Numbers Index SemTok Diag Rename Cfg Backtrace Server SpecText SpecLex SpecParse SpecIndex SpecDiag SpecBacktrace SpecCfg SpecView SpecRename SpecCoherent
  PText PRope PParse PParseProps PIndex PIndexDoc PIndexText PDiag PDiagDoc PCfg PBacktrace PHints PView PNav PRename PRequest PSumIndex PSumNav.

Section Document.
Variables (e : env) (s : server) (uri src : text) (d : doc) (pr : parser_result).
Hypothesis Hix : indexed (e_u e) src pr (doc_index d).
Hypothesis Hrope : doc_rope d = src.
Hypothesis Hget : get_doc s uri = Some d.
Hypothesis Hsrc : plain_document src.
Notation l := (recorded (pr_stmts pr) (pr_tokens pr)).

Lemma covering_token o x p : In o l -> In x l -> covers (o_span o) p -> covers (o_span x) p -> occ_token o = occ_token x.
Proof.
  intros H1 H2 [C1 C2] [D1 D2]. destruct (indexed_ok _ _ _ _ Hix) as (_ & _ & Hsp & Hsub & Hr).
  pose proof (recorded_token _ _ _ Hsp Hsub _ H1) as T1. pose proof (recorded_token _ _ _ Hsp Hsub _ H2) as T2.
  destruct (spans_in_disjoint _ _ _ _ _ Hsp T1 T2) as [G|G]; [exact G|]. cbn in G. lia.
Qed.
Lemma one_symbol o x p : In o l -> In x l -> o_kind o = o_kind x -> o_body o = o_body x -> covers (o_span o) p -> covers (o_span x) p -> o = x.
Proof.
  intros H1 H2 Hk Hb C1 C2. pose proof (covering_token _ _ _ H1 H2 C1 C2) as E. apply (recorded_place (pr_stmts pr) (pr_tokens pr)); [exact H1|exact H2|]. apply same_place_spec.
  split; [exact Hk|]. split; [exact Hb|]. unfold occ_token in E. rewrite <- Hk in E. destruct (o_kind o); inversion E; auto.
Qed.
Lemma covers_contains sp p : span_contains sp p = true <-> covers sp p.
Proof. unfold span_contains, covers. rewrite andb_true_iff, Nat.leb_le, Nat.ltb_lt. reflexivity. Qed.
Lemma symbol_at_find p : p <= length src -> symbol_at d (lsp_position src p) = find (fun o => span_contains (o_span o) p) (rev l).
Proof.
  intros Hp. unfold symbol_at. rewrite Hrope. destruct Hsrc as (H1 & H2 & H3). rewrite (cursor_valid src p H2 H3 Hp). cbn [obind]. apply (rev_nodup_find _ _ _ _ _ Hix).
Qed.
Lemma find_app' {A} (f : A -> bool) a b : find f (a ++ b) = match find f a with Some x => Some x | None => find f b end.
Proof. induction a as [|x a IH]; [reflexivity|]. cbn. destruct (f x); [reflexivity|exact IH]. Qed.
(** at a name that stands for a function, the function is found and not the variable of this name *)
Lemma prefers_function p x y : p <= length src -> symbol_at d (lsp_position src p) = Some x -> In y l -> covers (o_span y) p -> o_kind y = KFunction -> o_kind x <> KGlobalVar.
Proof.
  intros Hp Hx Hy Hc Hk E. pose proof Hx as Hx'. rewrite (symbol_at_find _ Hp) in Hx. pose proof Hx as Hf. apply find_some in Hf as [Hf Hcx]. apply in_rev in Hf. apply covers_contains in Hcx.
  pose proof (covering_token _ _ _ Hf Hy Hcx Hc) as Et. destruct (indexed_ok _ _ _ _ Hix) as (_ & _ & Hsp & Hsub & Hr).
  rewrite (recorded_eq _ _ _ Hsp Hsub) in Hx, Hy, Hf. rewrite rev_app_distr, find_app' in Hx. rewrite in_app_iff in Hy, Hf.
  assert (is_function (pr_stmts pr) (o_name x) = true) as Hfun.
  { assert (o_name x = o_name y) as -> by (unfold occ_token in Et; rewrite E, Hk in Et; inversion Et; reflexivity). destruct Hy as [Hy|Hy].
    - apply (function_symbols _ (pr_stmts pr) 0). exists y. split; [exact Hy|]. split; [exact Hk|]. split; [|reflexivity]. pose proof (tree_kind _ _ _ Hy) as K. rewrite Hk in K. exact K.
    - apply filter_In in Hy as [Hy _]. apply in_flat_map in Hy as (t & _ & Hy). unfold token_occs in Hy. destruct (fst t); try contradiction.
      + destruct (containing _ _); [|contradiction]. destruct Hy as [<-|[]]. discriminate.
      + destruct Hy as [<-|[]]. cbn in *. destruct (is_function _ n); [reflexivity|discriminate].
      + destruct Hy as [<-|[]]. discriminate. }
  assert (forall z, In z (filter (fresh (pr_stmts pr)) (flat_map (token_occs (pr_stmts pr)) (pr_tokens pr))) -> z <> x) as Hnt.
  { intros z Hz ->. apply filter_In in Hz as [Hz _]. apply in_flat_map in Hz as (t & _ & Hz). unfold token_occs in Hz. destruct (fst t); try contradiction.
    - destruct (containing _ _); [|contradiction]. destruct Hz as [<-|[]]. discriminate.
    - destruct Hz as [<-|[]]. cbn in *. rewrite Hfun in E. discriminate.
    - destruct Hz as [<-|[]]. discriminate. }
  destruct Hy as [Hy|Hy].
  - destruct Hf as [Hf|Hf]; [|exact (Hnt _ Hf eq_refl)]. assert (x = y) as ->; [|congruence]. eapply (nodup_map_inj o_span); [exact (tree_nodup _ _ _ Hsp Hsub)|exact Hf|exact Hy|]. exact (f_equal snd Et).
  - destruct (find _ (rev (filter _ _))) as [z|] eqn:Ef.
    + injection Hx as ->. apply find_some in Ef as [Ef _]. apply in_rev in Ef. exact (Hnt _ Ef eq_refl).
    + assert (span_contains (o_span y) p = false) as N by (apply (find_none _ _ Ef y); rewrite <- in_rev; exact Hy). apply covers_contains in Hc. congruence.
Qed.
Lemma token_kinds o x : occ_token o = occ_token x -> o_kind o = o_kind x \/ (o_kind o = KGlobalVar /\ o_kind x = KFunction) \/ (o_kind o = KFunction /\ o_kind x = KGlobalVar).
Proof. unfold occ_token. intros E. destruct (o_kind o), (o_kind x); inversion E; auto. Qed.
Lemma global_body x : In x l -> o_kind x = KGlobalVar \/ o_kind x = KFunction -> o_body x = None.
Proof.
  intros H Hk. destruct (indexed_ok _ _ _ _ Hix) as (_ & _ & Hsp & Hsub & Hr). rewrite (recorded_eq _ _ _ Hsp Hsub), in_app_iff in H. destruct H as [H|H].
  - pose proof (tree_kind _ _ _ H) as K. destruct Hk as [E|E]; rewrite E in K; exact K.
  - apply filter_In in H as [H _]. apply in_flat_map in H as (t & _ & H). apply token_shape in H as [_ K]. destruct Hk as [E|E]; rewrite E in K; apply K.
Qed.
Lemma local_body o x : In o l -> In x l -> occ_token o = occ_token x -> o_kind o = o_kind x -> o = x.
Proof.
  intros H1 H2 E Hk. destruct (indexed_ok _ _ _ _ Hix) as (_ & _ & Hsp & Hsub & Hr). destruct (recorded_unique _ _ _ Hsp Hsub Hr o x H1 H2 (f_equal snd E)) as [G|G]; [exact G|].
  assert (o_kind o = KGlobalVar \/ o_kind o = KFunction) as K by (unfold dual_token, occ_token in G; destruct (o_kind o); cbn in G; auto; contradiction).
  assert (o_body o = o_body x) as Eb by (rewrite !global_body; [reflexivity|exact H2|rewrite <- Hk; exact K|exact H1|exact K]).
  apply (recorded_place (pr_stmts pr) (pr_tokens pr)); [exact H1|exact H2|]. apply same_place_spec. split; [exact Hk|]. split; [exact Eb|]. unfold occ_token in E. rewrite <- Hk in E. destruct (o_kind o); inversion E; auto.
Qed.
(** wherever the symbol that is found somewhere stands, it is found *)
Lemma symbol_found p o q x : p <= length src -> symbol_at d (lsp_position src p) = Some o -> In x l -> same_symbol o x -> covers (o_span x) q -> symbol_at d (lsp_position src q) = Some x.
Proof.
  intros Hp Ho Hx (S1 & S2 & S3) Hc. assert (q <= length src) as Hq. { destruct (occ_bounds e src d pr Hix x Hx). destruct Hc. lia. }
  destruct (symbol_at_cases e src d pr Hix Hrope Hsrc q Hq) as [[_ H]|(y & m & ud & E & Hy & Hc' & _)]; [exfalso; exact (H x Hx Hc)|]. rewrite E. f_equal.
  pose proof (covering_token _ _ _ Hy Hx Hc' Hc) as Et. destruct (token_kinds _ _ Et) as [K|[[K1 K2]|[K1 K2]]].
  - apply local_body; assumption.
  - exfalso. exact (prefers_function _ _ _ Hq E Hx Hc K2 K1).
  - exfalso. destruct (symbol_at_cases e src d pr Hix Hrope Hsrc p Hp) as [[E' _]|(o' & m' & ud' & E' & Ho' & Hco & _)]; [congruence|]. assert (o' = o) as -> by congruence.
    (* the name of [o] is also the name of a function, which is recorded at [o] *)
    destruct (indexed_ok _ _ _ _ Hix) as (_ & _ & Hsp & Hsub & Hr).
    assert (is_function (pr_stmts pr) (o_name o) = true) as Hfun.
    { assert (o_name o = o_name y) as -> by (rewrite S3; unfold occ_token in Et; rewrite K1, K2 in Et; inversion Et; reflexivity). pose proof Hy as Hy'. rewrite (recorded_eq _ _ _ Hsp Hsub), in_app_iff in Hy'. destruct Hy' as [Hy'|Hy'].
      - apply (function_symbols _ (pr_stmts pr) 0). exists y. split; [exact Hy'|]. split; [exact K1|]. split; [|reflexivity]. apply global_body; auto.
      - apply filter_In in Hy' as [Hy' _]. apply in_flat_map in Hy' as (t & _ & Hy'). unfold token_occs in Hy'. destruct (fst t); try contradiction.
        + destruct (containing _ _); [|contradiction]. destruct Hy' as [<-|[]]. discriminate.
        + destruct Hy' as [<-|[]]. cbn in *. destruct (is_function _ n); [reflexivity|discriminate].
        + destruct Hy' as [<-|[]]. discriminate. }
    pose proof (recorded_token _ _ _ Hsp Hsub _ Ho') as Ht. set (z := mkOcc (o_span o) Use KFunction (o_name o) None).
    assert (In z (flat_map (token_occs (pr_stmts pr)) (pr_tokens pr))) as Hz.
    { apply in_flat_map. exists (occ_token o). split; [exact Ht|]. unfold token_occs, occ_token. rewrite S1, K2. cbn. rewrite Hfun. left. reflexivity. }
    destruct (fresh (pr_stmts pr) z) eqn:Fz.
    + apply (prefers_function p o z Hp Ho); [|exact Hco|reflexivity|congruence]. rewrite (recorded_eq _ _ _ Hsp Hsub). apply in_app_iff. right. apply filter_In. auto.
    + unfold fresh in Fz. apply negb_false_iff in Fz. apply existsb_exists in Fz as (w & Hw & Fw). apply same_place_spec in Fw as (W1 & W2 & W3 & W4).
      apply (prefers_function p o w Hp Ho); [| |rewrite <- W1; reflexivity|congruence].
      * rewrite (recorded_eq _ _ _ Hsp Hsub). apply in_app_iff. auto.
      * rewrite <- W4. exact Hco.
Qed.
Definition spans (ud : use_def_kind) (o : occurrence) : list span := spans_of l ud (o_kind o) (o_body o) (o_name o).
Lemma answer_at o p ud : symbol_at d (lsp_position src p) = Some o ->
  get_use_def_ranges e s uri (lsp_position src p) ud =
  rmap (fun ext => Some (lsp_range src (o_span o), map (location_of src uri) (spans ud o) ++ ext))
    (if ud_kind_is_def ud then external_locations e (roots s) (externals (pr_stmts pr) o) else Val []).
Proof.
  intros Hs. unfold get_use_def_ranges. rewrite Hget. cbn [obind]. rewrite Hs. cbn [obind]. destruct (symbol_at_listed e src d pr Hix _ o Hs) as (Ho & _).
  destruct (indexed_ok _ _ _ _ Hix) as (_ & Hi & _). pose proof (proj2 (listed_recorded _ _ _ Hi) Ho) as (m & x & Hm & Hx & Hin).
  rewrite (table_use_defs d _ _ Hm), Hx. cbn [rbind].
  assert (get_use_def_kind x ud = spans ud o) as Hk.
  { pose proof (table_ok _ _ Hi _ _ _ Hm) as [_ Ht]. specialize (Ht (o_name o)). rewrite Hx in Ht. unfold spans. destruct ud; cbn [get_use_def_kind]; tauto. }
  rewrite Hk, Hrope. rewrite (filter_map_all _ (location_of src uri)).
  2:{ intros sp Hs'. apply in_spans_of in Hs' as (o2 & Ho2 & <- & _). destruct (recorded_range e src d _ Hix o2 Ho2). rewrite plain_range by assumption. reflexivity. }
  destruct (recorded_range e src d _ Hix o Ho). rewrite plain_range by assumption. cbn [obind].
  rewrite (externals_of e src d _ Hix _ _ _ Hm Hx). destruct ud; reflexivity.
Qed.
Lemma same_spans o x ud : same_symbol o x -> spans ud o = spans ud x.
Proof. intros (H1 & H2 & H3). unfold spans. rewrite H1, H2, H3. reflexivity. Qed.
Lemma in_spans sp o : In sp (spans Def o ++ spans Decl o ++ spans Use o) <-> exists x, In x l /\ same_symbol o x /\ o_span x = sp.
Proof.
  unfold spans. rewrite !in_app_iff, !in_spans_of. unfold same_symbol. split.
  - intros [(x & H)|[(x & H)|(x & H)]]; exists x; intuition congruence.
  - intros (x & H1 & (H2 & H3 & H4) & H5). destruct (o_ud x) eqn:E; [right; left|left|right; right]; exists x; repeat split; congruence.
Qed.
Lemma spans_nodup o : NoDup (spans Def o ++ spans Decl o ++ spans Use o).
Proof.
  unfold spans, spans_of. rewrite <- !map_app. destruct (indexed_ok _ _ _ _ Hix) as (_ & _ & Hsp & Hsub & Hr).
  apply nodup_map_injective.
  - intros x y Hx Hy E. assert (forall z, In z (filter (entry_is Def (o_kind o) (o_body o) (o_name o)) l ++ filter (entry_is Decl (o_kind o) (o_body o) (o_name o)) l ++ filter (entry_is Use (o_kind o) (o_body o) (o_name o)) l) -> In z l /\ o_kind z = o_kind o /\ o_body z = o_body o) as Hz.
    { intros z Hz. rewrite !in_app_iff, !filter_In, !entry_is_spec in Hz. tauto. }
    apply Hz in Hx as (Hx & X1 & X2), Hy as (Hy & Y1 & Y2). destruct (occ_bounds e src d pr Hix x Hx). apply (one_symbol x y (sp_start (o_span x)) Hx Hy); unfold covers; [congruence|congruence|lia|rewrite <- E; lia].
  - pose proof (recorded_nodup _ _ _ Hsp Hsub) as Hn. apply nodup_app; [apply NoDup_filter; exact Hn|apply nodup_app; [apply NoDup_filter; exact Hn..|]|].
    + intros x H1 H2. apply filter_In in H1 as [_ H1], H2 as [_ H2]. apply entry_is_spec in H1 as [H1 _], H2 as [H2 _]. congruence.
    + intros x H1 H2. apply filter_In in H1 as [_ H1]. apply entry_is_spec in H1 as [H1 _].
      apply in_app_or in H2 as [H2|H2]; apply filter_In in H2 as [_ H2]; apply entry_is_spec in H2 as [H2 _]; congruence.
Qed.
Lemma range_inj x y : In x l -> In y l -> o_kind x = o_kind y -> o_body x = o_body y -> lsp_range src (o_span x) = lsp_range src (o_span y) -> x = y.
Proof.
  intros Hx Hy Hk Hb E. destruct (occ_bounds e src d pr Hix x Hx) as [X1 X2], (occ_bounds e src d pr Hix y Hy) as [Y1 Y2]. injection E as E1 E2.
  assert (sp_start (o_span x) = sp_start (o_span y)) as Es.
  { destruct (Nat.lt_trichotomy (sp_start (o_span x)) (sp_start (o_span y))) as [L|[L|L]]; [|exact L|]; exfalso.
    - apply (position_lt e src d pr Hix Hrope Hsrc) in L; [|lia]. rewrite E1 in L. lia.
    - apply (position_lt e src d pr Hix Hrope Hsrc) in L; [|lia]. rewrite E1 in L. lia. }
  apply (one_symbol x y (sp_start (o_span x)) Hx Hy Hk Hb); unfold covers; lia.
Qed.
Lemma inside_covers x q : In x l -> q <= length src -> inside_range (lsp_position src q) (lsp_range src (o_span x)) -> covers (o_span x) q.
Proof.
  intros Hx Hq [H1 H2]. destruct (occ_bounds e src d pr Hix x Hx) as [X1 X2]. cbn [lsp_range r_start r_end] in *. split.
  - destruct (Nat.le_gt_cases (sp_start (o_span x)) q) as [L|L]; [exact L|exfalso]. apply (position_lt e src d pr Hix Hrope Hsrc) in L; [|lia]. unfold pos_le in H1. lia.
  - destruct (Nat.lt_ge_cases q (sp_end (o_span x))) as [L|L]; [exact L|exfalso]. apply (position_le src Hsrc) in L; [|lia]. unfold pos_le in L. unfold pos_lt in H2. lia.
Qed.
End Document.

Lemma coherent e s uri src d p origin locs : plain_document src -> opened e s uri src d -> p <= length src ->
  goto_definition e s uri (lsp_position src p) = Val (Some (origin, locs)) ->
  exists own ext decls refs, locs = own ++ ext /\
    goto_declaration e s uri (lsp_position src p) = Val (Some (origin, decls)) /\
    references e s uri (lsp_position src p) = Val (Some refs) /\
    prepare_rename s uri (lsp_position src p) = Some origin /\
    inside_range (lsp_position src p) origin /\
    In (mkLocn uri origin) (own ++ decls ++ refs) /\ NoDup (own ++ decls ++ refs) /\ Forall (fun x => loc_uri x = uri) (own ++ decls ++ refs) /\
    (forall x q, In x (own ++ decls ++ refs) -> q <= length src -> inside_range (lsp_position src q) (loc_range x) ->
      goto_definition e s uri (lsp_position src q) = Val (Some (loc_range x, locs)) /\
      goto_declaration e s uri (lsp_position src q) = Val (Some (loc_range x, decls)) /\
      references e s uri (lsp_position src q) = Val (Some refs)) /\
    forall new edits, ~ signed new -> rename e s uri (lsp_position src p) new = Val (Reply edits) ->
      Permutation (map te_range edits) (map loc_range (own ++ decls ++ refs)).
Proof.
  intros Hsrc Hop Hp Hdef.
  apply opened_indexed in Hop as (pr & Hix & Hrope & Hst & Hg).
  destruct (symbol_at_cases e src d pr Hix Hrope Hsrc p Hp) as [[E Hno]|(o & m & ud & E & Ho & Hc & Hm & Hud)].
  { exfalso. unfold goto_definition, get_use_def_ranges in Hdef. rewrite Hg in Hdef. cbn [obind] in Hdef. rewrite E in Hdef. discriminate. }
  set (A := answer_at e s uri src d pr Hix Hrope Hg Hsrc).
  unfold goto_definition in Hdef. rewrite (A _ _ Def E) in Hdef. cbn [ud_kind_is_def] in Hdef.
  destruct (external_locations e (roots s) (externals (pr_stmts pr) o)) as [ext|] eqn:Ee; [|discriminate]. cbn [rmap] in Hdef. injection Hdef as <- <-.
  set (L := map (location_of src uri)).
  exists (L (spans pr Def o)), ext, (L (spans pr Decl o)), (L (spans pr Use o)).
  assert (L (spans pr Def o) ++ L (spans pr Decl o) ++ L (spans pr Use o) = L (spans pr Def o ++ spans pr Decl o ++ spans pr Use o)) as EL by (unfold L; rewrite !map_app; reflexivity).
  rewrite EL. split; [reflexivity|].
  split. { unfold goto_declaration. rewrite (A _ _ Decl E). cbn [ud_kind_is_def rmap rbind]. rewrite app_nil_r. reflexivity. }
  split. { unfold references. rewrite (A _ _ Use E). cbn [ud_kind_is_def rmap rbind option_map snd]. rewrite app_nil_r. reflexivity. }
  split. { rewrite (prepare_symbol e s uri src d pr _ Hsrc Hix Hrope Hg), E. reflexivity. }
  destruct (occ_bounds e src d pr Hix o Ho) as [B1 B2].
  split. { destruct Hc as [C1 C2]. split; [apply (position_le src Hsrc); assumption|apply (position_lt e src d pr Hix Hrope Hsrc); assumption]. }
  assert (In (o_span o) (spans pr Def o ++ spans pr Decl o ++ spans pr Use o)) as Hin by (apply in_spans; exists o; repeat split; exact Ho).
  split; [exact (in_map (location_of src uri) _ _ Hin)|].
  assert (forall a b, In a (spans pr Def o ++ spans pr Decl o ++ spans pr Use o) -> In b (spans pr Def o ++ spans pr Decl o ++ spans pr Use o) -> lsp_range src a = lsp_range src b -> a = b) as Hinj.
  { intros a b Ha Hb Eab. apply in_spans in Ha as (x & Hx & (X1 & X2 & _) & <-), Hb as (y & Hy & (Y1 & Y2 & _) & <-). f_equal. apply (range_inj e src d pr Hix Hrope Hsrc); congruence. }
  pose proof (spans_nodup e src d pr Hix o) as Hnd.
  split. { apply nodup_map_injective; [|exact Hnd]. intros a b Ha Hb Eab. apply (f_equal loc_range) in Eab. apply Hinj; assumption. }
  split. { apply Forall_map. apply Forall_forall. intros; reflexivity. }
  split.
  - intros x q Hx Hq Hi. apply in_map_iff in Hx as (sp & <- & Hx). apply in_spans in Hx as (y & Hy & Hs & <-). cbn [location_of loc_range] in *.
    pose proof (inside_covers e src d pr Hix Hrope Hsrc y q Hy Hq Hi) as Hcy. pose proof (symbol_found e src d pr Hix Hrope Hsrc p o q y Hp E Hy Hs Hcy) as Ey. unfold goto_definition, goto_declaration, references.
    rewrite (A _ _ Def Ey), (A _ _ Decl Ey), (A _ _ Use Ey). cbn [ud_kind_is_def rmap rbind option_map snd]. rewrite !app_nil_r, !(same_spans pr o y _ Hs).
    assert (externals (pr_stmts pr) y = externals (pr_stmts pr) o) as -> by (unfold externals; destruct Hs as (-> & _ & ->); reflexivity). rewrite Ee. cbn [rmap]. auto.
  - intros new edits Hns Hr. unfold rename in Hr. rewrite Hg, E, unsigned_absolute in Hr by exact Hns. destruct (absolute_accepted _ _ _ _ _ Hr) as (final & Hf).
    assert (exists edits', absolute_rename e d o new = Val (Reply edits') /\ replaces src (renamed o final) (recorded (pr_stmts pr) (pr_tokens pr)) edits') as AO by (eapply absolute_ok; eassumption).
    destruct AO as (edits' & Hr' & (P1 & P2 & P3)). rewrite Hr in Hr'. injection Hr' as <-.
    unfold L. rewrite map_map. cbn [location_of loc_range]. apply NoDup_Permutation.
    + clear - P2 P3. induction edits as [|a l IH]; [constructor|]. inversion_clear P2 as [|? ? Q1 Q2]. inversion_clear P3 as [|? ? Q3 Q4]. cbn. constructor; [|auto].
      intros Hin. apply in_map_iff in Hin as (b & Eb & Hb). rewrite Forall_forall in Q1. specialize (Q1 b Hb). rewrite Eb in Q1. unfold separate, nonempty, pos_le, pos_lt in *. lia.
    + apply nodup_map_injective; assumption.
    + intros r. rewrite !in_map_iff. split.
      * intros (ed & <- & Hed). apply P1 in Hed as (y & z & Hy & (Hs & _) & ->). exists (o_span y). split; [reflexivity|]. apply in_spans. eauto.
      * intros (sp & <- & Hsp). apply in_spans in Hsp as (y & Hy & Hs & <-). exists (mkEdit (lsp_range src (o_span y)) final). split; [reflexivity|]. apply P1. exists y, final. repeat split; auto; apply Hs.
Qed.

(** where one of the requests finds nothing, none finds anything *)
Lemma nothing e s uri src d p : plain_document src -> opened e s uri src d -> p <= length src -> let pos := lsp_position src p in
  goto_definition e s uri pos = Val None \/ goto_declaration e s uri pos = Val None \/ references e s uri pos = Val None \/ prepare_rename s uri pos = None ->
  goto_definition e s uri pos = Val None /\ goto_declaration e s uri pos = Val None /\ references e s uri pos = Val None /\ prepare_rename s uri pos = None /\
  forall new, exists m, rename e s uri pos new = Val (RpcError m).
Proof.
  intros Hsrc Hop Hp pos H. unfold pos in *. apply opened_indexed in Hop as (pr & Hix & Hrope & Hst & Hg).
  destruct (symbol_at_cases e src d pr Hix Hrope Hsrc p Hp) as [[E _]|(o & m & ud & E & _)].
  - unfold goto_definition, goto_declaration, references, get_use_def_ranges, prepare_rename, rename. rewrite Hg. cbn [obind]. rewrite E. repeat split; eauto.
  - exfalso. unfold goto_definition, goto_declaration, references in H. rewrite (prepare_symbol e s uri src d pr _ Hsrc Hix Hrope Hg), E in H.
    set (A := answer_at e s uri src d pr Hix Hrope Hg Hsrc). rewrite (A _ _ Def E), (A _ _ Decl E), (A _ _ Use E) in H. cbn [ud_kind_is_def] in H.
    destruct H as [H|[H|[H|H]]]; try discriminate. destruct (external_locations _ _ _); discriminate.
Qed.
