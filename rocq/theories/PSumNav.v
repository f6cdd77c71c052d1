(** Putting documents one behind the other: places of local names, outline, any number of parts. *)
From Verif Require Import Text Rope Chumsky Tokenizer Parser Numbers Index SemTok Diag Rename Cfg Backtrace Server SpecText SpecLex SpecParse SpecIndex SpecDiag SpecBacktrace SpecCfg SpecView SpecSum
  PText PRope PParse PParseProps PIndex PIndexDoc PIndexText PDiag PDiagDoc PCfg PBacktrace PHints PView PLexProps PNav PSum PSumIndex PAbove PSumDoc.

(** ** What is recorded for one function *)
Definition local (i : nat) (o : occurrence) : bool := if body_dec (o_body o) (Some i) then true else false.
Lemma local_spec i o : local i o = true <-> o_body o = Some i.
Proof. unfold local. destruct (body_dec _ _); split; congruence. Qed.
Lemma local_false i o : local i o = false <-> o_body o <> Some i.
Proof. unfold local. destruct (body_dec _ _); split; congruence. Qed.
Lemma filter_nothing {A} (f : A -> bool) l : (forall x, In x l -> f x = false) -> filter f l = [].
Proof. intros H. induction l as [|x l IH]; [reflexivity|]. cbn. rewrite (H x (or_introl eq_refl)). apply IH. intros y Hy. apply H. right. exact Hy. Qed.
Lemma filter_map_comm {A B} (f : B -> bool) (g : A -> B) l : filter f (map g l) = map g (filter (fun x => f (g x)) l).
Proof. induction l as [|x l IH]; [reflexivity|]. cbn. rewrite IH. destruct (f (g x)); reflexivity. Qed.
Lemma filter_swap {A} (f g : A -> bool) l : filter f (filter g l) = filter g (filter f l).
Proof. induction l as [|x l IH]; [reflexivity|]. cbn. destruct (g x) eqn:G, (f x) eqn:F; cbn; rewrite ?G, ?F, IH; reflexivity. Qed.
Lemma spans_of_local l ud kd i n : spans_of l ud kd (Some i) n = spans_of (filter (local i) l) ud kd (Some i) n.
Proof.
  unfold spans_of. f_equal. rewrite filter_swap. symmetry. apply filter_all. intros o Ho. apply filter_In in Ho as [_ Ho]. apply entry_is_spec in Ho. apply local_spec. tauto.
Qed.
Lemma retag_local ss i o : local i (retag ss o) = local i o.
Proof. unfold retag, local. destruct (o_kind o); try reflexivity. destruct (is_function _ _); reflexivity. Qed.
Lemma filter_local_retag ss i t tk : filter (local i) (map (retag ss) (token_occs t tk)) = filter (local i) (token_occs t tk).
Proof.
  rewrite filter_map_comm. rewrite (filter_ext _ (local i)) by (intros o; apply retag_local). rewrite <- (map_id (filter (local i) (token_occs t tk))) at 2.
  apply map_ext_in. intros o Ho. apply filter_In in Ho as [Ho Hl]. apply token_shape in Ho as [_ Ho]. apply local_spec in Hl. unfold retag. destruct (o_kind o); try reflexivity. destruct Ho. congruence.
Qed.
Lemma filter_flat {A B} (f : B -> bool) (g : A -> list B) l : filter f (flat_map g l) = flat_map (fun x => filter f (g x)) l.
Proof. induction l as [|x l IH]; [reflexivity|]. cbn. rewrite filter_app, IH. reflexivity. Qed.
Lemma flat_map_nil {A B} (g : A -> list B) l : (forall x, In x l -> g x = []) -> flat_map g l = [].
Proof. intros H. induction l as [|x l IH]; [reflexivity|]. cbn. rewrite (H x (or_introl eq_refl)). apply IH. intros y Hy. apply H. right. exact Hy. Qed.
Lemma flat_map_ext_in' {A B} (g h : A -> list B) l : (forall x, In x l -> g x = h x) -> flat_map g l = flat_map h l.
Proof. intros H. induction l as [|x l IH]; [reflexivity|]. cbn. rewrite (H x (or_introl eq_refl)), IH; [reflexivity|]. intros y Hy. apply H. right. exact Hy. Qed.
Lemma local_move d k i o : local (k + i) (move_occ d k o) = local i o.
Proof.
  apply eq_true_iff_eq. rewrite !local_spec. unfold move_occ. cbn. destruct (o_body o) as [j|]; cbn; [|split; discriminate]. split; intros E; injection E as E; f_equal; lia.
Qed.
Lemma local_move_low d k i o : i < k -> local i (move_occ d k o) = false.
Proof. intros H. apply local_false. unfold move_occ. cbn. destruct (o_body o); cbn; [|discriminate]. intros E. injection E. lia. Qed.
Lemma place_move d k x y : same_place (move_occ d k x) (move_occ d k y) = same_place x y.
Proof.
  apply eq_true_iff_eq. rewrite !same_place_spec. unfold move_occ, shift_span. cbn. split.
  - intros (H1 & H2 & H3 & H4). split; [exact H1|]. split; [destruct (o_body x), (o_body y); cbn in H2; try congruence; injection H2 as H2; f_equal; lia|]. split; [exact H3|].
    injection H4 as H4 H5. destruct (o_span x), (o_span y). cbn in *. f_equal; lia.
  - intros (-> & -> & -> & ->). auto.
Qed.
Lemma containing_bound ss p i : containing (flat_map func_ranges ss) p = Some i -> i < length (function_defs ss).
Proof. intros H. apply containing_lt in H. rewrite ranges_count in H. exact H. Qed.
Lemma token_local_lt ss t o i : In o (token_occs ss t) -> o_body o = Some i -> i < length (function_defs ss).
Proof.
  unfold token_occs. destruct (fst t); try contradiction; try (intros [<-|[]]; discriminate).
  destruct (containing _ _) as [j|] eqn:E; [|contradiction]. intros [<-|[]] H. cbn in H. injection H as <-. exact (containing_bound _ _ _ E).
Qed.

Section Docs.
Variables (u : uclass) (a b : text) (ta tb : list stoken) (sa sb : list statement) (eb es : list (simple text)).
Hypothesis Hfl : full_lines a.
Hypothesis Ha : parse_from_str u a = Val (mkPR ta sa []).
Hypothesis Hb : parse_from_str u b = Val (mkPR tb sb eb).
Notation d := (length a).
Notation k := (length (function_defs sa)).
Notation ss := (sa ++ map (move_stmt d) sb).
Notation toks := (ta ++ map (shift_tok d) tb).
Hypothesis Hs : parse_from_str u (a ++ b) = Val (mkPR toks ss es).

Lemma doc_spans {e0} s0 t0 src0 : parse_from_str u src0 = Val (mkPR t0 s0 e0) -> recorded s0 t0 = tree_occs 0 s0 ++ filter (fresh s0) (flat_map (token_occs s0) t0).
Proof. intros H. pose proof (provenance _ _ _ H) as P. apply parse_from_str_module in H as [H _]. exact (recorded_eq _ _ _ H P). Qed.
Lemma tree_low o i : In o (tree_occs 0 sa) -> o_body o = Some i -> i < k.
Proof. intros H1 H2. apply (tree_body_lt _ _ _ _ H1) in H2. lia. Qed.
Lemma tree_local_right i : filter (local (k + i)) (tree_occs 0 ss) = map (move_occ d k) (filter (local i) (tree_occs 0 sb)).
Proof.
  rewrite tree_sum, filter_app, filter_nothing, filter_map_comm.
  - cbn [app]. f_equal. apply filter_ext. intros o. apply local_move.
  - intros o Ho. apply local_false. intros E. apply (tree_low _ _ Ho) in E. lia.
Qed.
Lemma tree_local_left i : i < k -> filter (local i) (tree_occs 0 ss) = filter (local i) (tree_occs 0 sa).
Proof.
  intros Hi. rewrite tree_sum, filter_app, (filter_nothing _ (map _ _)); [apply app_nil_r|]. intros o Ho. apply in_map_iff in Ho as (x & <- & _). apply local_move_low. exact Hi.
Qed.
Lemma fresh_right i o : o_body o = Some i -> fresh ss (move_occ d k o) = fresh sb o.
Proof.
  intros Ho. unfold fresh. f_equal. rewrite tree_sum, existsb_app, existsb_map. rewrite (existsb_ext' (fun x => same_place (move_occ d k o) (move_occ d k x)) (same_place o)) by (intros x; apply place_move).
  destruct (existsb (same_place (move_occ d k o)) (tree_occs 0 sa)) eqn:E; [|reflexivity]. exfalso.
  apply existsb_exists in E as (x & Hx & E). apply same_place_spec in E as (_ & E & _). unfold move_occ in E. cbn in E. rewrite Ho in E. cbn in E. symmetry in E. apply (tree_low _ _ Hx) in E. lia.
Qed.
Lemma fresh_left i o : o_body o = Some i -> i < k -> fresh ss o = fresh sa o.
Proof.
  intros Ho Hi. unfold fresh. f_equal. rewrite tree_sum, existsb_app, existsb_map. rewrite orb_comm.
  destruct (existsb _ (tree_occs 0 sb)) eqn:E; [|reflexivity]. exfalso. apply existsb_exists in E as (x & Hx & E). apply same_place_spec in E as (_ & E & _). unfold move_occ in E. cbn in E.
  destruct (o_body x); cbn in E; [|congruence]. rewrite Ho in E. injection E as E. lia.
Qed.
Lemma token_local_right i : filter (local (k + i)) (flat_map (token_occs ss) toks) = map (move_occ d k) (filter (local i) (flat_map (token_occs sb) tb)).
Proof.
  rewrite flat_map_app, filter_app, filter_nothing.
  - cbn [app]. rewrite flat_map_map, !filter_flat, map_flat. apply flat_map_ext. intros t. rewrite (tokens_right sa sb ta d (sum_spans_a _ _ _ _ Ha) (sum_sub_a _ _ _ _ Ha)).
    rewrite <- (map_map (move_occ d k) (retag sa)), filter_map_comm. rewrite (filter_ext _ (local (k + i))) by (intros o; apply retag_local).
    rewrite filter_map_comm, map_map. rewrite (filter_ext _ (local i)) by (intros o; apply local_move). apply map_ext_in. intros o Ho. apply filter_In in Ho as [Ho Hl]. apply token_shape in Ho as [_ Ho].
    apply local_spec in Hl. unfold retag. cbn [move_occ o_kind]. destruct (o_kind o); try reflexivity. destruct Ho. congruence.
  - intros o Ho. apply in_flat_map in Ho as (t & Ht & Ho). rewrite (tokens_left sa sb ta d (sum_spans_a _ _ _ _ Ha) t Ht) in Ho. apply in_map_iff in Ho as (x & <- & Hx).
    rewrite retag_local. apply local_false. intros E. apply (token_local_lt _ _ _ _ Hx) in E. lia.
Qed.
Lemma token_local_left i : i < k -> filter (local i) (flat_map (token_occs ss) toks) = filter (local i) (flat_map (token_occs sa) ta).
Proof.
  intros Hi. rewrite flat_map_app, filter_app, (filter_nothing _ (flat_map _ (map _ _))).
  - rewrite app_nil_r, !filter_flat. apply flat_map_ext_in'. intros t Ht. rewrite (tokens_left sa sb ta d (sum_spans_a _ _ _ _ Ha) t Ht). apply filter_local_retag.
  - intros o Ho. apply in_flat_map in Ho as (t & Ht & Ho). apply in_map_iff in Ht as (t' & <- & _). rewrite (tokens_right sa sb ta d (sum_spans_a _ _ _ _ Ha) (sum_sub_a _ _ _ _ Ha)) in Ho.
    apply in_map_iff in Ho as (x & <- & Hx). rewrite retag_local. apply local_move_low. exact Hi.
Qed.
Lemma recorded_local_right i : filter (local (k + i)) (recorded ss toks) = map (move_occ d k) (filter (local i) (recorded sb tb)).
Proof.
  rewrite (doc_spans _ _ _ Hs), (doc_spans _ _ _ Hb), !filter_app, map_app, tree_local_right. f_equal.
  rewrite filter_swap, token_local_right, filter_map_comm. f_equal. rewrite (filter_swap (local i)). apply filter_ext_in. intros o Ho. apply filter_In in Ho as [_ Ho]. apply local_spec in Ho. apply (fresh_right i). exact Ho.
Qed.
Lemma recorded_local_left i : i < k -> filter (local i) (recorded ss toks) = filter (local i) (recorded sa ta).
Proof.
  intros Hi. rewrite (doc_spans _ _ _ Hs), (doc_spans _ _ _ Ha), !filter_app, (tree_local_left _ Hi). f_equal.
  rewrite filter_swap, (token_local_left _ Hi), (filter_swap (local i)). apply filter_ext_in. intros o Ho. apply filter_In in Ho as [_ Ho]. apply local_spec in Ho. apply (fresh_left i); assumption.
Qed.
Lemma spans_right ud kd i n : spans_of (recorded ss toks) ud kd (Some (k + i)) n = map (shift_span d) (spans_of (recorded sb tb) ud kd (Some i) n).
Proof.
  rewrite spans_of_local, recorded_local_right, (spans_of_local (recorded sb tb)). unfold spans_of. rewrite filter_map_comm, !map_map.
  rewrite (filter_ext _ (entry_is ud kd (Some i) n)); [reflexivity|]. intros o. apply eq_true_iff_eq. rewrite !entry_is_spec. unfold move_occ. cbn. destruct (o_body o); cbn.
  - split; intros (H1 & H2 & H3 & H4); repeat split; try assumption; injection H3 as H3; f_equal; lia.
  - split; intros (H1 & H2 & H3 & H4); discriminate.
Qed.
Lemma spans_left ud kd i n : i < k -> spans_of (recorded ss toks) ud kd (Some i) n = spans_of (recorded sa ta) ud kd (Some i) n.
Proof. intros Hi. rewrite spans_of_local, (recorded_local_left _ Hi), <- spans_of_local. reflexivity. Qed.
Lemma recorded_in_right o i : In o (recorded sb tb) -> o_body o = Some i -> In (move_occ d k o) (recorded ss toks).
Proof.
  intros H1 H2. assert (In (move_occ d k o) (filter (local (k + i)) (recorded ss toks))) as H; [|apply filter_In in H; tauto].
  rewrite recorded_local_right. apply in_map. apply filter_In. rewrite local_spec. auto.
Qed.
Lemma recorded_in_left o i : In o (recorded sa ta) -> o_body o = Some i -> In o (recorded ss toks) /\ i < k.
Proof.
  intros H1 H2. assert (i < k) as Hi.
  { pose proof (recorded_eq _ _ _ (sum_spans_a _ _ _ _ Ha) (sum_sub_a _ _ _ _ Ha)) as E. rewrite E, in_app_iff, filter_In in H1. destruct H1 as [H1|[H1 _]]; [exact (tree_low _ _ H1 H2)|].
    apply in_flat_map in H1 as (t & _ & H1). exact (token_local_lt _ _ _ _ H1 H2). }
  split; [|exact Hi]. assert (In o (filter (local i) (recorded ss toks))) as H; [|apply filter_In in H; tauto]. rewrite (recorded_local_left _ Hi). apply filter_In. rewrite local_spec. auto.
Qed.
End Docs.

(** ** Asking for the places of a local name *)
Lemma local_answer {e0} e s uri src dd ts sts o p ud : plain_document src -> opened e s uri src dd -> parse_from_str (e_u e) src = Val (mkPR ts sts e0) ->
  In o (recorded sts ts) -> o_body o <> None -> covers (o_span o) p ->
  get_use_def_ranges e s uri (lsp_position src p) ud =
    Val (Some (lsp_range src (o_span o), map (location_of src uri) (spans_of (recorded sts ts) ud (o_kind o) (o_body o) (o_name o)))).
Proof.
  intros Hsrc Hop Hpr Ho Hl Hc. apply opened_indexed in Hop as (pr & Hix & Hrope & Hst & Hg). pose proof Hix as [Hpr' _]. rewrite Hpr in Hpr'. injection Hpr' as <-.
  pose proof (recorded_range e src dd _ Hix o Ho) as [R1 R2]. destruct (indexed_ok _ _ _ _ Hix) as (Hio & Hi & Hsp & Hsub & Hr). cbn [pr_stmts pr_tokens] in *.
  unfold get_use_def_ranges. rewrite Hg. cbn [obind]. unfold symbol_at. rewrite Hrope. destruct Hsrc as (Hx1 & Hx2 & Hx3). destruct Hc as [C1 C2].
  rewrite (cursor_valid src p Hx2 Hx3) by lia. cbn [obind].
  destruct (find_symbol_at_position (doc_index dd) p) as [o'|] eqn:Ef.
  - apply (lookup_some _ _ _ _ _ _ Hix) in Ef as [Ho' Hc']. pose proof (proj1 (listed_recorded _ _ _ Hi) Ho') as Hor. cbn [pr_stmts pr_tokens] in Hor.
    assert (o' = o) as ->.
    { unfold span_contains in Hc'. apply andb_true_iff in Hc' as [D1 D2]. apply Nat.leb_le in D1. apply Nat.ltb_lt in D2.
      pose proof (recorded_token _ _ _ Hsp Hsub _ Ho) as T1. pose proof (recorded_token _ _ _ Hsp Hsub _ Hor) as T2.
      assert (occ_token o = occ_token o') as Et. { destruct (spans_in_disjoint _ _ _ _ _ Hsp T1 T2) as [G|G]; [exact G|]. cbn in G. lia. }
      destruct (recorded_unique _ _ _ Hsp Hsub Hr o o' Ho Hor (f_equal snd Et)) as [G|G]; [congruence|]. exfalso. rewrite (recorded_eq _ _ _ Hsp Hsub), in_app_iff, filter_In in Ho.
      unfold dual_token, occ_token in G. cbn [fst] in G. destruct Ho as [Ho|[Ho _]].
      - pose proof (tree_kind _ _ _ Ho) as K. destruct (o_kind o); cbn in G; try contradiction; congruence.
      - apply in_flat_map in Ho as (t & _ & Ho). apply token_shape in Ho as [_ K]. destruct (o_kind o); cbn in G; try contradiction; destruct K; congruence. }
    cbn [obind]. destruct Ho' as (m & x & Hm & Hx & Hin). rewrite (table_use_defs dd _ _ Hm), Hx. cbn [rbind].
    assert (get_use_def_kind x ud = spans_of (recorded sts ts) ud (o_kind o) (o_body o) (o_name o)) as Hk.
    { pose proof (table_ok _ _ Hi _ _ _ Hm) as [_ Ht]. specialize (Ht (o_name o)). rewrite Hx in Ht. cbn [pr_stmts pr_tokens] in Ht. destruct ud; cbn [get_use_def_kind]; tauto. }
    rewrite Hk, Hrope. rewrite (filter_map_all _ (location_of src uri)).
    2:{ intros sp Hs'. apply in_spans_of in Hs' as (o2 & Ho2 & <- & _). destruct (recorded_range e src dd _ Hix o2 Ho2). rewrite plain_range by (assumption || exact (conj Hx1 (conj Hx2 Hx3))). reflexivity. }
    rewrite plain_range by (assumption || exact (conj Hx1 (conj Hx2 Hx3))). cbn [obind].
    destruct ud; cbn [ud_kind_is_def rbind]; rewrite ?app_nil_r; try reflexivity.
    rewrite (externals_of e src dd _ Hix _ _ _ Hm Hx). unfold externals. assert (o_kind o <> KFunction) as Hnf.
    { rewrite (recorded_eq _ _ _ Hsp Hsub), in_app_iff, filter_In in Ho. destruct Ho as [Ho|[Ho _]].
      - pose proof (tree_kind _ _ _ Ho) as K. intros E. rewrite E in K. congruence.
      - apply in_flat_map in Ho as (t & _ & Ho). apply token_shape in Ho as [_ K]. intros E. rewrite E in K. destruct K. congruence. }
    destruct (o_kind o); try contradiction; cbn [external_locations rbind]; rewrite ?app_nil_r; reflexivity.
  - exfalso. apply (listed_recorded _ _ _ Hi) in Ho. pose proof (lookup_none _ _ _ _ _ Hix Ef o Ho) as Hn. unfold span_contains in Hn. apply andb_false_iff in Hn as [Hn|Hn]; [apply Nat.leb_gt in Hn|apply Nat.ltb_ge in Hn]; lia.
Qed.

Lemma local_places {e0} e s uri src dd ts sts o p : plain_document src -> opened e s uri src dd -> parse_from_str (e_u e) src = Val (mkPR ts sts e0) ->
  In o (recorded sts ts) -> o_body o <> None -> covers (o_span o) p ->
  let ans ud := (lsp_range src (o_span o), map (location_of src uri) (spans_of (recorded sts ts) ud (o_kind o) (o_body o) (o_name o))) in
  goto_definition e s uri (lsp_position src p) = Val (Some (ans Def)) /\
  goto_declaration e s uri (lsp_position src p) = Val (Some (ans Decl)) /\
  references e s uri (lsp_position src p) = Val (Some (snd (ans Use))).
Proof.
  intros H1 H2 H3 H4 H5 H6 ans. split; [|split].
  - apply (local_answer _ _ _ _ _ _ _ _ _ Def H1 H2 H3 H4 H5 H6).
  - apply (local_answer _ _ _ _ _ _ _ _ _ Decl H1 H2 H3 H4 H5 H6).
  - unfold references. rewrite (local_answer _ _ _ _ _ _ _ _ _ Use H1 H2 H3 H4 H5 H6). reflexivity.
Qed.
Lemma local_below e s s' uri a b D D' pa pb o p : plain_document (a ++ b) -> full_lines a ->
  parse_from_str (e_u e) a = Val pa -> parse_from_str (e_u e) b = Val pb -> pr_errors pa = [] -> read pb ->
  opened e s uri (a ++ b) D -> opened e s' uri b D' ->
  In o (recorded (pr_stmts pb) (pr_tokens pb)) -> o_body o <> None -> covers (o_span o) p ->
  let n := lsp_line_ends a in let pos := lsp_position b p in
  exists x y z, goto_definition e s' uri pos = Val (Some x) /\ goto_definition e s uri (lower n pos) = Val (Some (lower_answer n x)) /\
    goto_declaration e s' uri pos = Val (Some y) /\ goto_declaration e s uri (lower n pos) = Val (Some (lower_answer n y)) /\
    references e s' uri pos = Val (Some z) /\ references e s uri (lower n pos) = Val (Some (map (lower_location n) z)).
Proof.
  intros Hp Hfl Ha Hb Ea Eb Ho Ho' Hin Hl Hc n pos. destruct pa as [ta sa ea], pb as [tb sb eb]. cbn in Ea, Eb, Hin. subst ea. destruct (parse_above _ _ _ _ _ _ _ _ Hfl Ha Hb Eb) as (es & Hs & _).
  destruct (plain_parts _ _ Hp) as [_ Pb]. destruct (local_places _ _ _ _ _ _ _ _ _ Pb Ho' Hb Hin Hl Hc) as (L1 & L2 & L3).
  unfold pos, n. rewrite <- (position_right _ b p Hfl).
  destruct (o_body o) as [i|] eqn:Eo; [|congruence].
  pose proof (recorded_in_right _ _ _ _ _ _ _ _ _ Ha Hb Hs o i Hin Eo) as Hin'.
  destruct (local_places e s uri (a ++ b) D _ _ _ (p + length a) Hp Ho Hs Hin') as (M1 & M2 & M3).
  { unfold move_occ. cbn. rewrite Eo. discriminate. }
  { unfold covers, move_occ, shift_span in *. cbn. lia. }
  cbn [move_occ o_body o_kind o_name o_span option_map] in *. rewrite Eo in *. cbn [option_map] in *.
  rewrite range_right in M1, M2 by exact Hfl. rewrite (spans_right _ _ _ _ _ _ _ _ _ Ha Hb Hs) in M1, M2, M3.
  assert (forall l, map (location_of (a ++ b) uri) (map (shift_span (length a)) l) = map (lower_location (lsp_line_ends a)) (map (location_of b uri) l)) as E.
  { intros l. rewrite !map_map. apply map_ext. intros sp. unfold location_of, lower_location. cbn. rewrite range_right by exact Hfl. reflexivity. }
  rewrite E in M1, M2. cbn [snd] in M3. rewrite E in M3.
  eexists _, _, _. split; [exact L1|]. split; [exact M1|]. split; [exact L2|]. split; [exact M2|]. split; [exact L3|exact M3].
Qed.
Lemma local_above e s s' uri a b D D' pa pb o p : plain_document (a ++ b) -> full_lines a ->
  parse_from_str (e_u e) a = Val pa -> parse_from_str (e_u e) b = Val pb -> pr_errors pa = [] -> read pb ->
  opened e s uri (a ++ b) D -> opened e s' uri a D' ->
  In o (recorded (pr_stmts pa) (pr_tokens pa)) -> o_body o <> None -> covers (o_span o) p ->
  let pos := lsp_position a p in
  exists x y z, goto_definition e s' uri pos = Val (Some x) /\ goto_definition e s uri pos = Val (Some x) /\
    goto_declaration e s' uri pos = Val (Some y) /\ goto_declaration e s uri pos = Val (Some y) /\
    references e s' uri pos = Val (Some z) /\ references e s uri pos = Val (Some z).
Proof.
  intros Hp Hfl Ha Hb Ea Eb Ho Ho' Hin Hl Hc pos. destruct pa as [ta sa ea], pb as [tb sb eb]. cbn in Ea, Eb, Hin. subst ea. destruct (parse_above _ _ _ _ _ _ _ _ Hfl Ha Hb Eb) as (es & Hs & _).
  destruct (plain_parts _ _ Hp) as [Pa _]. destruct (local_places _ _ _ _ _ _ _ _ _ Pa Ho' Ha Hin Hl Hc) as (L1 & L2 & L3).
  pose proof (recorded_low _ _ _ _ Ha _ Hin) as [R1 R2].
  unfold pos. rewrite <- (position_left _ b p Hfl) in * by (destruct Hc; lia).
  destruct (o_body o) as [i|] eqn:Eo; [|congruence].
  pose proof (recorded_in_left _ _ _ _ _ _ _ _ Ha Hs o i Hin Eo) as [Hin' Hi].
  destruct (local_places e s uri (a ++ b) D _ _ _ p Hp Ho Hs Hin' ltac:(congruence) Hc) as (M1 & M2 & M3).
  rewrite Eo in M1, M2, M3. rewrite (spans_left _ _ _ _ _ _ _ _ Ha Hs _ _ _ _ Hi) in M1. rewrite (spans_left _ _ _ _ _ _ _ _ Ha Hs _ _ _ _ Hi) in M2. rewrite (spans_left _ _ _ _ _ _ _ _ Ha Hs _ _ _ _ Hi) in M3. rewrite (range_left _ _ _ Hfl) in M1, M2 by lia.
  assert (forall ud kd nm, map (location_of (a ++ b) uri) (spans_of (recorded sa ta) ud kd (Some i) nm) = map (location_of a uri) (spans_of (recorded sa ta) ud kd (Some i) nm)) as E.
  { intros ud kd nm. apply map_ext_in. intros sp Hsp. apply in_spans_of in Hsp as (o2 & Ho2 & <- & _). pose proof (recorded_low _ _ _ _ Ha _ Ho2). unfold location_of. rewrite range_left by (assumption || lia). reflexivity. }
  rewrite E in M1, M2. cbn [snd] in M3. rewrite E in M3.
  eexists _, _, _. split; [exact L1|]. split; [exact M1|]. split; [exact L2|]. split; [exact M2|]. split; [exact L3|exact M3].
Qed.

(** ** Outline *)
Lemma variables_sum a b ta sa sb u : full_lines a -> parse_from_str u a = Val (mkPR ta sa []) ->
  map (variable_symbol (a ++ b)) (variable_names (sa ++ map (move_stmt (length a)) sb)) =
  map (variable_symbol a) (variable_names sa) ++ map (lower_symbol (lsp_line_ends a)) (map (variable_symbol b) (variable_names sb)).
Proof.
  intros Hfl Ha. unfold variable_names. rewrite flat_map_app, map_app. f_equal.
  - apply map_ext_in. intros x Hx. apply in_flat_map in Hx as (s & Hs & Hx). destruct s as [y l| | | |]; try contradiction. destruct Hx as [<-|[]].
    assert (In (tglobal y) ta) as Ht. { apply (PDiagDoc.subseq_in _ _ _ (sum_sub_a _ _ _ _ Ha)). apply in_flat_map. eexists. split; [exact Hs|]. left. reflexivity. }
    apply (left_tokens _ _ (sum_spans_a _ _ _ _ Ha)) in Ht. cbn in Ht. unfold variable_symbol. rewrite range_left by (assumption || lia). reflexivity.
  - rewrite map_map, flat_map_map, !map_flat. apply flat_map_ext. intros [y l| | | |]; try reflexivity. cbn. unfold variable_symbol, lower_symbol. cbn. rewrite range_right by exact Hfl. reflexivity.
Qed.
Lemma functions_sum a b ta sa sb u : full_lines a -> parse_from_str u a = Val (mkPR ta sa []) ->
  function_outline (a ++ b) (sa ++ map (move_stmt (length a)) sb) = function_outline a sa ++ map (lower_symbol (lsp_line_ends a)) (function_outline b sb).
Proof.
  intros Hfl Ha. unfold function_outline. rewrite flat_map_app. f_equal.
  - apply flat_map_ext_in'. intros s Hs. destruct s as [| |kw sig body| |]; try reflexivity.
    assert (forall t, In t (stmt_tokens (SFuncDef kw sig body)) -> sp_start (snd t) < length a /\ sp_end (snd t) <= length a) as Ht.
    { intros t Ht. apply (left_tokens _ _ (sum_spans_a _ _ _ _ Ha)). apply (PDiagDoc.subseq_in _ _ _ (sum_sub_a _ _ _ _ Ha)). apply in_flat_map. eauto. }
    assert (In (TDefine, kw) (stmt_tokens (SFuncDef kw sig body))) as T1 by (left; reflexivity).
    assert (In (tglobal (fs_name sig)) (stmt_tokens (SFuncDef kw sig body))) as T2.
    { right. unfold sig_tokens. rewrite !in_app_iff. left. right. left. right. left. reflexivity. }
    assert (In (tp (ch "}") (fb_close body)) (stmt_tokens (SFuncDef kw sig body))) as T3.
    { right. rewrite !in_app_iff. right. right. right. left. reflexivity. }
    apply Ht in T1, T2, T3. cbn [snd tglobal tp] in T1, T2, T3. unfold lsp_range. rewrite !position_left by (assumption || (cbn in *; lia)). reflexivity.
  - rewrite flat_map_map, map_flat. apply flat_map_ext. intros [| |kw sig body| |]; try reflexivity. cbn. unfold lower_symbol, lower_range. cbn. do 2 f_equal.
    + f_equal; apply position_right; exact Hfl.
    + unfold lsp_range. cbn. rewrite !position_right by exact Hfl. reflexivity.
Qed.
Lemma outline_sum e s s1 s2 uri a b D Da Db pa pb : plain_document (a ++ b) -> full_lines a -> visits_all (e_ord e) ->
  parse_from_str (e_u e) a = Val pa -> parse_from_str (e_u e) b = Val pb -> pr_errors pa = [] -> read pb ->
  opened e s uri (a ++ b) D -> opened e s1 uri a Da -> opened e s2 uri b Db ->
  exists l la lb, document_symbol e s uri = Some l /\ document_symbol e s1 uri = Some la /\ document_symbol e s2 uri = Some lb /\
    Permutation l (la ++ map (lower_symbol (lsp_line_ends a)) lb).
Proof.
  intros Hp Hfl Hv Ha Hb Ea Eb Ho Ho1 Ho2. destruct pa as [ta sa ea], pb as [tb sb eb]. cbn in Ea, Eb. subst ea. destruct (parse_above _ _ _ _ _ _ _ _ Hfl Ha Hb Eb) as (es & Hs & _). destruct (plain_parts _ _ Hp) as [Pa Pb].
  destruct (outline _ _ _ _ _ Hp Hv Ho) as (v & L1 & L2 & _). destruct (outline _ _ _ _ _ Pa Hv Ho1) as (va & A1 & A2 & _). destruct (outline _ _ _ _ _ Pb Hv Ho2) as (vb & B1 & B2 & _).
  assert (forall src dd sv ts sts er, parse_from_str (e_u e) src = Val (mkPR ts sts er) -> opened e sv uri src dd -> doc_stmts dd = sts) as Hst.
  { intros src dd sv ts sts er H1 H2. apply opened_indexed in H2 as (pr & Hix & _ & -> & _). destruct Hix as [Hix _]. rewrite H1 in Hix. injection Hix as <-. reflexivity. }
  rewrite (Hst _ _ _ _ _ _ Hs Ho) in L1, L2. rewrite (Hst _ _ _ _ _ _ Ha Ho1) in A1, A2. rewrite (Hst _ _ _ _ _ _ Hb Ho2) in B1, B2.
  exists (v ++ function_outline (a ++ b) (sa ++ map (move_stmt (length a)) sb)), (va ++ function_outline a sa), (vb ++ function_outline b sb). split; [exact L1|]. split; [exact A1|]. split; [exact B1|].
  rewrite (functions_sum _ _ _ _ _ _ Hfl Ha). rewrite (variables_sum _ _ _ _ _ _ Hfl Ha) in L2. rewrite L2, A2, map_app, B2.
  rewrite <- !app_assoc. apply Permutation_app_head. rewrite !app_assoc. apply Permutation_app_tail. apply Permutation_app_comm.
Qed.
