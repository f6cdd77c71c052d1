(** Putting documents one behind the other: diagnostics and positions. *)
From Verif Require Import Text Rope Chumsky Tokenizer Parser Numbers Index SemTok Diag Rename Cfg Backtrace Server SpecText SpecLex SpecParse SpecIndex SpecDiag SpecSum SpecAbove
  PText PRope PParse PParseProps PIndex PIndexDoc PIndexText PDiag PDiagDoc PLexProps PSum PSumIndex PAbove.

(** ** Positions *)
Lemma full_tail c r : full_lines (c :: r) -> (r = [] /\ c = LF) \/ (r <> [] /\ full_lines r).
Proof.
  intros H. destruct r as [|x r].
  - left. split; [reflexivity|]. destruct H as [H|(p & H)]; [discriminate|]. destruct p as [|? [|? ?]]; try discriminate. injection H as ->. reflexivity.
  - right. split; [discriminate|]. exact (full_lines_app [c] _ H).
Qed.
Lemma eol_app c r b : full_lines (c :: r) -> lsp_eol c (r ++ b) = lsp_eol c r.
Proof. intros H. apply full_tail in H as [[-> ->]|[H _]]; [reflexivity|]. destruct r; [congruence|reflexivity]. Qed.
Lemma scan_left a b : full_lines a -> forall p l c, p <= length a -> lsp_scan (a ++ b) p l c = lsp_scan a p l c.
Proof.
  induction a as [|x a IH]; intros Hf p l c Hp.
  - destruct p; [destruct b; reflexivity|cbn in Hp; lia].
  - destruct p as [|p]; [reflexivity|]. cbn [app lsp_scan]. rewrite (eol_app _ _ _ Hf). cbn in Hp.
    assert (full_lines a) as Hf' by exact (full_lines_app [x] _ Hf). destruct (lsp_eol x a); apply IH; try assumption; lia.
Qed.
Lemma scan_right a b : full_lines a -> forall p l c, lsp_scan (a ++ b) (length a + p) l c = lsp_scan b p (l + lsp_line_ends a) (match a with [] => c | _ => 0 end).
Proof.
  induction a as [|x a IH]; intros Hf p l c.
  - cbn. rewrite Nat.add_0_r. reflexivity.
  - cbn [app length Nat.add lsp_scan lsp_line_ends]. rewrite (eol_app _ _ _ Hf). pose proof (full_tail _ _ Hf) as [[-> ->]|[Hn Hf']].
    + cbn. rewrite Nat.add_1_r. reflexivity.
    + destruct (lsp_eol x a); rewrite (IH Hf'); destruct a; try congruence; f_equal; lia.
Qed.
Lemma scan_lower b : forall p l c n, lsp_scan b p (l + n) c = lower n (lsp_scan b p l c).
Proof.
  induction b as [|x b IH]; intros p l c n.
  - destruct p; unfold lower; cbn; f_equal; lia.
  - destruct p; [unfold lower; cbn; f_equal; lia|]. cbn [lsp_scan]. destruct (lsp_eol x b); [|apply IH]. exact (IH p (S l) 0 n).
Qed.
Lemma position_left a b p : full_lines a -> p <= length a -> lsp_position (a ++ b) p = lsp_position a p.
Proof. intros Hf Hp. apply scan_left; assumption. Qed.
Lemma position_right a b p : full_lines a -> lsp_position (a ++ b) (p + length a) = lower (lsp_line_ends a) (lsp_position b p).
Proof.
  intros Hf. unfold lsp_position. rewrite Nat.add_comm, (scan_right _ _ Hf), <- scan_lower. destruct a; reflexivity.
Qed.
Lemma range_left a b sp : full_lines a -> sp_start sp <= length a -> sp_end sp <= length a -> lsp_range (a ++ b) sp = lsp_range a sp.
Proof. intros Hf H1 H2. unfold lsp_range. rewrite !position_left by assumption. reflexivity. Qed.
Lemma range_right a b sp : full_lines a -> lsp_range (a ++ b) (shift_span (length a) sp) = lower_range (lsp_line_ends a) (lsp_range b sp).
Proof. intros Hf. unfold lsp_range, lower_range, shift_span. cbn. rewrite !(position_right _ _ _ Hf). reflexivity. Qed.
Lemma plain_parts a b : plain_document (a ++ b) -> plain_document a /\ plain_document b.
Proof.
  unfold plain_document, ascii_text, lsp_plain, small. rewrite !forallb_app, !andb_true_iff, app_length. intros ([H1 H2] & [H3 H4] & H5).
  repeat split; try assumption; lia.
Qed.

(** ** Undefined uses and redefinitions *)
Section Docs.
Variables (u : uclass) (a b : text) (ta tb : list stoken) (sa sb : list statement) (eb es : list (simple text)).
Hypothesis Hfl : full_lines a.
Hypothesis Ha : parse_from_str u a = Val (mkPR ta sa []).
Hypothesis Hb : parse_from_str u b = Val (mkPR tb sb eb).
Notation d := (length a).
Notation k := (length (function_defs sa)).
Notation ss := (sa ++ map (move_stmt d) sb).
Notation toks := (ta ++ map (shift_tok d) tb).

Hypothesis Hs : parse_from_str u (a ++ b) = Val (mkPR toks ss es).
Lemma sum_spans_a : spans_in 0 d ta. Proof. apply parse_from_str_module in Ha as [H _]. exact H. Qed.
Lemma sum_spans_b : spans_in 0 (length b) tb. Proof. apply parse_from_str_module in Hb as [H _]. exact H. Qed.
Lemma sum_sub_a : subseq (flat_map stmt_tokens sa) ta. Proof. exact (provenance _ _ _ Ha). Qed.
Lemma sum_sub_b : subseq (flat_map stmt_tokens sb) tb. Proof. exact (provenance _ _ _ Hb). Qed.

Lemma undefined_sum_at o : In o (undefined_uses (recorded ss toks)) <->
  (In o (undefined_uses (recorded sa ta)) /\ supplies sb o = false) \/
  exists x, In x (undefined_uses (recorded sb tb)) /\ supplies sa x = false /\ o = move_occ d k x.
Proof.
  rewrite (undefined_document _ _ _ o Hs), (undefined_document _ _ _ o Ha). cbn [pr_stmts pr_tokens].
  rewrite (use_sum sa sb ta tb d sum_spans_a sum_sub_a). split.
  - intros [H|(x & H1 & H2 & H3)]; [left; exact H|right]. exists x. split; [apply (undefined_document _ _ _ x Hb); exact H1|auto].
  - intros [H|(x & H1 & H2 & H3)]; [left; exact H|right]. exists x. split; [apply (undefined_document _ _ _ x Hb); exact H1|auto].
Qed.
Lemma recorded_low o : In o (recorded sa ta) -> sp_start (o_span o) < d /\ sp_end (o_span o) <= d.
Proof. intros H. apply (recorded_token _ _ _ sum_spans_a sum_sub_a) in H. apply (left_tokens ta d sum_spans_a) in H. exact H. Qed.
Lemma undefined_sum_perm_at : Permutation (undefined_uses (recorded ss toks))
  (filter (fun o => negb (supplies sb o)) (undefined_uses (recorded sa ta)) ++
   map (move_occ d k) (filter (fun o => negb (supplies sa o)) (undefined_uses (recorded sb tb)))).
Proof.
  apply NoDup_Permutation.
  - exact (undefined_once _ _ _ Hs).
  - apply nodup_app.
    + apply NoDup_filter. exact (undefined_once _ _ _ Ha).
    + apply FinFun.Injective_map_NoDup; [intros x y; apply move_inj|]. apply NoDup_filter. exact (undefined_once _ _ _ Hb).
    + intros o H1 H2. apply filter_In in H1 as [H1 _]. apply filter_In in H1 as [H1 _]. apply recorded_low in H1.
      apply in_map_iff in H2 as (x & <- & _). cbn in H1. lia.
  - intros o. rewrite undefined_sum_at, in_app_iff, filter_In, in_map_iff, negb_true_iff. split.
    + intros [H|(x & H1 & H2 & ->)]; [auto|]. right. exists x. split; [reflexivity|]. apply filter_In. rewrite negb_true_iff. auto.
    + intros [H|(x & <- & H)]; [auto|]. apply filter_In in H as [H1 H2]. rewrite negb_true_iff in H2. right. eauto.
Qed.
Lemma redefinitions_defined {e0} s0 t0 src0 o f : parse_from_str u src0 = Val (mkPR t0 s0 e0) ->
  (In (o, f) (redefinitions (recorded s0 t0)) <-> In o (tree_occs 0 s0) /\ o_ud o = Def /\ first_defined s0 o f /\ o <> f).
Proof. intros H. rewrite (redefinitions_document _ _ _ o f H). cbn [pr_stmts]. unfold first_defined. tauto. Qed.
Lemma redefinitions_sum_at o f : In (o, f) (redefinitions (recorded ss toks)) <->
  In (o, f) (redefinitions (recorded sa ta)) \/
  exists x, o = move_occ d k x /\
    ((In x (tree_occs 0 sb) /\ o_ud x = Def /\ o_body x = None /\ first_defined sa x f) \/
     (~ (o_body x = None /\ exists g, first_defined sa x g) /\ exists y, In (x, y) (redefinitions (recorded sb tb)) /\ f = move_occ d k y)).
Proof.
  rewrite (redefinitions_defined _ _ _ o f Hs), (redefinitions_defined _ _ _ o f Ha), (redefinition_sum sa sb ta d sum_spans_a sum_sub_a). split.
  - intros [H|(x & H1 & H2 & -> & H)]; [left; exact H|]. right. exists x. split; [reflexivity|]. destruct H as [[H3 H4]|[H3 (y & H4 & H5 & ->)]]; [left; auto|]. right.
    split; [exact H3|]. exists y. split; [|reflexivity]. apply (redefinitions_defined _ _ _ x y Hb). auto.
  - intros [H|(x & -> & H)]; [left; exact H|]. right. exists x. destruct H as [(H1 & H2 & H3 & H4)|[H3 (y & H4 & ->)]]; [repeat (split; [assumption || reflexivity|]); left; auto|].
    apply (redefinitions_defined _ _ _ x y Hb) in H4 as (H4 & H5 & H6 & H7). repeat (split; [assumption || reflexivity|]). right. split; [exact H3|]. eauto.
Qed.

(** own uses are never supplied by the part itself *)
Lemma undefined_own {e0} s0 t0 src0 o : parse_from_str u src0 = Val (mkPR t0 s0 e0) -> In o (undefined_uses (recorded s0 t0)) -> supplies s0 o = false.
Proof.
  intros H Ho. apply (undefined_document _ _ _ o H) in Ho as (Hu & Hn & [Ho|(t & _ & Ho)]); cbn [pr_stmts pr_tokens] in *.
  - destruct (tree_use_shape _ _ Ho Hu) as [Hk _]. unfold supplies. rewrite Hk. reflexivity.
  - destruct (token_shape _ _ _ Ho) as [_ S]. destruct (o_kind o) eqn:Ek.
    + destruct S as [S1 S2]. apply supplies_global; auto.
    + exfalso. tauto.
    + apply supplies_dbg; auto.
    + contradiction.
    + unfold supplies. rewrite Ek. reflexivity.
Qed.

(** ** Diagnostics *)
Lemma missing_moved i : missing_refs (move_instr d i) = missing_refs i.
Proof. unfold missing_refs, move_instr. cbn. destruct (i_refs i); reflexivity. Qed.
Lemma instructions_sum : instructions ss = instructions sa ++ map (move_instr d) (instructions sb).
Proof.
  unfold instructions. rewrite function_defs_app, flat_map_app, defs_moved. f_equal. rewrite flat_map_map, map_flat. apply flat_map_ext. intros [sig body].
  cbn. rewrite flat_map_map, map_flat. apply flat_map_ext. intros blk. reflexivity.
Qed.
Lemma filter_missing_sum : filter missing_refs (instructions ss) = filter missing_refs (instructions sa) ++ map (move_instr d) (filter missing_refs (instructions sb)).
Proof.
  rewrite instructions_sum, filter_app. f_equal. induction (instructions sb) as [|i l IH]; [reflexivity|]. cbn [map filter]. rewrite missing_moved, IH. destruct (missing_refs i); reflexivity.
Qed.
Lemma filter_all {A} (f : A -> bool) l : (forall x, In x l -> f x = true) -> filter f l = l.
Proof. intros H. induction l as [|x l IH]; [reflexivity|]. cbn. rewrite (H x (or_introl eq_refl)), IH; [reflexivity|]. intros y Hy. apply H. right. exact Hy. Qed.
Lemma undefined_low uri o : In o (recorded sa ta) -> undefined_diagnostic (a ++ b) o = undefined_diagnostic a o /\
  forall f, In f (recorded sa ta) -> redefinition_diagnostic (a ++ b) uri (o, f) = redefinition_diagnostic a uri (o, f).
Proof.
  intros H. pose proof (recorded_low _ H). unfold undefined_diagnostic, redefinition_diagnostic. cbn [fst snd]. rewrite range_left by (assumption || lia). split; [reflexivity|].
  intros f Hf. pose proof (recorded_low _ Hf). rewrite range_left by (assumption || lia). reflexivity.
Qed.
Lemma undefined_high uri x : undefined_diagnostic (a ++ b) (move_occ d k x) = lower_diagnostic (lsp_line_ends a) (undefined_diagnostic b x) /\
  forall y, redefinition_diagnostic (a ++ b) uri (move_occ d k x, move_occ d k y) = lower_diagnostic (lsp_line_ends a) (redefinition_diagnostic b uri (x, y)).
Proof.
  unfold undefined_diagnostic, redefinition_diagnostic, lower_diagnostic, lower_location. cbn [fst snd move_occ o_span o_name d_range d_message d_related map loc_uri loc_range].
  rewrite !range_right by exact Hfl. split; [reflexivity|]. intros y. rewrite range_right by exact Hfl. reflexivity.
Qed.
Lemma in_redefs_recorded s0 t0 (o f : occurrence) : In (o, f) (redefinitions (recorded s0 t0)) -> In o (recorded s0 t0) /\ In f (recorded s0 t0).
Proof.
  unfold redefinitions. intros H. apply in_flat_map in H as (x & Hx & H). destruct (find _ _) as [g|] eqn:E; [|contradiction].
  destruct (_ && _); [|contradiction]. destruct H as [H|[]]. injection H as -> ->. apply find_some in E as [E _]. auto.
Qed.
Lemma redefinitions_nodup_doc {e0} s0 t0 src0 : parse_from_str u src0 = Val (mkPR t0 s0 e0) -> NoDup (redefinitions (recorded s0 t0)).
Proof. intros H. apply (NoDup_map_inv fst). exact (redefinitions_once _ _ _ H). Qed.
Lemma redefinitions_apart_at : (forall o f, In o (tree_occs 0 sb) -> o_ud o = Def -> o_body o = None -> ~ first_defined sa o f) ->
  Permutation (redefinitions (recorded ss toks))
    (redefinitions (recorded sa ta) ++ map (fun x => (move_occ d k (fst x), move_occ d k (snd x))) (redefinitions (recorded sb tb))).
Proof.
  intros Hap. apply NoDup_Permutation.
  - exact (redefinitions_nodup_doc _ _ _ Hs).
  - apply nodup_app; [exact (redefinitions_nodup_doc _ _ _ Ha)| |].
    + apply FinFun.Injective_map_NoDup; [|exact (redefinitions_nodup_doc _ _ _ Hb)]. intros [x y] [x' y'] E. cbn in E. injection E as E1 E2 E3 E4 E5 E6 E7 E8 E9 E10 E11 E12.
      assert (forall x x', move_occ d k x = move_occ d k x' -> x = x') as I by (intros; eapply move_inj; eassumption).
      f_equal; apply I; unfold move_occ, shift_span; congruence.
    + intros [o f] H1 H2. apply in_redefs_recorded in H1 as [H1 _]. apply recorded_low in H1. apply in_map_iff in H2 as ([x y] & E & _). injection E as E1 E2. rewrite <- E1 in H1. cbn in H1. lia.
  - intros [o f]. rewrite redefinitions_sum_at, in_app_iff, in_map_iff. split.
    + intros [H|(x & -> & [(H1 & H2 & H3 & H4)|(_ & y & H & ->)])]; [auto|exfalso; exact (Hap _ _ H1 H2 H3 H4)|]. right. exists (x, y). auto.
    + intros [H|([x y] & E & H)]; [auto|]. cbn in E. injection E as <- <-. right. exists x. split; [reflexivity|]. right. split; [|eauto].
      intros [H1 (g & H2)]. apply (redefinitions_defined _ _ _ _ _ Hb) in H as (H & H3 & _). exact (Hap _ _ H H3 H1 H2).
Qed.
End Docs.

(** both parts without errors *)
Section Clean.
Variables (u : uclass) (a b : text) (ta tb : list stoken) (sa sb : list statement).
Hypothesis Hfl : full_lines a.
Hypothesis Ha : parse_from_str u a = Val (mkPR ta sa []).
Hypothesis Hb : parse_from_str u b = Val (mkPR tb sb []).
Definition sum_parsed := parse_sum u a b ta tb sa sb Hfl Ha Hb.
Definition undefined_sum_perm := undefined_sum_perm_at u a b ta tb sa sb [] [] Ha Hb sum_parsed.
Definition redefinitions_sum := redefinitions_sum_at u a b ta tb sa sb [] [] Ha Hb sum_parsed.
Definition redefinitions_apart := redefinitions_apart_at u a b ta tb sa sb [] [] Ha Hb sum_parsed.
End Clean.

Lemma mnemonic_low u a ta sa i : parse_from_str u a = Val (mkPR ta sa []) -> In i (instructions sa) -> sp_start (snd (i_instr i)) < length a /\ sp_end (snd (i_instr i)) <= length a.
Proof.
  intros Ha Hi. pose proof (provenance _ _ _ Ha) as Hs. apply parse_from_str_module in Ha as [Hsp _]. cbn in *.
  apply mnemonic_token in Hi. apply (PDiagDoc.subseq_in _ _ _ Hs) in Hi. apply (left_tokens _ _ Hsp) in Hi. exact Hi.
Qed.
Lemma syntax_moved ord a b eb : full_lines a ->
  map (syntax_diagnostic ord (a ++ b)) (filter (fun x => negb (at_end (a ++ b) x)) (map (move_error (length a)) eb)) =
  map (lower_diagnostic (lsp_line_ends a)) (map (syntax_diagnostic ord b) (filter (fun x => negb (at_end b x)) eb)).
Proof.
  intros Hfl. induction eb as [|x eb IH]; [reflexivity|]. cbn [map filter].
  assert (at_end (a ++ b) (move_error (length a) x) = at_end b x) as ->.
  { unfold at_end. cbn [move_error e_span]. apply eq_true_iff_eq. rewrite !PDiag.span_eqb_spec. unfold shift_span. rewrite app_length. destruct (e_span x) as [p q]. cbn.
    split; intros E; injection E as E1 E2; f_equal; lia. }
  destruct (at_end b x); cbn [negb]; [exact IH|]. cbn [map]. rewrite IH. f_equal.
  unfold syntax_diagnostic, lower_diagnostic. cbn [d_range d_message d_related map move_error e_span]. rewrite range_right by exact Hfl. reflexivity.
Qed.
Lemma diagnostics_apart e uri a b pa pb da db la lb : plain_document (a ++ b) -> full_lines a -> visits_all (e_ord e) ->
  parse_from_str (e_u e) a = Val pa -> parse_from_str (e_u e) b = Val pb -> pr_errors pa = [] -> read pb -> apart pa pb ->
  analyze e uri a = Val (da, la) -> analyze e uri b = Val (db, lb) ->
  exists d l, analyze e uri (a ++ b) = Val (d, l) /\ Permutation l (la ++ map (lower_diagnostic (lsp_line_ends a)) lb).
Proof.
  intros Hp Hfl Hv Ha Hb Ea Eb (A1 & A2 & A3) Aa Ab. destruct pa as [ta sa ea], pb as [tb sb eb]. cbn in Ea, Eb, A1, A2, A3. subst ea.
  destruct (parse_above _ _ _ _ _ _ _ _ Hfl Ha Hb Eb) as (es & Hs & Hes). apply further_plain in Hes; [|apply byte_len_ascii; apply (plain_parts _ _ Hp)].
  destruct (plain_parts _ _ Hp) as [Pa Pb]. destruct (analyze_ascii e uri (a ++ b)) as (d & l & E); [apply Hp|]. exists d, l. split; [exact E|].
  destruct (document_diagnostics _ _ _ _ _ Hp Hv E) as (pr & Hpr & P). rewrite Hs in Hpr. injection Hpr as <-.
  destruct (document_diagnostics _ _ _ _ _ Pa Hv Aa) as (pr & Hpr & Qa). rewrite Ha in Hpr. injection Hpr as <-.
  destruct (document_diagnostics _ _ _ _ _ Pb Hv Ab) as (pr & Hpr & Qb). rewrite Hb in Hpr. injection Hpr as <-.
  cbn [pr_errors pr_stmts pr_tokens filter map app] in P, Qa, Qb.
  rewrite filter_missing_sum, map_app in P.
  pose proof (undefined_sum_perm_at _ _ _ _ _ _ _ _ _ Ha Hb Hs) as U.
  rewrite (filter_all (fun o => negb (supplies sb o))) in U by (intros o Ho; rewrite (A1 _ Ho); reflexivity).
  rewrite (filter_all (fun o => negb (supplies sa o))) in U by (intros o Ho; rewrite (A2 _ Ho); reflexivity).
  pose proof (redefinitions_apart_at _ _ _ _ _ _ _ _ _ Ha Hb Hs A3) as R.
  apply (Permutation_map (undefined_diagnostic (a ++ b))) in U. rewrite map_app in U.
  apply (Permutation_map (redefinition_diagnostic (a ++ b) uri)) in R. rewrite map_app in R.
  assert (map (missing_diagnostic (a ++ b)) (filter missing_refs (instructions sa)) = map (missing_diagnostic a) (filter missing_refs (instructions sa))) as E1.
  { apply map_ext_in. intros i Hi. apply filter_In in Hi as [Hi _]. apply (mnemonic_low _ _ _ _ _ Ha) in Hi. unfold missing_diagnostic. rewrite range_left by (assumption || lia). reflexivity. }
  assert (map (missing_diagnostic (a ++ b)) (map (move_instr (length a)) (filter missing_refs (instructions sb))) =
    map (lower_diagnostic (lsp_line_ends a)) (map (missing_diagnostic b) (filter missing_refs (instructions sb)))) as E2.
  { rewrite !map_map. apply map_ext. intros i. unfold missing_diagnostic, lower_diagnostic. cbn. rewrite range_right by exact Hfl. reflexivity. }
  assert (map (undefined_diagnostic (a ++ b)) (undefined_uses (recorded sa ta)) = map (undefined_diagnostic a) (undefined_uses (recorded sa ta))) as E3.
  { apply map_ext_in. intros o Ho. apply filter_In in Ho as [Ho _]. apply (undefined_low _ _ _ _ _ Hfl Ha uri _ Ho). }
  assert (map (undefined_diagnostic (a ++ b)) (map (move_occ (length a) (length (function_defs sa))) (undefined_uses (recorded sb tb))) =
    map (lower_diagnostic (lsp_line_ends a)) (map (undefined_diagnostic b) (undefined_uses (recorded sb tb)))) as E4.
  { rewrite !map_map. apply map_ext. intros o. apply (undefined_high _ _ _ Hfl uri). }
  assert (map (redefinition_diagnostic (a ++ b) uri) (redefinitions (recorded sa ta)) = map (redefinition_diagnostic a uri) (redefinitions (recorded sa ta))) as E5.
  { apply map_ext_in. intros [o f] H. apply in_redefs_recorded in H as [H1 H2]. apply (undefined_low _ _ _ _ _ Hfl Ha uri _ H1). exact H2. }
  assert (map (redefinition_diagnostic (a ++ b) uri) (map (fun x => (move_occ (length a) (length (function_defs sa)) (fst x), move_occ (length a) (length (function_defs sa)) (snd x))) (redefinitions (recorded sb tb))) =
    map (lower_diagnostic (lsp_line_ends a)) (map (redefinition_diagnostic b uri) (redefinitions (recorded sb tb)))) as E6.
  { rewrite !map_map. apply map_ext. intros [o f]. apply (undefined_high _ _ _ Hfl uri). }
  pose proof (syntax_moved (e_xord e) a b eb Hfl) as E7. rewrite <- Hes in E7.
  rewrite E3, E4 in U. rewrite E5, E6 in R. rewrite E1, E2, E7 in P. rewrite P, U, R. rewrite Qa, Qb, !map_app.
  set (w2 := map _ (map (syntax_diagnostic _ b) _)).
  set (x1 := map (missing_diagnostic a) _). set (x2 := map _ (map (missing_diagnostic b) _)).
  set (y1 := map (undefined_diagnostic a) _). set (y2 := map _ (map (undefined_diagnostic b) _)).
  set (z1 := map (redefinition_diagnostic a uri) _). set (z2 := map _ (map (redefinition_diagnostic b uri) _)). clear.
  rewrite (Permutation_app_comm w2). rewrite <- !app_assoc. apply Permutation_app_head.
  rewrite (Permutation_app_comm x2). rewrite <- !app_assoc. apply Permutation_app_head.
  rewrite (Permutation_app_comm y2). rewrite <- !app_assoc. apply Permutation_app_head.
  rewrite (Permutation_app_comm z2). rewrite <- !app_assoc. reflexivity.
Qed.
