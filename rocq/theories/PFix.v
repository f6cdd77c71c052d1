(** Lines that settle reports about other lines. *)
From Verif Require Import Text Rope Chumsky Tokenizer Parser Numbers Index SemTok Diag Rename Cfg Backtrace Server SpecText SpecLex SpecParse SpecIndex SpecDiag SpecBacktrace SpecCfg SpecView SpecSemTok SpecRename SpecSum SpecSumView SpecEdit SpecFix
  PText PRope PParse PParseProps PIndex PIndexDoc PIndexText PDiag PDiagDoc PHints PLexProps PExt PNav PRelex PSum PSumIndex PSumDoc PSumNav PSumOrder PSumView PEdit.

(** ** What is offered is seen in the name *)
Lemma offer_occ k b n ss : forall id, In (k, b, n) (flat_map offer ss) -> exists o, In o (tree_occs id ss) /\ o_ud o <> Use /\ o_kind o = k /\ o_name o = n.
Proof.
  induction ss as [|s ss IH]; intros id H; [contradiction|]. cbn [tree_occs flat_map] in *. apply in_app_or in H as [H|H]; [|destruct (IH (id + is_def s) H) as (o & H1 & H2); exists o; split; [apply in_or_app; right; exact H1|exact H2]].
  destruct s; cbn [offer stmt_occs] in *; try contradiction; destruct H as [H|[]]; injection H as <- <- <-; eexists; (split; [apply in_or_app; left; left; reflexivity|]); repeat split; discriminate.
Qed.
Lemma offer_kind k b n ss : In (k, b, n) (flat_map offer ss) -> k = KGlobalVar \/ k = KFunction \/ k = KDbgAnnotation.
Proof. intros H. apply in_flat_map in H as (s & _ & H). destruct s; cbn in H; try contradiction; destruct H as [H|[]]; injection H as <- _ _; auto. Qed.
Section Names.
Variables (e : env) (uri : text).
Lemma parsed_indexed src pr : plain_document src -> parse_from_str (e_u e) src = Val pr -> exists ix, indexed (e_u e) src pr ix.
Proof.
  intros Hp H. destruct (analyze_ascii e uri src) as (d & l & E); [apply Hp|]. destruct (opened_indexed e (mkServer [] false [(uri, d)]) uri src d) as (pr' & Hix & _).
  - split; [unfold get_doc; cbn; rewrite text_eqb_refl; reflexivity|]. exists l. exact E.
  - exists (doc_index d). assert (pr' = pr) as <- by (destruct Hix as [G _]; congruence). exact Hix.
Qed.
Definition first_of (k : symbol_kind) (n : text) : Prop :=
  exists c w, n = c :: w /\ match k with KGlobalVar | KFunction => c = 64%N | KDbgAnnotation => c = 33%N | KLocalVar => c = 37%N | KLabel => c <> 64%N /\ c <> 33%N end.
Lemma occ_first src pr o : plain_document src -> parse_from_str (e_u e) src = Val pr -> In o (recorded (pr_stmts pr) (pr_tokens pr)) -> first_of (o_kind o) (o_name o).
Proof.
  intros Hp H Ho. destruct (parsed_indexed _ _ Hp H) as (ix & Hix). destruct (kind_dec (o_kind o) KLabel) as [K|K].
  - destruct (occ_label _ _ _ _ _ Hix Ho K) as (c & w & E & Hs & _). exists c, w. split; [exact E|]. rewrite K. destruct Hs as [Hs|Hs]; [|rewrite Hs; split; discriminate]. split; intros ->; discriminate Hs.
  - destruct (occ_sigil _ _ _ _ _ Hix Ho K) as (c & w & E1 & E2 & _). exists c, w. split; [exact E2|]. destruct (o_kind o); cbn in E1; congruence.
Qed.
Lemma offer_first src ts ss k b n : plain_document src -> parse_from_str (e_u e) src = Val (mkPR ts ss []) -> In (k, b, n) (flat_map offer ss) -> first_of k n.
Proof.
  intros Hp H Ho. destruct (offer_occ _ _ _ _ 0 Ho) as (o & H1 & H2 & <- & <-). eapply (occ_first src (mkPR ts ss [])); [exact Hp|exact H|].
  apply (recorded_nonuse _ _ _ (sum_spans_a _ _ _ _ H) (sum_sub_a _ _ _ _ H)); assumption.
Qed.
End Names.

Lemma message_inj n m : undefined_message n = undefined_message m -> n = m.
Proof. unfold undefined_message. intros H. apply app_inv_head in H. apply app_inv_tail in H. exact H. Qed.
Lemma unmet_false ss x : unmet ss x = false <-> exists k b n, In (k, b, n) (flat_map offer ss) /\ d_message x = undefined_message n.
Proof.
  unfold unmet. rewrite negb_false_iff, existsb_exists. split.
  - intros ([[k b] n] & H1 & H2). exists k, b, n. split; [exact H1|]. apply text_eqb_eq in H2. exact H2.
  - intros (k & b & n & H1 & H2). exists (k, b, n). split; [exact H1|]. apply text_eqb_eq. exact H2.
Qed.
Lemma unmet_other ss x c m : d_message x = c :: m -> c <> ch "U" -> unmet ss x = true.
Proof. intros E Hc. destruct (unmet ss x) eqn:G; [reflexivity|]. apply unmet_false in G as (k & b & n & _ & G). rewrite E in G. unfold undefined_message in G. exfalso. apply Hc. injection G as -> _. reflexivity. Qed.
Lemma unmet_missing ss src i : unmet ss (missing_diagnostic src i) = true.
Proof. eapply unmet_other; [reflexivity|discriminate]. Qed.
Lemma unmet_again ss src uri x : unmet ss (redefinition_diagnostic src uri x) = true.
Proof. eapply unmet_other; [reflexivity|discriminate]. Qed.
Lemma unmet_app sa sb x : unmet (sa ++ sb) x = unmet sa x && unmet sb x.
Proof. unfold unmet. rewrite flat_map_app, existsb_app, negb_orb. reflexivity. Qed.
Lemma unmet_moved d ss x : unmet (map (move_stmt d) ss) x = unmet ss x.
Proof. unfold unmet. rewrite offer_all. reflexivity. Qed.
Lemma unmet_lower n ss x : unmet ss (lower_diagnostic n x) = unmet ss x.
Proof. reflexivity. Qed.
Lemma unmet_use e (uri : text) src pr src' ts ss o : plain_document src -> parse_from_str (e_u e) src = Val pr -> In o (recorded (pr_stmts pr) (pr_tokens pr)) ->
  plain_document src' -> parse_from_str (e_u e) src' = Val (mkPR ts ss []) -> forall t, unmet ss (undefined_diagnostic t o) = negb (supplies ss o).
Proof.
  intros Hp H Ho Hp' H' t. destruct (supplies ss o) eqn:S; cbn [negb].
  - apply unmet_false. rewrite supplies_offered in S.
    assert (exists k b, In (k, b, o_name o) (flat_map offer ss)) as (k & b & G); [|exists k, b, (o_name o); split; [exact G|reflexivity]].
    destruct (o_kind o); try discriminate; rewrite ?orb_true_iff, ?offered_in in S; [destruct S as [[S|S]|S]|destruct S as [[S|S]|S]|]; eauto.
  - destruct (unmet ss (undefined_diagnostic t o)) eqn:G; [reflexivity|]. apply unmet_false in G as (k & b & n & Hin & E). apply message_inj in E. subst n. exfalso.
    destruct (occ_first e uri _ _ _ Hp H Ho) as (c & w & E & F). destruct (offer_first e uri _ _ _ _ _ _ Hp' H' Hin) as (c' & w' & E' & F'). rewrite E in E'. injection E' as <- _.
    rewrite supplies_offered in S. rewrite E in Hin. rewrite <- E in Hin.
    destruct (offer_kind _ _ _ _ Hin) as [-> | [-> | -> ] ]; destruct (o_kind o); try (subst c; discriminate); try (destruct F; congruence);
      apply offered_in in Hin; destruct b; rewrite ?Hin, ?orb_true_r in S; try discriminate.
    all: apply offered_in in Hin; apply in_flat_map in Hin as (s0 & _ & Hin); destruct s0; cbn in Hin; try contradiction; destruct Hin as [Hin|[]]; discriminate.
Qed.

(** ** Two parts *)
Lemma no_clash_first sa sb o f : no_clash sa sb -> In o (tree_occs 0 sb) -> o_ud o = Def -> o_body o = None -> ~ first_defined sa o f.
Proof.
  intros H Ho Hd Hb F. apply (H (o_kind o) (o_name o)); [|exact (tree_global _ _ _ Ho Hb Hd)]. destruct F as (F1 & F2 & (K1 & K2 & K3) & _). rewrite K1, K3. eapply tree_global; [exact F1|congruence|exact F2].
Qed.
Lemma filter_none {A} (f : A -> bool) l : (forall x, In x l -> f x = true) -> filter f l = l.
Proof. apply filter_all. Qed.
Lemma filter_undefined e (uri : text) src pr src' ts ss (l : list occurrence) t : plain_document src -> parse_from_str (e_u e) src = Val pr -> plain_document src' -> parse_from_str (e_u e) src' = Val (mkPR ts ss []) ->
  (forall o, In o l -> In o (recorded (pr_stmts pr) (pr_tokens pr))) ->
  filter (unmet ss) (map (undefined_diagnostic t) l) = map (undefined_diagnostic t) (filter (fun o => negb (supplies ss o)) l).
Proof.
  intros Hp H Hp' H' Hl. induction l as [|o l IH]; [reflexivity|]. cbn [map filter]. rewrite (unmet_use e uri _ _ _ _ _ _ Hp H (Hl o (or_introl eq_refl)) Hp' H' t).
  rewrite IH by (intros x Hx; apply Hl; right; exact Hx). destruct (supplies ss o); reflexivity.
Qed.
Lemma filter_reports e uri src ts0 ss0 src' ts ss : plain_document src -> parse_from_str (e_u e) src = Val (mkPR ts0 ss0 []) -> plain_document src' -> parse_from_str (e_u e) src' = Val (mkPR ts ss []) ->
  filter (unmet ss) (map (missing_diagnostic src) (filter missing_refs (instructions ss0)) ++ map (undefined_diagnostic src) (undefined_uses (recorded ss0 ts0)) ++
     map (redefinition_diagnostic src uri) (redefinitions (recorded ss0 ts0))) =
  map (missing_diagnostic src) (filter missing_refs (instructions ss0)) ++ map (undefined_diagnostic src) (filter (fun o => negb (supplies ss o)) (undefined_uses (recorded ss0 ts0))) ++
     map (redefinition_diagnostic src uri) (redefinitions (recorded ss0 ts0)).
Proof.
  intros Hp H Hp' H'. rewrite !filter_app. rewrite (filter_all _ (map (missing_diagnostic src) _)) by (intros x Hx; apply in_map_iff in Hx as (i & <- & _); apply unmet_missing).
  rewrite (filter_all _ (map (redefinition_diagnostic src uri) _)) by (intros x Hx; apply in_map_iff in Hx as (i & <- & _); apply unmet_again).
  rewrite (filter_undefined e uri src (mkPR ts0 ss0 []) src' ts ss _ _ Hp H Hp' H'); [reflexivity|]. intros o Ho. apply filter_In in Ho as [Ho _]. exact Ho.
Qed.
Lemma diagnostics_two e uri a b pa pb da db la lb : plain_document (a ++ b) -> full_lines a -> visits_all (e_ord e) ->
  parse_from_str (e_u e) a = Val pa -> parse_from_str (e_u e) b = Val pb -> pr_errors pa = [] -> pr_errors pb = [] -> no_clash (pr_stmts pa) (pr_stmts pb) ->
  analyze e uri a = Val (da, la) -> analyze e uri b = Val (db, lb) ->
  exists d l, analyze e uri (a ++ b) = Val (d, l) /\
    Permutation l (filter (unmet (pr_stmts pb)) la ++ map (lower_diagnostic (lsp_line_ends a)) (filter (unmet (pr_stmts pa)) lb)).
Proof.
  intros Hp Hfl Hv Ha Hb Ea Eb A3 Aa Ab. destruct pa as [ta sa ea], pb as [tb sb eb]. cbn in Ea, Eb, A3 |- *. subst.
  destruct (plain_parts _ _ Hp) as [Pa Pb]. destruct (analyze_ascii e uri (a ++ b)) as (d & l & E); [apply Hp|]. exists d, l. split; [exact E|].
  destruct (document_diagnostics _ _ _ _ _ Hp Hv E) as (pr & Hpr & P). rewrite (sum_parsed _ _ _ _ _ _ _ Hfl Ha Hb) in Hpr. injection Hpr as <-.
  destruct (document_diagnostics _ _ _ _ _ Pa Hv Aa) as (pr & Hpr & Qa). rewrite Ha in Hpr. injection Hpr as <-.
  destruct (document_diagnostics _ _ _ _ _ Pb Hv Ab) as (pr & Hpr & Qb). rewrite Hb in Hpr. injection Hpr as <-.
  cbn [pr_errors pr_stmts pr_tokens filter map app] in P, Qa, Qb. apply (perm_filter' (unmet sb)) in Qa. apply (perm_filter' (unmet sa)) in Qb.
  rewrite (filter_reports e uri a ta sa b tb sb Pa Ha Pb Hb) in Qa. rewrite (filter_reports e uri b tb sb a ta sa Pb Hb Pa Ha) in Qb.
  rewrite filter_missing_sum, map_app in P.
  pose proof (undefined_sum_perm _ _ _ _ _ _ _ Hfl Ha Hb) as U.
  pose proof (redefinitions_apart _ _ _ _ _ _ _ Hfl Ha Hb (fun o f H1 H2 H3 => no_clash_first _ _ _ _ A3 H1 H2 H3)) as R.
  apply (Permutation_map (undefined_diagnostic (a ++ b))) in U. rewrite map_app in U.
  apply (Permutation_map (redefinition_diagnostic (a ++ b) uri)) in R. rewrite map_app in R.
  assert (map (missing_diagnostic (a ++ b)) (filter missing_refs (instructions sa)) = map (missing_diagnostic a) (filter missing_refs (instructions sa))) as E1.
  { apply map_ext_in. intros i Hi. apply filter_In in Hi as [Hi _]. apply (mnemonic_low _ _ _ _ _ Ha) in Hi. unfold missing_diagnostic. rewrite range_left by (assumption || lia). reflexivity. }
  assert (map (missing_diagnostic (a ++ b)) (map (move_instr (length a)) (filter missing_refs (instructions sb))) =
    map (lower_diagnostic (lsp_line_ends a)) (map (missing_diagnostic b) (filter missing_refs (instructions sb)))) as E2.
  { rewrite !map_map. apply map_ext. intros i. unfold missing_diagnostic, lower_diagnostic. cbn. rewrite range_right by exact Hfl. reflexivity. }
  assert (forall q, map (undefined_diagnostic (a ++ b)) (filter q (undefined_uses (recorded sa ta))) = map (undefined_diagnostic a) (filter q (undefined_uses (recorded sa ta)))) as E3.
  { intros q. apply map_ext_in. intros o Ho. apply filter_In in Ho as [Ho _]. apply filter_In in Ho as [Ho _]. apply (undefined_low _ _ _ _ _ Hfl Ha uri _ Ho). }
  assert (forall us, map (undefined_diagnostic (a ++ b)) (map (move_occ (length a) (length (function_defs sa))) us) =
    map (lower_diagnostic (lsp_line_ends a)) (map (undefined_diagnostic b) us)) as E4.
  { intros us. rewrite !map_map. apply map_ext. intros o. apply (undefined_high _ _ _ Hfl uri). }
  assert (map (redefinition_diagnostic (a ++ b) uri) (redefinitions (recorded sa ta)) = map (redefinition_diagnostic a uri) (redefinitions (recorded sa ta))) as E5.
  { apply map_ext_in. intros [o f] H. apply in_redefs_recorded in H as [H1 H2]. apply (undefined_low _ _ _ _ _ Hfl Ha uri _ H1). exact H2. }
  assert (map (redefinition_diagnostic (a ++ b) uri) (map (fun x => (move_occ (length a) (length (function_defs sa)) (fst x), move_occ (length a) (length (function_defs sa)) (snd x))) (redefinitions (recorded sb tb))) =
    map (lower_diagnostic (lsp_line_ends a)) (map (redefinition_diagnostic b uri) (redefinitions (recorded sb tb)))) as E6.
  { rewrite !map_map. apply map_ext. intros [o f]. apply (undefined_high _ _ _ Hfl uri). }
  rewrite E3, E4 in U. rewrite E5, E6 in R. rewrite E1, E2 in P. rewrite P, U, R. rewrite Qa, Qb, !map_app. apply perm_parts.
Qed.

(** ** Lines that are put in between *)
Lemma filter_filter {A} (p q : A -> bool) l : filter p (filter q l) = filter q (filter p l).
Proof. rewrite !filter_twice. apply filter_ext. intros x. apply andb_comm. Qed.
Lemma filter_lower n q l : (forall x, q (lower_diagnostic n x) = q x) -> filter q (map (lower_diagnostic n) l) = map (lower_diagnostic n) (filter q l).
Proof. intros H. rewrite filter_map_comm. f_equal. apply filter_ext. exact H. Qed.
Lemma no_clash_app sa sb sc : no_clash sa sc -> no_clash sb sc -> no_clash (sa ++ sb) sc.
Proof. intros H1 H2 k n H. rewrite flat_map_app in H. apply in_app_or in H as [H|H]; [exact (H1 k n H)|exact (H2 k n H)]. Qed.
Lemma no_clash_moved d sa sb : no_clash (map (move_stmt d) sa) sb <-> no_clash sa sb.
Proof. unfold no_clash. rewrite offer_all. reflexivity. Qed.
Lemma lower_both n m x : lower_diagnostic n (lower_diagnostic m x) = lower_diagnostic (n + m) x.
Proof.
  destruct x as [[[l c] [l' c']] t r]. unfold lower_diagnostic, lower_range, lower. cbn. rewrite !Nat.add_assoc, map_map. f_equal. apply map_ext. intros [[v [[l1 c1] [l2 c2]]] w]. unfold lower_location, lower_range, lower. cbn. rewrite !Nat.add_assoc. reflexivity.
Qed.
Definition unmet_text (ss : list statement) (r : range_ * text) : bool := negb (existsb (fun y => text_eqb (snd r) (undefined_message (snd y))) (flat_map offer ss)).
Lemma unmet_bare ss x : unmet_text ss (bare x) = unmet ss x.
Proof. reflexivity. Qed.
Lemma bare_filter ss l : map bare (filter (unmet ss) l) = filter (unmet_text ss) (map bare l).
Proof. rewrite filter_map_comm. f_equal. Qed.
Lemma unmet_text_lower n ss l : filter (unmet_text ss) (map (lower_bare n) l) = map (lower_bare n) (filter (unmet_text ss) l).
Proof. rewrite filter_map_comm. f_equal. Qed.
Lemma shown_unmet e (uri : text) src pr src' ts ss t mis und red : plain_document src -> parse_from_str (e_u e) src = Val pr -> plain_document src' -> parse_from_str (e_u e) src' = Val (mkPR ts ss []) ->
  (forall o, In o und -> In o (recorded (pr_stmts pr) (pr_tokens pr))) ->
  filter (unmet_text ss) (shown t mis und red) = shown t mis (filter (fun o => negb (supplies ss o)) und) red.
Proof.
  intros Hp H Hp' H' Hu. unfold shown. rewrite !filter_app. f_equal; [|f_equal].
  - apply filter_all. intros r Hr. apply in_map_iff in Hr as (i & <- & _). unfold show_m. rewrite unmet_bare. apply unmet_missing.
  - pose proof (filter_undefined e uri src pr src' ts ss und t Hp H Hp' H' Hu) as G. apply (f_equal (map bare)) in G. rewrite bare_filter, !map_map in G. exact G.
  - apply filter_all. intros r Hr. apply in_map_iff in Hr as (i & <- & _). unfold show_r. rewrite unmet_bare. apply unmet_again.
Qed.
Lemma later_fresh d sa sx sb tb : no_clash sx sb -> later (sa ++ map (move_stmt d) sx) sb tb = later sa sb tb.
Proof.
  intros H. unfold later. apply filter_ext_in. intros y Hy. apply nodup_In in Hy. destruct (is_definition y) eqn:D; [|reflexivity]. cbn [andb]. f_equal. unfold before. destruct (o_body y) eqn:B; [reflexivity|].
  apply Bool.eq_iff_eq_true. rewrite !offered_in, flat_map_app, in_app_iff, offer_all. split; [|tauto]. intros [G|G]; [exact G|]. exfalso. apply (H _ _ G). apply (tree_global _ _ _ Hy B).
  unfold is_definition in D. destruct (o_ud y); congruence.
Qed.
Lemma diagnostics_inserted e uri a x b pa px pb d l dx lx : plain_document (a ++ x ++ b) -> visits_all (e_ord e) -> part (e_u e) a pa -> part (e_u e) x px -> parse_from_str (e_u e) b = Val pb -> pr_errors pb = [] ->
  no_clash (pr_stmts pa) (pr_stmts px) -> no_clash (pr_stmts px) (pr_stmts pb) ->
  analyze e uri (a ++ b) = Val (d, l) -> analyze e uri x = Val (dx, lx) ->
  exists d' l' A B, analyze e uri (a ++ x ++ b) = Val (d', l') /\
    Permutation (map bare (filter (unmet (pr_stmts px)) l)) (A ++ map (lower_bare (lsp_line_ends a)) B) /\
    Permutation (map bare l') (A ++ map (lower_bare (lsp_line_ends a)) (map bare (filter (unmet (pr_stmts pa ++ pr_stmts pb)) lx)) ++ map (lower_bare (lsp_line_ends (a ++ x))) B) /\
    Forall (in_lines 0 (lsp_line_ends a)) A.
Proof.
  intros Hp Hv (La & Pa & Ea) (Lx & Px & Ex) Pb Eb N1 N2 E Ax. rewrite app_assoc in Hp. destruct (plain_parts _ _ Hp) as [Hax Hb0]. destruct (plain_parts _ _ Hax) as [Ha0 Hx0].
  assert (plain_document (a ++ b)) as Hab.
  { clear - Hp. unfold plain_document, ascii_text, lsp_plain, small in *. rewrite !forallb_app, !andb_true_iff, !app_length in *. destruct Hp as ([[H1 _] H2] & [[H3 _] H4] & H5). repeat split; try assumption; lia. }
  destruct pa as [ta sa ea], px as [tx sx ex], pb as [tb sb eb]. cbn in Ea, Ex, Eb, N1, N2 |- *. subst.
  destruct (analyze_ascii e uri ((a ++ x) ++ b)) as (d' & l' & E'); [apply Hp|].
  pose proof (sum_parsed _ _ _ _ _ _ _ La Pa Px) as Pax. pose proof (full_app _ _ La Lx) as Lax. pose proof (sum_parsed _ _ _ _ _ _ _ Lax Pax Pb) as Pw. pose proof (sum_parsed _ _ _ _ _ _ _ La Pa Pb) as Pab.
  exists d', l', (mistakes a ta sa (fun o => negb (supplies sx o) && negb (supplies sb o))), (mistakes_below b tb sb sa (fun o => negb (supplies sx o))). rewrite app_assoc. split; [exact E'|].
  split; [|split; [|eapply mistakes_lines; eassumption]].
  - rewrite bare_filter. rewrite (perm_filter' _ _ _ (mistakes_whole _ _ _ _ _ _ _ Hab Hv Pab E)). rewrite (perm_filter' _ _ _ (mistakes_sum _ _ _ _ _ _ _ La Pa Pb (fun _ => true) (fun _ => eq_refl))).
    rewrite filter_app, unmet_text_lower. cbn [andb]. apply Permutation_refl'. f_equal; [|f_equal].
    + unfold mistakes. rewrite (shown_unmet e uri a _ x tx sx _ _ _ _ Ha0 Pa Hx0 Px); [rewrite filter_twice; reflexivity|]. intros o Ho. apply filter_In in Ho as [Ho _]. apply filter_In in Ho as [Ho _]. exact Ho.
    + unfold mistakes_below. rewrite (shown_unmet e uri b _ x tx sx _ _ _ _ Hb0 Pb Hx0 Px); [rewrite filter_twice; reflexivity|]. intros o Ho. apply filter_In in Ho as [Ho _]. apply filter_In in Ho as [Ho _]. exact Ho.
  - rewrite (mistakes_whole _ _ _ _ _ _ _ Hp Hv Pw E'). rewrite (mistakes_sum _ _ _ _ _ _ _ Lax Pax Pb (fun _ => true)) by reflexivity. rewrite app_assoc. apply Permutation_app; [|apply Permutation_refl'; f_equal].
    + etransitivity; [apply Permutation_refl'|etransitivity; [exact (mistakes_sum _ _ _ _ _ _ _ La Pa Px (fun o => negb (supplies sb o)) (fun _ => eq_refl))|]]; [reflexivity|]. apply Permutation_app.
      * apply Permutation_refl'. unfold mistakes. rewrite (filter_ext' (fun o => negb (supplies sb o) && negb (supplies sx o)) (fun o => negb (supplies sx o) && negb (supplies sb o))) by (intros; apply andb_comm). reflexivity.
      * apply Permutation_map. rewrite bare_filter. rewrite (perm_filter' _ _ _ (mistakes_whole _ _ _ _ _ _ _ Hx0 Hv Px Ax)). unfold mistakes.
        assert (forall g, (forall o, In o g -> In o (recorded sx tx)) -> filter (unmet_text (sa ++ sb)) (shown x (filter missing_refs (instructions sx)) g (map fst (redefinitions (recorded sx tx)))) =
          shown x (filter missing_refs (instructions sx)) (filter (fun o => negb (supplies sb o) && negb (supplies sa o)) g) (map fst (redefinitions (recorded sx tx)))) as K.
        { intros g Hg. assert (forall rs, filter (unmet_text (sa ++ sb)) rs = filter (unmet_text sb) (filter (unmet_text sa) rs)) as ->.
          { intros rs. rewrite filter_twice. apply filter_ext. intros r. unfold unmet_text. rewrite flat_map_app, existsb_app, negb_orb. apply andb_comm. }
          rewrite (shown_unmet e uri x _ a ta sa _ _ _ _ Hx0 Px Ha0 Pa Hg). rewrite (shown_unmet e uri x _ b tb sb _ _ _ _ Hx0 Px Hb0 Pb); [rewrite filter_twice; reflexivity|]. intros o Ho. apply filter_In in Ho as [Ho _]. exact (Hg o Ho). }
        rewrite K by (intros o Ho; apply filter_In in Ho as [Ho _]; apply filter_In in Ho as [Ho _]; exact Ho). rewrite filter_twice. unfold mistakes_below.
        rewrite (filter_ext' _ (fun o => negb (supplies sb o) && negb (supplies sa o) && true)) by (intros; rewrite andb_true_r; reflexivity). unfold shown. apply Permutation_app_head, Permutation_app_head, Permutation_map.
        apply NoDup_Permutation; [apply NoDup_filter, NoDup_nodup|exact (redefinitions_once _ _ _ Px)|]. intros o. rewrite in_later. split.
        -- intros (H1 & H2 & [H3|(y & H3)]); [|apply in_map_iff; exists (o, y); auto]. exfalso. unfold before in H3. destruct (o_body o) eqn:B; [discriminate|]. apply offered_in in H3. apply (N1 _ _ H3). exact (tree_global _ _ _ H1 B H2).
        -- intros H. apply in_map_iff in H as ([o' y] & <- & H). cbn [fst]. pose proof (proj1 (redefinitions_defined _ _ _ _ o' y Px) H) as (K1 & K2 & _). split; [exact K1|]. split; [exact K2|]. right. exists y. exact H.
    + unfold mistakes_below. rewrite later_fresh by exact N2. f_equal. apply filter_ext'. intros o. rewrite supplies_app, supplies_moved, negb_orb. cbn [andb]. apply andb_comm.
Qed.
Lemma declarations_free sx sb : Forall is_declaration sx -> no_clash sb sx /\ no_clash sx sb.
Proof.
  intros H. assert (forall k n, ~ In (k, true, n) (flat_map offer sx)) as G.
  { intros k n Hin. apply in_flat_map in Hin as (s & Hs & Hin). rewrite Forall_forall in H. specialize (H s Hs). destruct s; try contradiction. destruct Hin as [Hin|[]]. discriminate. }
  split; intros k n H1 H2; [exact (G k n H2)|exact (G k n H1)].
Qed.
Lemma diagnostics_declared e uri a x b pa px pb d l dx : plain_document (a ++ x ++ b) -> visits_all (e_ord e) -> part (e_u e) a pa -> part (e_u e) x px -> parse_from_str (e_u e) b = Val pb -> pr_errors pb = [] ->
  Forall is_declaration (pr_stmts px) -> analyze e uri (a ++ b) = Val (d, l) -> analyze e uri x = Val (dx, []) ->
  exists d' l' A B, analyze e uri (a ++ x ++ b) = Val (d', l') /\
    Permutation (map bare (filter (unmet (pr_stmts px)) l)) (A ++ map (lower_bare (lsp_line_ends a)) B) /\
    Permutation (map bare l') (A ++ map (lower_bare (lsp_line_ends (a ++ x))) B) /\ Forall (in_lines 0 (lsp_line_ends a)) A.
Proof.
  intros Hp Hv Pa Px Pb Eb Hd E Ex. pose proof (declarations_free _ (pr_stmts pa) Hd) as [N1 _]. pose proof (declarations_free _ (pr_stmts pb) Hd) as [_ N2].
  exact (diagnostics_inserted e uri a x b pa px pb d l dx [] Hp Hv Pa Px Pb Eb N1 N2 E Ex).
Qed.
