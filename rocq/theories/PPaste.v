(** A part of a document is pasted a second time: its definitions are reported. *)
From Verif Require Import Text Rope Chumsky Tokenizer Parser Numbers Index SemTok Diag Rename Cfg Backtrace Server SpecText SpecLex SpecParse SpecIndex SpecDiag SpecBacktrace SpecNumbers SpecCfg SpecView SpecSemTok SpecSum SpecSumView SpecMove SpecPaste
  PText PRope PSemTok PSemDoc PLexSpec PLexProps PTokens PParse PParseProps PIndex PIndexDoc PIndexText PDiag PDiagDoc PCfg PBacktrace PNumbers PHints PView PFold PFoldText PExt PNav PSum PSumIndex PAbove PSumDoc PSumNav PSumOrder PSumView PMove.

Lemma first_start (P : occurrence -> Prop) (dec : forall x, {P x} + {~ P x}) l y : In y l -> P y -> exists f, In f l /\ P f /\ forall g, In g l -> P g -> sp_start (o_span f) <= sp_start (o_span g).
Proof.
  revert y. induction l as [|x l IH]; intros y Hy Py; [contradiction Hy|].
  destruct (existsb (fun z => if dec z then true else false) l) eqn:E.
  - apply existsb_exists in E as (z & Z1 & Z2). destruct (dec z) as [Pz|]; [|discriminate]. destruct (IH z Z1 Pz) as (f & F1 & F2 & F3).
    destruct (dec x) as [Px|Nx].
    + destruct (le_lt_dec (sp_start (o_span x)) (sp_start (o_span f))) as [L|L].
      * exists x. split; [left; reflexivity|]. split; [exact Px|]. intros g [<-|Hg] Pg; [lia|]. specialize (F3 g Hg Pg). lia.
      * exists f. split; [right; exact F1|]. split; [exact F2|]. intros g [<-|Hg] Pg; [lia|auto].
    + exists f. split; [right; exact F1|]. split; [exact F2|]. intros g [<-|Hg] Pg; [contradiction|auto].
  - assert (N : forall z, In z l -> ~ P z). { intros z Hz Pz. assert (existsb (fun z => if dec z then true else false) l = true) as C; [|congruence]. apply existsb_exists. exists z. split; [exact Hz|]. destruct (dec z); [reflexivity|contradiction]. }
    destruct Hy as [->|Hy]; [|destruct (N _ Hy Py)]. exists y. split; [left; reflexivity|]. split; [exact Py|]. intros g [<-|Hg] Pg; [lia|destruct (N _ Hg Pg)].
Qed.
Lemma same_dec x y : {same_symbol x y} + {~ same_symbol x y}.
Proof.
  unfold same_symbol. destruct (kind_dec (o_kind x) (o_kind y)); [|right; intuition]. destruct (body_dec (o_body x) (o_body y)); [|right; intuition].
  destruct (text_eqb_spec (o_name x) (o_name y)); [left; auto|right; intuition].
Qed.
Lemma ud_dec (o : occurrence) : {o_ud o = Def} + {o_ud o <> Def}. Proof. destruct (o_ud o); first [left; reflexivity|right; discriminate]. Qed.
Lemma first_found ss x y : In y (tree_occs 0 ss) -> o_ud y = Def -> same_symbol y x -> exists f, first_defined ss x f.
Proof.
  intros H1 H2 H3. destruct (first_start (fun z => o_ud z = Def /\ same_symbol z x)) with (l := tree_occs 0 ss) (y := y) as (f & F1 & (F2 & F3) & F4); auto.
  - intros z. destruct (ud_dec z), (same_dec z x); [left; auto|right; intuition..].
  - exists f. split; [exact F1|]. split; [exact F2|]. split; [unfold same_symbol in *; intuition congruence|]. intros g G1 G2 G3. apply F4; auto.
Qed.
Lemma chosen {A B} (R : A -> B -> Prop) l : (forall x, In x l -> exists y, R x y) -> exists m, map fst m = l /\ Forall (fun z => R (fst z) (snd z)) m.
Proof.
  induction l as [|x l IH]; intros H; [exists []; split; [reflexivity|constructor]|]. destruct (H x (or_introl eq_refl)) as (y & Hy). destruct IH as (m & M1 & M2); [intros z Hz; apply H; right; exact Hz|].
  exists ((x, y) :: m). cbn. rewrite M1. split; [reflexivity|constructor; assumption].
Qed.
(** the first definition is unique *)
Lemma first_unique u src ts ss o f g : parse_from_str u src = Val (mkPR ts ss []) -> first_defined ss o f -> first_defined ss o g -> f = g.
Proof.
  intros Hp (F1 & F2 & F3 & F4) (G1 & G2 & G3 & G4). assert (same_symbol g o /\ same_symbol f o) as [S1 S2] by (unfold same_symbol in *; intuition congruence).
  pose proof (F4 g G1 G2 S1) as L1. pose proof (G4 f F1 F2 S2) as L2. assert (sp_start (o_span f) = sp_start (o_span g)) as E by lia.
  apply (tree_start u src ts ss Hp f g F1 G1 E).
Qed.
Lemma part_definitions u ps : Forall (good_piece u) ps -> forall ts st, parse_from_str u (whole ps) = Val (mkPR ts st []) ->
  forall p x, In p ps -> In x (tree_occs 0 (stmts_of p)) -> o_ud x = Def -> o_body x = None -> exists y, In y (tree_occs 0 st) /\ o_ud y = Def /\ same_symbol y x.
Proof.
  induction ps as [|p r IH]; intros Hg ts st Hp q x Hq; [contradiction Hq|].
  inversion Hg as [|p' r' (Hfl & Hpp & He) Hg']; subst p' r'. destruct (all_parts _ _ Hg') as (tr & sr & Hr & _). specialize (IH Hg' _ _ Hr).
  destruct p as [a [ta sa ea]]. cbn [pc_text pc_result pr_errors pr_stmts] in *. subst ea. pose proof (sum_parsed _ _ _ _ _ _ _ Hfl Hpp Hr) as Hs. cbn [whole flat_map pc_text] in Hp. change (flat_map pc_text r) with (whole r) in *. rewrite Hp in Hs. injection Hs as -> ->.
  intros H1 H2 H3. rewrite tree_sum. destruct Hq as [<-|Hq].
  - exists x. split; [apply in_app_iff; left; exact H1|]. repeat split; exact H2.
  - destruct (IH q x Hq H1 H2 H3) as (y & Y1 & Y2 & Y3 & Y4 & Y5). exists (move_occ (length a) (length (function_defs sa)) y). split; [apply in_app_iff; right; apply in_map; exact Y1|]. split; [exact Y2|]. split; [exact Y3|]. split; [|exact Y5].
    cbn. rewrite Y4, H3. reflexivity.
Qed.
Section Redefs.
Variables (u : uclass) (a b : text) (ta tb : list stoken) (sa sb : list statement) (again : list (occurrence * occurrence)).
Hypothesis Hfl : full_lines a.
Hypothesis Ha : parse_from_str u a = Val (mkPR ta sa []).
Hypothesis Hb : parse_from_str u b = Val (mkPR tb sb []).
Hypothesis G1 : map fst again = global_definitions sb.
Hypothesis G2 : Forall (fun z => first_defined sa (fst z) (snd z)) again.
Notation d := (length a).
Notation k := (length (function_defs sa)).
Lemma global_in x : In x (map fst again) <-> In x (tree_occs 0 sb) /\ o_ud x = Def /\ o_body x = None.
Proof.
  rewrite G1. unfold global_definitions. rewrite filter_In. unfold is_definition, is_local. destruct (o_ud x), (o_body x); cbn; intuition (try discriminate).
Qed.
Lemma redefs_pasted : Permutation (redefinitions (recorded (sa ++ map (move_stmt d) sb) (ta ++ map (shift_tok d) tb)))
  (redefinitions (recorded sa ta) ++ map (fun x => (move_occ d k (fst x), snd x)) again ++
   map (fun x => (move_occ d k (fst x), move_occ d k (snd x))) (filter (fun x => is_local (fst x)) (redefinitions (recorded sb tb)))).
Proof.
  pose proof (sum_parsed _ _ _ _ _ _ _ Hfl Ha Hb) as Hs.
  assert (NB : NoDup (map fst again)).
  { rewrite G1. apply NoDup_filter. apply (NoDup_map_inv o_span). exact (tree_nodup_doc _ _ _ _ Hb). }
  apply NoDup_Permutation.
  - exact (redefinitions_nodup_doc _ _ _ _ Hs).
  - apply nodup_app; [exact (redefinitions_nodup_doc _ _ _ _ Ha)| |].
    + apply nodup_app.
      * apply (NoDup_map_inv fst). rewrite map_map. cbn [fst]. rewrite <- (map_map fst (move_occ d k)). apply FinFun.Injective_map_NoDup; [intros x y; apply move_inj|exact NB].
      * apply FinFun.Injective_map_NoDup; [|apply NoDup_filter; exact (redefinitions_nodup_doc _ _ _ _ Hb)]. intros [x y] [x' y'] E. apply pair_equal_spec in E as [E1 E2]. cbn [fst snd] in E1, E2. apply move_inj in E1, E2. subst. reflexivity.
      * intros [o f] H1 H2. apply in_map_iff in H1 as (x & E1 & X). apply in_map_iff in H2 as (y & E2 & Y). injection E1 as E1 _. injection E2 as E2 _. rewrite <- E1 in E2. apply move_inj in E2.
        apply filter_In in Y as [_ Y]. rewrite E2 in Y. pose proof (in_map fst _ _ X) as X'. apply global_in in X' as (_ & _ & X'). unfold is_local in Y. rewrite X' in Y. discriminate.
    + intros [o f] H1 H2. apply in_redefs_recorded in H1 as [H1 _]. apply (recorded_low _ _ _ _ Ha) in H1. assert (exists x, o = move_occ d k x) as (x & ->).
      { apply in_app_iff in H2 as [H2|H2]; apply in_map_iff in H2 as (x & E & _); injection E as E _; exists (fst x); congruence. }
      cbn in H1. lia.
  - intros [o f]. rewrite (redefinitions_sum_at _ _ _ _ _ _ _ _ _ Ha Hb Hs), !in_app_iff. split.
    + intros [H|(x & -> & [(H1 & H2 & H3 & H4)|(H1 & y & H & ->)])]; [auto| |].
      * right. left. assert (In x (map fst again)) as X by (apply global_in; auto). apply in_map_iff in X as ([x' f'] & E & X). cbn in E. subst x'. apply in_map_iff. exists (x, f'). split; [|exact X].
        rewrite Forall_forall in G2. pose proof (G2 _ X) as F. cbn [fst snd] in *. rewrite (first_unique _ _ _ _ _ _ _ Ha H4 F). reflexivity.
      * right. right. apply in_map_iff. exists (x, y). split; [reflexivity|]. apply filter_In. split; [exact H|]. cbn [fst]. unfold is_local. destruct (o_body x) eqn:Ex; [reflexivity|]. exfalso. apply H1. split; [reflexivity|].
        apply (redefinitions_defined _ _ _ _ _ _ Hb) in H as (D1 & D2 & _). assert (In x (map fst again)) as X by (apply global_in; auto). apply in_map_iff in X as ([x' f'] & E & X). cbn in E. subst x'. rewrite Forall_forall in G2. exists f'. exact (G2 _ X).
    + intros [H|[H|H]]; [auto| |]; right; apply in_map_iff in H as ([x y] & E & H); injection E as <- <-; exists x; (split; [reflexivity|]).
      * left. pose proof (in_map fst _ _ H) as X. apply global_in in X as (X1 & X2 & X3). cbn [fst] in *. rewrite Forall_forall in G2. pose proof (G2 _ H) as F. cbn [fst snd] in F. auto.
      * apply filter_In in H as [H L]. cbn [fst snd] in *. right. split; [|eauto]. intros [N _]. unfold is_local in L. rewrite N in L. discriminate.
Qed.
End Redefs.
Lemma sup_whole u ps ts st o : Forall (good_piece u) ps -> parse_from_str u (whole ps) = Val (mkPR ts st []) -> supplies st o = existsb (fun q => supplies (pr_stmts (pc_result q)) o) ps.
Proof.
  intros Hg Hw. destruct (all_parts _ _ Hg) as (ts' & st' & Hw' & _ & P & _). rewrite Hw in Hw'. injection Hw' as <- <-. rewrite provides_sym, P. clear P Hw Hg. induction ps as [|q l IH]; [reflexivity|]. cbn [existsb]. rewrite IH, <- provides_sym. reflexivity.
Qed.
Lemma pasted_diagnostics e uri ps b : Forall (good_piece (e_u e)) ps -> In b ps -> plain_document (whole ps ++ pc_text b) -> visits_all (e_ord e) ->
  exists d l d' l' again ts st, analyze e uri (whole ps) = Val (d, l) /\ analyze e uri (whole ps ++ pc_text b) = Val (d', l') /\
    parse_from_str (e_u e) (whole ps) = Val (mkPR ts st []) /\ map fst again = global_definitions (pr_stmts (pc_result b)) /\ Forall (fun x => first_defined st (fst x) (snd x)) again /\
    Permutation l' (l ++ map (pasted_diagnostic (whole ps) (pc_text b) uri) again ++ map (lower_diagnostic (lsp_line_ends (whole ps))) (said_about uri ps b)).
Proof.
  intros Hg Hi Hp Hv. destruct (plain_parts _ _ Hp) as [Hpa Hpb]. destruct (all_parts _ _ Hg) as (ts & st & Hw & Hfl & _).
  destruct (analyze_ascii e uri (whole ps) (proj1 Hpa)) as (d & l & E). destruct (analyze_ascii e uri (whole ps ++ pc_text b) (proj1 Hp)) as (d' & l' & E').
  destruct (document_diagnostics _ _ _ _ _ Hpa Hv E) as (pr & Hpr & P). rewrite Hw in Hpr. injection Hpr as <-. cbn [pr_errors pr_stmts pr_tokens filter map app] in P.
  destruct (document_diagnostics _ _ _ _ _ Hp Hv E') as (pr' & Hpr' & P').
  pose proof Hg as Hg'. rewrite Forall_forall in Hg'. destruct (Hg' _ Hi) as (_ & Hpp & He).
  destruct (chosen (first_defined st) (global_definitions (pr_stmts (pc_result b)))) as (again & A1 & A2).
  { intros x Hx. unfold global_definitions in Hx. apply filter_In in Hx as [X1 X2]. apply andb_true_iff in X2 as [X2 X3].
    assert (o_ud x = Def) as D by (unfold is_definition in X2; destruct (o_ud x); first [reflexivity|discriminate]). assert (o_body x = None) as B by (unfold is_local in X3; destruct (o_body x); [discriminate|reflexivity]).
    destruct (part_definitions _ _ Hg _ _ Hw b x Hi X1 D B) as (y & Y1 & Y2 & Y3). exact (first_found _ _ _ Y1 Y2 Y3). }
  exists d, l, d', l', again, ts, st. do 5 (split; [assumption|]).
  assert (S : forall o, supplies st o = existsb (fun q => supplies (pr_stmts (pc_result q)) o) ps) by (intros o; exact (sup_whole _ _ _ _ _ Hg Hw)).
  assert (I : forall o, supplies (pr_stmts (pc_result b)) o = true -> supplies st o = true) by (intros o Ho; rewrite S; apply existsb_exists; eauto).
  unfold said_about. destruct b as [b [tb sb eb]]. cbn [pc_text pc_result pr_stmts pr_tokens pr_errors] in *. subst eb. set (a := whole ps) in *. clearbody a.
  pose proof (sum_parsed _ _ _ _ _ _ _ Hfl Hw Hpp) as Hs. rewrite Hs in Hpr'. injection Hpr' as <-. cbn [pr_errors pr_stmts pr_tokens filter map app] in P'.
  pose proof (undefined_sum_perm_at _ _ _ _ _ _ _ _ _ Hw Hpp Hs) as U. pose proof (redefs_pasted _ _ _ _ _ _ _ _ Hfl Hw Hpp A1 A2) as R.
  apply (Permutation_map (undefined_diagnostic (a ++ b))) in U. rewrite map_app in U. apply (Permutation_map (redefinition_diagnostic (a ++ b) uri)) in R. rewrite !map_app in R.
  rewrite filter_missing_sum, map_app in P'.
  assert (map (missing_diagnostic (a ++ b)) (filter missing_refs (instructions st)) = map (missing_diagnostic a) (filter missing_refs (instructions st))) as E1.
  { apply map_ext_in. intros i Hj. apply filter_In in Hj as [Hj _]. apply (mnemonic_low _ _ _ _ _ Hw) in Hj. unfold missing_diagnostic. rewrite range_left by (assumption || lia). reflexivity. }
  assert (map (missing_diagnostic (a ++ b)) (map (move_instr (length a)) (filter missing_refs (instructions sb))) =
    map (lower_diagnostic (lsp_line_ends a)) (map (missing_diagnostic b) (filter missing_refs (instructions sb)))) as E2.
  { rewrite !map_map. apply map_ext. intros i. unfold missing_diagnostic, lower_diagnostic. cbn. rewrite range_right by exact Hfl. reflexivity. }
  assert (map (undefined_diagnostic (a ++ b)) (filter (fun o => negb (supplies sb o)) (undefined_uses (recorded st ts))) = map (undefined_diagnostic a) (undefined_uses (recorded st ts))) as E3.
  { rewrite (filter_all (fun o => negb (supplies sb o))).
    - apply map_ext_in. intros o Ho. apply filter_In in Ho as [Ho _]. apply (undefined_low _ _ _ _ _ Hfl Hw uri _ Ho).
    - intros o Ho. pose proof (undefined_own _ _ _ _ _ Hw Ho) as N. apply negb_true_iff. destruct (supplies sb o) eqn:Eb; [|reflexivity]. rewrite (I _ Eb) in N. discriminate. }
  assert (map (undefined_diagnostic (a ++ b)) (map (move_occ (length a) (length (function_defs st))) (filter (fun o => negb (supplies st o)) (undefined_uses (recorded sb tb)))) =
    map (lower_diagnostic (lsp_line_ends a)) (map (undefined_diagnostic b) (filter (fun o => negb (existsb (fun q => supplies (pr_stmts (pc_result q)) o) ps)) (undefined_uses (recorded sb tb))))) as E4.
  { rewrite (filter_ext (fun o => negb (supplies st o)) (fun o => negb (existsb (fun q => supplies (pr_stmts (pc_result q)) o) ps))) by (intros o; rewrite S; reflexivity). rewrite !map_map. apply map_ext. intros o. apply (undefined_high _ _ _ Hfl uri). }
  assert (map (redefinition_diagnostic (a ++ b) uri) (redefinitions (recorded st ts)) = map (redefinition_diagnostic a uri) (redefinitions (recorded st ts))) as E5.
  { apply map_ext_in. intros [o f] H. apply in_redefs_recorded in H as [H1 H2]. apply (undefined_low _ _ _ _ _ Hfl Hw uri _ H1). exact H2. }
  assert (forall m, map (redefinition_diagnostic (a ++ b) uri) (map (fun x => (move_occ (length a) (length (function_defs st)) (fst x), move_occ (length a) (length (function_defs st)) (snd x))) m) =
    map (lower_diagnostic (lsp_line_ends a)) (map (redefinition_diagnostic b uri) m)) as E6.
  { intros m. rewrite !map_map. apply map_ext. intros [o f]. apply (undefined_high _ _ _ Hfl uri). }
  assert (map (redefinition_diagnostic (a ++ b) uri) (map (fun x => (move_occ (length a) (length (function_defs st)) (fst x), snd x)) again) = map (pasted_diagnostic a b uri) again) as E7.
  { rewrite map_map. apply map_ext_in. intros [x f] Hx. rewrite Forall_forall in A2. destruct (A2 _ Hx) as (F1 & _). cbn [fst snd] in *. unfold redefinition_diagnostic, pasted_diagnostic. cbn [fst snd move_occ o_span o_name].
    rewrite range_right by exact Hfl. pose proof (tree_token _ _ _ (sum_spans_a _ _ _ _ Hw) (sum_sub_a _ _ _ _ Hw) _ F1) as Fr. apply (left_tokens ts (length a) (sum_spans_a _ _ _ _ Hw)) in Fr. cbn [occ_token snd] in Fr. rewrite range_left by (assumption || lia). reflexivity. }
  rewrite E3, E4 in U. rewrite E5, E6, E7 in R. rewrite E1, E2 in P'. rewrite P', P, U, R. rewrite !map_app. clear.
  set (x1 := map (missing_diagnostic a) _). set (x2 := map _ (map (missing_diagnostic b) _)).
  set (y1 := map (undefined_diagnostic a) _). set (y2 := map _ (map (undefined_diagnostic b) _)).
  set (z1 := map (redefinition_diagnostic a uri) _). set (z2 := map _ (map (redefinition_diagnostic b uri) _)). set (w := map _ again). clearbody x1 x2 y1 y2 z1 z2 w.
  rewrite <- !app_assoc. apply Permutation_app_head.
  rewrite (Permutation_app_comm x2). rewrite <- !app_assoc. apply Permutation_app_head.
  rewrite (Permutation_app_comm y2). rewrite <- !app_assoc. apply Permutation_app_head. apply Permutation_app_head.
  rewrite (Permutation_app_comm z2). rewrite <- !app_assoc. reflexivity.
Qed.
Lemma pasted_graphs e uri ps b s s' d d' f : Forall (good_piece (e_u e)) ps -> In b ps -> plain_document (whole ps ++ pc_text b) ->
  opened e s uri (whole ps) d -> opened e s' uri (whole ps ++ pc_text b) d' ->
  execute_command s' (str "visualize-cfg") [JStr uri; JStr f] = execute_command s (str "visualize-cfg") [JStr uri; JStr f].
Proof.
  intros Hg Hi Hp Ho Ho'. destruct (plain_parts _ _ Hp) as [Hpa Hpb]. assert (Ho2 : opened e s' uri (whole (ps ++ [b])) d') by (unfold whole; rewrite flat_map_app; cbn [flat_map]; rewrite app_nil_r; exact Ho').
  assert (Hg2 : Forall (good_piece (e_u e)) (ps ++ [b])) by (apply Forall_app; split; [exact Hg|constructor; [rewrite Forall_forall in Hg; exact (Hg _ Hi)|constructor]]).
  pose proof (graphs_stack e uri f ps s d Hg (proj1 Hpa) Ho) as E. assert (A2 : ascii_text (whole (ps ++ [b])) = true) by (unfold whole; rewrite flat_map_app; cbn [flat_map]; rewrite app_nil_r; exact (proj1 Hp)).
  pose proof (graphs_stack e uri f _ s' d' Hg2 A2 Ho2) as E'. unfold ask_graph in E, E'. rewrite E, E'. clear - Hi.
  induction ps as [|p r IH]; [contradiction Hi|]. cbn [app first_graph]. destruct (ask_graph uri f (srv e uri (pc_text p))) as [g|m] eqn:Ep; [reflexivity|]. destruct Hi as [<-|Hi]; [|exact (IH Hi)].
  clear IH. induction r as [|q r IH]; cbn [app first_graph]; [rewrite Ep; reflexivity|]. destruct (ask_graph uri f (srv e uri (pc_text q))); [reflexivity|exact IH].
Qed.
