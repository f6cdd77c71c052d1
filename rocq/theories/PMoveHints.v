(** Parts of a document in another order: hints. *)
From Verif Require Import Text Rope Chumsky Tokenizer Parser Numbers Index SemTok Diag Rename Cfg Backtrace Server SpecText SpecLex SpecParse SpecIndex SpecDiag SpecBacktrace SpecNumbers SpecCfg SpecView SpecSemTok SpecSum SpecSumView SpecMove
  PText PRope PSemTok PSemDoc PLexSpec PLexProps PTokens PParse PParseProps PIndex PIndexDoc PIndexText PDiag PDiagDoc PCfg PBacktrace PNumbers PHints PView PFold PFoldText PExt PNav PSum PSumIndex PAbove PSumDoc PSumNav PSumOrder PSumView PMove.

(** the handler with the values of the annotations as a parameter *)
Section With.
Variables (e : env) (rs : list url) (uri : text) (v : text -> option text).
Definition hint_with (src : text) (i : instruction) : res (list inlay_hint) :=
  match obind (i_dbg i) (fun r => obind (v (fst r)) (fun txt => obind (e_json_parse e txt) (fun j => Some (r, j)))) with
  | None => Val []
  | Some (r, j) =>
      rbind (parse_backtrace_from_json (e_fs e) rs j) (fun o =>
      match o with
      | None => Val []
      | Some frames =>
          match offset_to_lsp_pos src (sp_end (snd r)) with
          | None => Val []
          | Some pos => rmap (fun h => [h]) (inlay_hint_for_backtrace (e_u e) (e_url_display e) pos frames)
          end
      end)
  end.
Definition backtraces_with (src : text) (ss : list statement) : res (list inlay_hint) := rflat_map (hint_with src) (instructions ss).
Lemma backtraces_sum u a b ta tb sa sb : plain_document (a ++ b) -> full_lines a -> parse_from_str u a = Val (mkPR ta sa []) -> parse_from_str u b = Val (mkPR tb sb []) ->
  backtraces_with (a ++ b) (sa ++ map (move_stmt (length a)) sb) =
  rbind (backtraces_with a sa) (fun x => rbind (rmap (map (lower_hint (lsp_line_ends a))) (backtraces_with b sb)) (fun y => Val (x ++ y))).
Proof.
  intros Hp Hfl Ha Hb. unfold backtraces_with. rewrite instructions_sum, rflat_app. 
  assert (rflat_map (hint_with (a ++ b)) (instructions sa) = rflat_map (hint_with a) (instructions sa)) as ->.
  { rewrite <- (map_id (instructions sa)) at 1. rewrite (rflat_two (hint_with a) _ _ (fun h => h)).
    - destruct (rflat_map _ _) as [l|]; [|reflexivity]. cbn [rmap rbind]. rewrite map_id. reflexivity.
    - intros i Hi. unfold hint_with. destruct (i_dbg i) as [r|] eqn:Er; [|reflexivity]. cbn [obind].
      destruct (v (fst r)) as [t|]; [|reflexivity]. cbn [obind]. destruct (e_json_parse e t) as [j|]; [|reflexivity]. cbn [obind]. destruct (parse_backtrace_from_json _ _ j) as [[frames|]|]; [|reflexivity|reflexivity]. cbn [rbind].
      destruct (dbg_inside _ _ _ _ _ _ Ha Hi Er) as [_ K]. rewrite pos_low by assumption. destruct (offset_to_lsp_pos a _) as [pos|]; [|reflexivity]. destruct (inlay_hint_for_backtrace _ _ _ _); reflexivity. }
  assert (rflat_map (hint_with (a ++ b)) (map (move_instr (length a)) (instructions sb)) = rmap (map (lower_hint (lsp_line_ends a))) (rflat_map (hint_with b) (instructions sb))) as ->.
  { apply rflat_two. intros i Hi. unfold hint_with. cbn [move_instr i_dbg]. destruct (i_dbg i) as [r|] eqn:Er; [|reflexivity]. cbn [option_map obind move_name fst snd].
    destruct (v (fst r)) as [t|]; [|reflexivity]. cbn [obind]. destruct (e_json_parse e t) as [j|]; [|reflexivity]. cbn [obind]. destruct (parse_backtrace_from_json _ _ j) as [[frames|]|]; [|reflexivity|reflexivity]. cbn [rbind].
    destruct (dbg_inside _ _ _ _ _ _ Hb Hi Er) as [_ K]. cbn [move_name snd shift_span sp_end]. rewrite pos_high by assumption. destruct (offset_to_lsp_pos b _) as [pos|]; [|reflexivity]. cbn [option_map]. rewrite hint_lower. destruct (inlay_hint_for_backtrace _ _ _ _); reflexivity. }
  reflexivity.
Qed.
End With.
(** what is shown without annotations *)
Definition plain_hints (d : doc) (uri : text) : list inlay_hint := incoming_hints d uri ++ filter_map (end_hint d uri) (function_bodies (doc_index d)).
Lemma plain_sum e s s1 s2 uri a b D Da Db pa pb : plain_document (a ++ b) -> full_lines a ->
  parse_from_str (e_u e) a = Val pa -> parse_from_str (e_u e) b = Val pb -> pr_errors pa = [] -> read pb ->
  opened e s uri (a ++ b) D -> opened e s1 uri a Da -> opened e s2 uri b Db ->
  Permutation (plain_hints D uri) (plain_hints Da uri ++ map (lower_hint (lsp_line_ends a)) (plain_hints Db uri)).
Proof.
  intros Hp Hfl Ha Hb Ea Eb Ho Ho1 Ho2. destruct pa as [ta sa ea], pb as [tb sb eb]. cbn in Ea, Eb. subst ea. destruct (parse_above _ _ _ _ _ _ _ _ Hfl Ha Hb Eb) as (es & Hs & _). destruct (plain_parts _ _ Hp) as [Pa Pb].
  destruct (opened_at _ _ _ _ _ _ _ Ho Hs) as (I & R & S & G). destruct (opened_at _ _ _ _ _ _ _ Ho1 Ha) as (Ia & Ra & Sa & Ga). destruct (opened_at _ _ _ _ _ _ _ Ho2 Hb) as (Ib & Rb & Sb & Gb).
  assert (In1 := fun fb => bodies_inside _ _ _ _ _ fb (proj2 (proj2 Pa)) Ia). assert (In2 := fun fb => bodies_inside _ _ _ _ _ fb (proj2 (proj2 Pb)) Ib).
  destruct (bodies_sum _ _ _ _ _ _ _ _ _ _ _ _ I Ia Ib) as (la & lb & E & H1 & H2).
  unfold plain_hints, incoming_hints. rewrite E, flat_map_app, filter_map_app', R, Ra, Rb.
  assert (flat_map (fun f => filter_map (incoming_hint (a ++ b) uri f) (basic_blocks f)) la = flat_map (fun f => filter_map (incoming_hint a uri f) (basic_blocks f)) (function_bodies (doc_index Da))) as ->.
  { rewrite <- (map_id (flat_map _ (function_bodies _))). apply (flat_two _ _ _ _ _ _ H1). intros x y Hx (_ & _ & Y3 & _ & Y5). rewrite Y3, map_id. apply filter_map_ext_in'. intros k Hk.
    destruct (In1 x Hx) as (_ & _ & K & L). rewrite Forall_forall in K. destruct (K k Hk) as (_ & K2 & K3). unfold incoming_hint. destruct (bb_label k) as [l|]; [|reflexivity]. cbn [obind]. rewrite Y5. destruct (alookup (fst l) (incoming x)) as [refs|] eqn:El; [|reflexivity]. cbn [obind].
    destruct (bb_label_comma k) as [c|]; [|reflexivity]. cbn [obind]. rewrite pos_low by (try assumption; apply (K3 c eq_refl)). destruct (offset_to_lsp_pos a _); [|reflexivity]. cbn [obind]. rewrite parts_low by (try assumption; eapply L; exact El). reflexivity. }
  assert (flat_map (fun f => filter_map (incoming_hint (a ++ b) uri f) (basic_blocks f)) lb = map (lower_hint (lsp_line_ends a)) (flat_map (fun f => filter_map (incoming_hint b uri f) (basic_blocks f)) (function_bodies (doc_index Db)))) as ->.
  { apply (flat_two _ _ _ _ _ _ H2). intros x y Hx (_ & _ & Y3 & _ & Y5). rewrite Y3, filter_map_map'. apply filter_map_under. intros k Hk.
    destruct (In2 x Hx) as (_ & _ & K & L). rewrite Forall_forall in K. destruct (K k Hk) as (_ & K2 & K3). unfold incoming_hint. cbn [move_block bb_label bb_label_comma]. destruct (bb_label k) as [l|]; [|reflexivity]. cbn [option_map obind move_name fst]. rewrite Y5. destruct (alookup (fst l) (incoming x)) as [refs|] eqn:El; [|reflexivity]. cbn [option_map obind].
    destruct (bb_label_comma k) as [c|]; [|reflexivity]. cbn [option_map obind shift_span sp_end]. rewrite pos_high by (try assumption; apply (K3 c eq_refl)). destruct (offset_to_lsp_pos b _); [|reflexivity]. cbn [option_map obind]. rewrite parts_high by (try assumption; eapply L; exact El). reflexivity. }
  assert (filter_map (end_hint D uri) la = filter_map (end_hint Da uri) (function_bodies (doc_index Da))) as ->.
  { rewrite <- (map_id (filter_map _ (function_bodies _))). apply (filter_map_two _ _ _ _ _ _ H1). intros x y Hx (Y1 & Y2 & _). rewrite <- map_option. unfold end_hint. destruct (In1 x Hx) as ([_ K1] & K2 & _).
    rewrite R, Ra, Y1, Y2, pos_low, range_to_low by assumption. reflexivity. }
  assert (filter_map (end_hint D uri) lb = map (lower_hint (lsp_line_ends a)) (filter_map (end_hint Db uri) (function_bodies (doc_index Db)))) as ->.
  { apply (filter_map_two _ _ _ _ _ _ H2). intros x y Hx (Y1 & Y2 & _). unfold end_hint. destruct (In2 x Hx) as ([_ K1] & K2 & _).
    rewrite R, Rb, Y1, Y2. change (sp_end (shift_span (length a) (complete_range x))) with (sp_end (complete_range x) + length a). cbn [move_name fst snd]. rewrite pos_high, range_to_high by assumption. destruct (offset_to_lsp_pos b _); [|reflexivity]. cbn [option_map obind]. destruct (range_to_lsp b _); reflexivity. }
  rewrite !map_app. rewrite <- !app_assoc. apply Permutation_app_head. apply Permutation_app_swap_app.
Qed.

(** ** Values of annotations *)
Fixpoint lookup (ps : list piece) (n : text) : option text :=
  match ps with
  | [] => None
  | p :: r => if existsb (annotates n) (stmts_of p) then ann_value (pc_text p) (stmts_of p) n else lookup r n
  end.
Lemma annotated_name ss n : forall id, existsb (annotates n) ss = true -> exists x, In x (tree_occs id ss) /\ o_ud x = Def /\ o_body x = None /\ o_kind x = KDbgAnnotation /\ o_name x = n.
Proof.
  induction ss as [|s r IH]; intros id H; [discriminate|]. cbn [existsb] in H. cbn [tree_occs]. apply orb_true_iff in H as [H|H].
  - destruct s as [| | | |x l]; try discriminate. cbn [annotates] in H. apply text_eqb_eq in H. exists (occ Def KDbgAnnotation None x). split; [left; reflexivity|]. repeat split. exact H.
  - destruct (IH (id + is_def s) H) as (x & H1 & H2). exists x. split; [apply in_app_iff; right; exact H1|exact H2].
Qed.
Lemma annotated_apart p q n : defines_apart p q -> existsb (annotates n) (stmts_of p) = true -> existsb (annotates n) (stmts_of q) = true -> False.
Proof.
  intros H H1 H2. destruct (annotated_name _ _ 0 H1) as (x & X1 & X2 & X3 & X4 & X5). destruct (annotated_name _ _ 0 H2) as (y & Y1 & Y2 & Y3 & Y4 & Y5).
  apply (H x y X1 Y1 X2 Y2 X3 Y3). repeat split; congruence.
Qed.
Lemma lookup_perm ps qs : Permutation ps qs -> all_apart ps -> forall n, lookup ps n = lookup qs n.
Proof.
  induction 1 as [|p l m H IH|p q l|l m k H IH H' IH']; intros Ha n.
  - reflexivity.
  - cbn [lookup]. rewrite IH; [reflexivity|]. eapply apart_tail; exact Ha.
  - cbn [lookup]. destruct (existsb (annotates n) (stmts_of p)) eqn:Ep, (existsb (annotates n) (stmts_of q)) eqn:Eq; try reflexivity. exfalso.
    inversion_clear Ha as [|? ? F _]. inversion_clear F as [|? ? G _]. exact (annotated_apart _ _ _ G Eq Ep).
  - rewrite IH by exact Ha. apply IH'. eapply pairs_perm; [exact apart_sym|exact H|exact Ha].
Qed.
Lemma lookup_here ps p n : all_apart ps -> In p ps -> existsb (annotates n) (stmts_of p) = true -> lookup ps n = ann_value (pc_text p) (stmts_of p) n.
Proof.
  intros Ha Hi H. apply in_split in Hi as (l & r & ->). rewrite (lookup_perm _ (p :: l ++ r)); [cbn [lookup]; rewrite H; reflexivity|symmetry; apply Permutation_middle|exact Ha].
Qed.
Lemma lookup_some ps n t : lookup ps n = Some t -> exists q, In q ps /\ existsb (annotates n) (stmts_of q) = true.
Proof.
  induction ps as [|p r IH]; cbn [lookup]; [discriminate|]. destruct (existsb (annotates n) (stmts_of p)) eqn:E; intros H.
  - exists p. split; [left; reflexivity|exact E].
  - destruct (IH H) as (q & Q1 & Q2). exists q. split; [right; exact Q1|exact Q2].
Qed.
Lemma whole_value u ps : Forall (good_piece u) ps -> all_apart ps -> plain_document (whole ps) -> forall ts st, parse_from_str u (whole ps) = Val (mkPR ts st []) ->
  forall n, ann_value (whole ps) st n = lookup ps n.
Proof.
  induction ps as [|p r IH]; intros Hg Ha Hp ts st Hs n.
  - cbn [whole flat_map] in Hs. rewrite empty_document in Hs. injection Hs as <- <-. reflexivity.
  - inversion Hg as [|p' r' (Hfl & Hpp & He) Hg']; subst p' r'. destruct (all_parts _ _ Hg') as (tr & sr & Hr & _ & Pr & _). destruct (plain_parts _ _ Hp) as [_ P2]. specialize (IH Hg' (apart_tail _ _ Ha) P2 _ _ Hr n).
    destruct p as [a [ta sa ea]]. cbn [pc_text pc_result pr_errors pr_stmts lookup] in *. subst ea. pose proof (sum_parsed _ _ _ _ _ _ _ Hfl Hpp Hr) as S. cbn [whole flat_map pc_text] in *. change (flat_map pc_text r) with (whole r) in *. rewrite Hs in S. injection S as -> ->.
    unfold stmts_of at 1 2. cbn [pc_result pr_stmts]. destruct (existsb (annotates n) sa) eqn:E.
    + apply (values_above _ _ _ _ _ _ _ _ Hp Hpp Hr). specialize (Pr (KDbgAnnotation, n)). change (existsb (annotates n) sr = existsb (fun q => existsb (annotates n) (stmts_of q)) r) in Pr. rewrite Pr.
      destruct (existsb (fun q => existsb (annotates n) (stmts_of q)) r) eqn:F; [|reflexivity]. exfalso. apply existsb_exists in F as (q & Q1 & Q2). inversion_clear Ha as [|? ? Ha1 _]. rewrite Forall_forall in Ha1. exact (annotated_apart _ _ _ (Ha1 q Q1) E Q2).
    + rewrite <- IH. apply (values_below _ _ _ _ _ _ _ _ Hp Hpp Hr _ E).
Qed.

(** ** Instructions with annotations *)
Section Traces.
Variables (e : env) (rs : list url).
Definition traces (v : text -> option text) (p : piece) : res (list inlay_hint) := backtraces_with e rs v (pc_text p) (stmts_of p).
Definition shown_traces (v : text -> option text) (p : piece) : list inlay_hint := match traces v p with Val l => l | Panic => [] end.
Fixpoint all_traced (v : text -> option text) (ps : list piece) : bool :=
  match ps with [] => true | p :: r => (match traces v p with Val _ => true | Panic => false end) && all_traced v r end.
Lemma whole_traces v ps : Forall (good_piece (e_u e)) ps -> plain_document (whole ps) -> forall ts st, parse_from_str (e_u e) (whole ps) = Val (mkPR ts st []) ->
  backtraces_with e rs v (whole ps) st = if all_traced v ps then Val (stacked lower_hint (shown_traces v) 0 ps) else Panic.
Proof.
  induction ps as [|p r IH]; intros Hg Hp ts st Hs.
  - cbn [whole flat_map] in Hs. rewrite empty_document in Hs. injection Hs as <- <-. reflexivity.
  - inversion Hg as [|p' r' (Hfl & Hpp & He) Hg']; subst p' r'. destruct (all_parts _ _ Hg') as (tr & sr & Hr & _). destruct (plain_parts _ _ Hp) as [_ P2]. specialize (IH Hg' P2 _ _ Hr).
    destruct p as [a [ta sa ea]]. rewrite (stacked_cons _ _ _ _ hint_twice hint_zero). cbn [pc_text pc_result pr_errors pr_stmts] in *. subst ea. pose proof (sum_parsed _ _ _ _ _ _ _ Hfl Hpp Hr) as S. cbn [whole flat_map pc_text] in *. change (flat_map pc_text r) with (whole r) in *. rewrite Hs in S. injection S as -> ->.
    rewrite (backtraces_sum _ _ _ _ _ _ _ _ _ _ Hp Hfl Hpp Hr), IH. cbn [all_traced].
    assert (shown_traces v (mkPiece a (mkPR ta sa [])) = match backtraces_with e rs v a sa with Val l => l | Panic => [] end) as -> by reflexivity.
    assert (traces v (mkPiece a (mkPR ta sa [])) = backtraces_with e rs v a sa) as -> by reflexivity.
    destruct (backtraces_with e rs v a sa) as [x|]; [|reflexivity]. cbn [rbind andb]. destruct (all_traced v r); reflexivity.
Qed.
Lemma traced_ext v w ps : (forall n, v n = w n) -> all_traced v ps = all_traced w ps /\ forall p, traces v p = traces w p.
Proof.
  intros H. assert (forall p, traces v p = traces w p) as E.
  { intros p. unfold traces, backtraces_with. rewrite <- (map_id (instructions _)) at 1. rewrite (rflat_two (hint_with e rs w (pc_text p)) _ _ (fun h => h)).
    - destruct (rflat_map _ _) as [l|]; [|reflexivity]. cbn [rmap rbind]. rewrite map_id. reflexivity.
    - intros i _. unfold hint_with. destruct (i_dbg i) as [r|]; [|reflexivity]. cbn [obind]. rewrite H. destruct (obind (w (fst r)) _) as [[r' j]|]; [|reflexivity]. destruct (parse_backtrace_from_json _ _ j) as [[fr|]|]; try reflexivity. cbn [rbind]. destruct (offset_to_lsp_pos _ _) as [pos|]; [|reflexivity]. destruct (inlay_hint_for_backtrace _ _ _ _); reflexivity. }
  split; [|exact E]. induction ps as [|p r IH]; [reflexivity|]. cbn [all_traced]. rewrite E, IH. reflexivity.
Qed.
Lemma traced_perm v ps qs : Permutation ps qs -> all_traced v ps = all_traced v qs.
Proof.
  induction 1; cbn [all_traced]; [reflexivity|congruence| |congruence]. rewrite !andb_assoc. f_equal. apply andb_comm.
Qed.
Lemma traced_in v ps p : all_traced v ps = true -> In p ps -> traces v p = Val (shown_traces v p).
Proof.
  induction ps as [|q r IH]; [intros _ []|]. cbn [all_traced]. intros H [->|Hi]; apply andb_true_iff in H as [H1 H2]; [|exact (IH H2 Hi)].
  unfold shown_traces. destruct (traces v p); [reflexivity|discriminate].
Qed.
(** more is shown in the whole *)
Lemma rflat_more {A B} (f g : A -> res (list B)) (P : B -> Prop) l : (forall x y, In x l -> f x = Val y -> exists z m, g x = Val z /\ Permutation y (z ++ m) /\ Forall P m) ->
  forall y, rflat_map f l = Val y -> exists z m, rflat_map g l = Val z /\ Permutation y (z ++ m) /\ Forall P m.
Proof.
  induction l as [|x l IH]; intros H y; cbn [rflat_map].
  - intros E. injection E as <-. exists [], []. repeat split; constructor.
  - intros E. destruct (f x) as [a|] eqn:Ef; [|discriminate]. cbn [rbind] in E. destruct (rflat_map f l) as [b|]; [|discriminate]. cbn [rbind] in E. injection E as <-.
    destruct (H x a (or_introl eq_refl) Ef) as (z & m & Z1 & Z2 & Z3). destruct (IH (fun x' y' Hi => H x' y' (or_intror Hi)) b eq_refl) as (z' & m' & Y1 & Y2 & Y3).
    rewrite Z1. cbn [rbind]. rewrite Y1. cbn [rbind]. exists (z ++ z'), (m ++ m'). split; [reflexivity|]. split; [|apply Forall_app; auto].
    rewrite Z2, Y2, <- !app_assoc. apply Permutation_app_head. rewrite !app_assoc. apply Permutation_app_tail. apply Permutation_app_comm.
Qed.
Lemma traces_alone ps p l : all_apart ps -> In p ps -> plain_document (pc_text p) -> good_piece (e_u e) p -> traces (lookup ps) p = Val l ->
  exists z m, traces (ann_value (pc_text p) (stmts_of p)) p = Val z /\ Permutation l (z ++ m) /\ Forall (supplied_by ps p) m.
Proof.
  intros Ha Hi Hp (_ & Hpp & He). apply rflat_more. intros i y Hin. destruct p as [a [ta sa ea]]. cbn [pc_text pc_result pr_errors] in *. subst ea. unfold stmts_of in Hin. cbn [pc_result pr_stmts] in Hin.
  unfold hint_with. destruct (i_dbg i) as [r|] eqn:Er; cbn [obind]; [|intros E; exists [], []; injection E as <-; repeat split; constructor].
  destruct (existsb (annotates (fst r)) sa) eqn:En.
  - rewrite (lookup_here ps _ (fst r) Ha Hi) by exact En. intros E. exists y, []. rewrite app_nil_r. split; [exact E|]. split; [reflexivity|constructor].
  - assert (ann_value a (stmts_of (mkPiece a (mkPR ta sa []))) (fst r) = None) as ->. { unfold stmts_of. cbn [pc_result pr_stmts]. rewrite ann_fold. apply ann_none. exact En. }
    cbn [obind]. intros E. exists [], y. split; [reflexivity|]. split; [reflexivity|]. destruct (lookup ps (fst r)) as [t|] eqn:El; cbn [obind] in E; [|injection E as <-; constructor].
    destruct (lookup_some _ _ _ El) as (q & Q1 & Q2). destruct (e_json_parse e t) as [j|]; cbn [obind] in E; [|injection E as <-; constructor].
    destruct (parse_backtrace_from_json _ _ j) as [[fr|]|]; cbn [rbind] in E; [|injection E as <-; constructor|discriminate].
    destruct (dbg_inside _ _ _ _ _ _ Hpp Hin Er) as [_ K]. rewrite (plain_pos _ _ Hp K) in E. destruct (inlay_hint_for_backtrace _ _ _ fr) as [h|] eqn:Eh; [|discriminate]. injection E as <-. constructor; [|constructor].
    exists i, r, q. repeat split; auto. cbn [pc_text].
    unfold inlay_hint_for_backtrace in Eh. destruct (identify_relevant_frames fr) as [k|].
    + destruct (nth_error fr k) as [fx|]; [|discriminate]. destruct (shorten_name _ _) as [sy|]; [|discriminate]. cbn [rbind] in Eh. destruct (format_frame_as_md _ _ fx) as [tp|]; [|discriminate]. cbn [rbind] in Eh. destruct (backtrace_json_to_md _ _ _) as [tp'|]; [|discriminate]. injection Eh as <-. reflexivity.
    + cbn [rbind] in Eh. destruct (backtrace_json_to_md _ _ _) as [tp'|]; [|discriminate]. injection Eh as <-. reflexivity.
Qed.
End Traces.
Lemma handler_with {e0} e s uri src d ts sts : opened e s uri src d -> parse_from_str (e_u e) src = Val (mkPR ts sts e0) ->
  inlay_hint_handler e s uri = rbind (backtraces_with e (roots s) (ann_value src sts) src sts) (fun b => Val (Some (incoming_hints d uri ++ b ++ filter_map (end_hint d uri) (function_bodies (doc_index d))))).
Proof.
  intros Ho Hp. destruct (opened_at _ _ _ _ _ _ _ Ho Hp) as (I & R & S & G). destruct (indexed_ok _ _ _ _ I) as ([_ _ _ _ _ _ _ _ _ V] & _). cbn [pr_stmts] in V.
  unfold inlay_hint_handler. rewrite G, S, instructions_eq. f_equal. unfold backtraces_with. rewrite <- (map_id (instructions sts)) at 1. rewrite (rflat_two (hint_with e (roots s) (ann_value src sts) src) _ _ (fun h => h)).
  - destruct (rflat_map _ _) as [l|]; [|reflexivity]. cbn [rmap rbind]. rewrite map_id. reflexivity.
  - intros i _. unfold backtrace_hint, hint_with. destruct (i_dbg i) as [r|]; [|reflexivity]. cbn [obind]. rewrite V, R. destruct (obind (ann_value src sts (fst r)) _) as [[r' j]|]; [|reflexivity]. destruct (parse_backtrace_from_json _ _ j) as [[fr|]|]; try reflexivity. cbn [rbind]. destruct (offset_to_lsp_pos _ _) as [pos|]; [|reflexivity]. destruct (inlay_hint_for_backtrace _ _ _ _); reflexivity.
Qed.
Lemma stacked_app {A} (g : nat -> A -> A) f h ps : forall n, Permutation (stacked g (fun p => f p ++ h p) n ps) (stacked g f n ps ++ stacked g h n ps).
Proof.
  induction ps as [|p r IH]; intros n; cbn [stacked]; [constructor|]. rewrite IH, map_app, <- !app_assoc. apply Permutation_app_head. rewrite !app_assoc. apply Permutation_app_tail. apply Permutation_app_comm.
Qed.
Lemma moved_hints e uri rs ps : Forall (good_piece (e_u e)) ps -> all_apart ps -> plain_document (whole ps) ->
  exists o : option (piece -> list inlay_hint),
    (forall f, o = Some f -> forall p s d, In p ps -> opened e s uri (pc_text p) d -> roots s = rs ->
       exists l more, inlay_hint_handler e s uri = Val (Some l) /\ Permutation (f p) (l ++ more) /\ Forall (supplied_by ps p) more) /\
    forall qs s d, Permutation ps qs -> opened e s uri (whole qs) d -> roots s = rs ->
      match o with
      | None => inlay_hint_handler e s uri = Panic
      | Some f => exists l, inlay_hint_handler e s uri = Val (Some l) /\ Permutation l (stacked lower_hint f 0 qs)
      end.
Proof.
  intros Hg Ha Hp. set (v := lookup ps). set (f0 := fun p => plain_hints (doc_at e uri (pc_text p)) uri).
  assert (forall qs s d, Permutation ps qs -> opened e s uri (whole qs) d -> plain_document (whole qs) -> Permutation (plain_hints d uri) (stacked lower_hint f0 0 qs)) as Hplain.
  { intros qs s d Hq Ho Hpq. assert (Forall (good_piece (e_u e)) qs) as Hgq by (rewrite <- Hq; exact Hg).
    destruct (stack_show e uri lower_hint (fun s => option_map (fun d => plain_hints d uri) (get_doc s uri)) (fun _ => True) (@Permutation _)) with (s := s) (d := d) (ps := qs) as (f & F1 & l & F2 & F3); auto using hint_twice, hint_zero, Permutation_refl, perm_app.
    - apply Permutation_trans.
    - intros s0 s' E. rewrite E. reflexivity.
    - intros s0 d0 H0. rewrite (empty_doc _ _ _ _ H0). reflexivity.
    - intros p r pr s0 s1 s2 D Da Db H1 _ H2 H3 H4 _ O O1 O2. inversion_clear H2 as [|? ? (Hfl & Hpp & He) _]. exists (plain_hints D uri), (plain_hints Da uri), (plain_hints Db uri). rewrite (proj1 O), (proj1 O1), (proj1 O2). repeat split; auto.
      eapply plain_sum; try eassumption. right. exact H4.
    - rewrite (proj1 Ho) in F2. cbn [option_map] in F2. injection F2 as <-. rewrite F3. apply eq_ind with (x := stacked lower_hint f 0 qs); [reflexivity|]. apply stacked_ext. intros p Hi.
      pose proof (whole_parts_plain _ Hpq _ Hi) as Pp. pose proof (srv_opened e uri (pc_text p) (proj1 Pp)) as O. specialize (F1 _ _ _ Hi O). rewrite (proj1 O) in F1. cbn [option_map] in F1. injection F1 as <-. reflexivity. }
  assert (forall qs, Permutation ps qs -> plain_document (whole qs)) as Hpl.
  { intros qs Hq. exact (whole_plain _ _ Hq Hp). }
  assert (forall qs s d, Permutation ps qs -> opened e s uri (whole qs) d -> roots s = rs ->
    if all_traced e rs v ps then exists l, inlay_hint_handler e s uri = Val (Some l) /\ Permutation l (stacked lower_hint (fun p => f0 p ++ shown_traces e rs v p) 0 qs) else inlay_hint_handler e s uri = Panic) as Hall.
  { intros qs s d Hq Ho Hr. assert (Forall (good_piece (e_u e)) qs) as Hgq by (rewrite <- Hq; exact Hg). assert (all_apart qs) as Haq by (eapply pairs_perm; [exact apart_sym|exact Hq|exact Ha]).
    pose proof (Hpl _ Hq) as Hpq. destruct (all_parts _ _ Hgq) as (tr & sr & Hs & _). rewrite (handler_with _ _ _ _ _ _ _ Ho Hs), Hr, (whole_traces e rs _ _ Hgq Hpq _ _ Hs).
    assert (forall n, ann_value (whole qs) sr n = v n) as Ev by (intros n; rewrite (whole_value _ _ Hgq Haq Hpq _ _ Hs); symmetry; apply lookup_perm; assumption).
    destruct (traced_ext e rs _ _ qs Ev) as [-> Ex]. rewrite <- (traced_perm e rs v _ _ Hq). destruct (all_traced e rs v ps); [|reflexivity]. cbn [rbind]. eexists. split; [reflexivity|].
    rewrite stacked_app, <- (Hplain qs s d Hq Ho Hpq). unfold plain_hints. rewrite <- !app_assoc. apply Permutation_app_head. rewrite Permutation_app_comm. apply Permutation_app_head.
    apply eq_ind with (x := stacked lower_hint (shown_traces e rs (ann_value (whole qs) sr)) 0 qs); [reflexivity|]. apply stacked_ext. intros p _. unfold shown_traces. rewrite Ex. reflexivity. }
  exists (if all_traced e rs v ps then Some (fun p => f0 p ++ shown_traces e rs v p) else None). split.
  - destruct (all_traced e rs v ps) eqn:Et; intros f E; [|discriminate]. injection E as <-. intros p s d Hi Ho Hr. pose proof (whole_parts_plain _ Hp _ Hi) as Pp.
    pose proof Hg as Hg'. rewrite Forall_forall in Hg'. pose proof (Hg' _ Hi) as Gp. pose proof (traced_in e rs v ps p Et Hi) as T. destruct (traces_alone e rs ps p _ Ha Hi Pp Gp T) as (z & m & Z1 & Z2 & Z3).
    destruct Gp as (_ & Hpp & He). destruct p as [a [ta sa ea]]. cbn [pc_text pc_result pr_errors] in *. subst ea. rewrite (handler_with _ _ _ _ _ _ _ Ho Hpp), Hr.
    change (traces e rs (ann_value a sa) (mkPiece a (mkPR ta sa []))) with (backtraces_with e rs (ann_value a sa) a sa) in Z1. unfold traces in Z1. unfold stmts_of in Z1. cbn [pc_text pc_result pr_stmts] in Z1. rewrite Z1. cbn [rbind]. eexists. exists m. split; [reflexivity|]. split; [|exact Z3].
    assert (f0 (mkPiece a (mkPR ta sa [])) = plain_hints d uri) as ->. { unfold f0. cbn [pc_text]. f_equal. pose proof (opened_same _ _ _ _ _ _ _ Ho (srv_opened e uri a (proj1 Pp))) as O. rewrite (proj1 Ho), (proj1 (srv_opened e uri a (proj1 Pp))) in O. congruence. }
    rewrite Z2. unfold plain_hints. rewrite <- !app_assoc. apply Permutation_app_head. rewrite !app_assoc. apply Permutation_app_tail. apply Permutation_app_comm.
  - intros qs s d Hq Ho Hr. specialize (Hall qs s d Hq Ho Hr). destruct (all_traced e rs v ps); exact Hall.
Qed.
