(** Names in a document made of parts: the requests find them in all parts. *)
From Verif Require Import Text Rope Chumsky Tokenizer Parser Numbers Index SemTok Diag Rename Cfg Backtrace Server SpecText SpecLex SpecParse SpecIndex SpecDiag SpecBacktrace SpecNumbers SpecCfg SpecView SpecSemTok SpecRename SpecSum SpecSumView SpecMove SpecWritten SpecMoveAsk
  PText PRope PSemTok PSemDoc PLexSpec PLexProps PTokens PParse PParseProps PIndex PIndexDoc PIndexText PDiag PDiagDoc PCfg PBacktrace PNumbers PHints PView PFold PFoldText PExt PNav PSum PSumIndex PAbove PSumDoc PSumNav PSumOrder PSumView PMove PWritten.

Lemma ranges_low u a b ta sa l : full_lines a -> parse_from_str u a = Val (mkPR ta sa []) -> (forall t, In t l -> In t ta) -> map (lsp_range (a ++ b)) (map snd l) = map (lsp_range a) (map snd l).
Proof.
  intros Hf Hp H. rewrite !map_map. apply map_ext_in. intros t Ht. pose proof (left_tokens _ _ (sum_spans_a _ _ _ _ Hp) _ (H t Ht)). apply range_left; [exact Hf|lia|lia].
Qed.
Lemma ranges_high a b l : full_lines a -> map (lsp_range (a ++ b)) (map (shift_span (length a)) l) = map (lower_range (lsp_line_ends a)) (map (lsp_range b) l).
Proof. intros Hf. rewrite !map_map. apply map_ext. intros sp. apply range_right. exact Hf. Qed.
Lemma filter_move {A} (f : A -> A) (p : A -> bool) l : (forall x, p (f x) = p x) -> filter p (map f l) = map f (filter p l).
Proof. intros H. induction l as [|x l IH]; [reflexivity|]. cbn [map filter]. rewrite H, IH. destruct (p x); reflexivity. Qed.
Lemma filter_no {A} (p : A -> bool) l : (forall x, In x l -> p x = false) -> filter p l = [].
Proof. induction l as [|x l IH]; intros H; [reflexivity|]. cbn [filter]. rewrite (H x) by (left; reflexivity). apply IH. intros y Hy. apply H. right. exact Hy. Qed.
Lemma spans_shifted d (l : list stoken) : map snd (map (shift_tok d) l) = map (shift_span d) (map snd l).
Proof. rewrite !map_map. apply map_ext. intros []. reflexivity. Qed.
(** ** Global names and annotations *)
Lemma same_anywhere ss ss' t t' x : everywhere t = true -> fst t = fst t' -> names_the_same ss t x = names_the_same ss' t' x.
Proof. unfold everywhere, names_the_same. intros H <-. destruct (fst t); try discriminate; destruct (fst x); reflexivity. Qed.
Lemma same_shifted ss t d x : everywhere t = true -> names_the_same ss t (shift_tok d x) = names_the_same ss t x.
Proof. unfold everywhere, names_the_same, shift_tok. destruct x as [x sp]. cbn [fst snd]. destruct (fst t); try discriminate; destruct x; reflexivity. Qed.
Lemma global_places u ps t : Forall (good_piece u) ps -> everywhere t = true -> forall ts st, parse_from_str u (whole ps) = Val (mkPR ts st []) ->
  map (lsp_range (whole ps)) (written st ts t) = stacked lower_range (places_in t) 0 ps.
Proof.
  intros Hg He. induction ps as [|p r IH]; intros ts st Hp.
  - cbn [whole flat_map] in Hp. rewrite empty_document in Hp. injection Hp as <- <-. reflexivity.
  - inversion_clear Hg as [|? ? (Hfl & Hpp & Hne) Hg']. destruct (all_parts _ _ Hg') as (tr & sr & Hr & _). specialize (IH Hg' _ _ Hr). rewrite (stacked_cons _ _ _ _ range_twice range_zero). rewrite <- IH. clear IH.
    destruct p as [a [ta sa ea]]. unfold places_in. cbn [pc_text pc_result pr_errors pr_stmts pr_tokens] in *. subst ea. pose proof (sum_parsed _ _ _ _ _ _ _ Hfl Hpp Hr) as Hs. cbn [whole flat_map pc_text] in *. change (flat_map pc_text r) with (whole r) in *. rewrite Hp in Hs. injection Hs as -> ->.
    unfold written. rewrite filter_app, !map_app. f_equal.
    + rewrite (filter_ext _ (names_the_same sa t)) by (intros ?; apply same_anywhere; [exact He|reflexivity]). apply (ranges_low _ _ _ _ _ _ Hfl Hpp). intros ? Hx. apply filter_In in Hx as [Hx _]. exact Hx.
    + rewrite filter_move by (intros ?; apply same_shifted; exact He). rewrite (filter_ext _ (names_the_same sr t)) by (intros ?; apply same_anywhere; [exact He|reflexivity]).
      rewrite spans_shifted. apply ranges_high. exact Hfl.
Qed.
(** ** Local names *)
Section Two.
Variables (u : uclass) (a b : text) (ta tb : list stoken) (sa sb : list statement) (eb : list (simple text)).
Hypothesis Hfl : full_lines a.
Hypothesis Ha : parse_from_str u a = Val (mkPR ta sa []).
Hypothesis Hb : parse_from_str u b = Val (mkPR tb sb eb).
Notation d := (length a).
Notation ss := (sa ++ map (move_stmt d) sb).
Notation toks := (ta ++ map (shift_tok d) tb).
Lemma ranges_a r : In r (flat_map func_ranges sa) -> sp_end r <= d.
Proof. intros H. pose proof (left_ranges _ _ _ (sum_spans_a _ _ _ _ Ha) (sum_sub_a _ _ _ _ Ha)) as L. rewrite Forall_forall in L. exact (L _ H). Qed.
Lemma token_a t : In t ta -> sp_start (snd t) < d /\ sp_end (snd t) <= d. Proof. apply left_tokens. exact (sum_spans_a _ _ _ _ Ha). Qed.
Lemma token_b t : In t tb -> sp_start (snd t) < sp_end (snd t). Proof. intros H. pose proof (sum_spans_b _ _ _ _ _ Hb) as S. apply (spans_in_each _ _ _ _ S) in H. lia. Qed.
Lemma local_low t : In t ta -> everywhere t = false -> written ss toks t = written sa ta t.
Proof.
  intros Ht He. unfold written. rewrite filter_app, (filter_no _ (map (shift_tok d) tb)), app_nil_r.
  - f_equal. apply filter_ext. intros x. unfold names_the_same, everywhere in *. destruct (fst t); try reflexivity; try discriminate He. destruct (fst x); try reflexivity. f_equal.
    rewrite ranges_sum, existsb_app. rewrite orb_comm. apply token_a in Ht. assert (existsb (fun r => around (snd t) r && around (snd x) r) (map (shift_span d) (flat_map func_ranges sb)) = false) as ->; [|reflexivity].
    apply not_true_iff_false. intros H. apply existsb_exists in H as (r & H1 & H2). apply in_map_iff in H1 as (r' & <- & _). apply andb_true_iff in H2 as [H2 _]. apply around_spec in H2 as [H2 _]. cbn in H2. lia.
  - intros x Hx. apply in_map_iff in Hx as (y & <- & Hy). unfold names_the_same, everywhere, shift_tok in *. cbn [fst snd]. destruct (fst t); try reflexivity; try discriminate He. destruct (fst y); try reflexivity. apply andb_false_iff. right.
    apply not_true_iff_false. intros H. apply existsb_exists in H as (r & H1 & H2). apply andb_true_iff in H2 as [H2 H3]. apply around_spec in H2 as [H2 H2']. apply around_spec in H3 as [H3 H3']. apply token_a in Ht. apply token_b in Hy. cbn in H3, H3'.
    rewrite ranges_sum in H1. apply in_app_iff in H1 as [H1|H1]; [apply ranges_a in H1; lia|]. apply in_map_iff in H1 as (r' & <- & _). cbn in H2. lia.
Qed.
Lemma local_high t : In t tb -> everywhere t = false -> written ss toks (shift_tok d t) = map (shift_span d) (written sb tb t).
Proof.
  intros Ht He. unfold written. rewrite filter_app, (filter_no _ ta), app_nil_l.
  - assert (filter (names_the_same ss (shift_tok d t)) (map (shift_tok d) tb) = map (shift_tok d) (filter (names_the_same sb t) tb)) as ->; [|rewrite !map_map; reflexivity].
    assert (forall x, names_the_same ss (shift_tok d t) (shift_tok d x) = names_the_same sb t x) as E.
    { intros x. unfold names_the_same, everywhere, shift_tok in *. cbn [fst snd]. destruct (fst t); try (destruct (fst x); reflexivity); try discriminate He. destruct (fst x); try reflexivity. f_equal. rewrite ranges_sum, existsb_app.
      assert (existsb (fun r => around (shift_span d (snd t)) r && around (shift_span d (snd x)) r) (flat_map func_ranges sa) = false) as ->.
      { apply not_true_iff_false. intros H. apply existsb_exists in H as (r & H1 & H2). apply andb_true_iff in H2 as [H2 _]. apply around_spec in H2 as [_ H2]. apply ranges_a in H1. apply token_b in Ht. cbn in H2. lia. }
      cbn [orb]. induction (flat_map func_ranges sb) as [|r l IH]; [reflexivity|]. cbn [map existsb]. rewrite IH. f_equal.
      assert (forall sp, around (shift_span d sp) (shift_span d r) = around sp r) as S; [|rewrite !S; reflexivity]. intros sp. unfold around, shift_span. cbn.
      f_equal; apply eq_true_iff_eq; rewrite !Nat.leb_le; lia. }
    clear Ht. generalize tb as l. induction l as [|x l IH]; [reflexivity|]. cbn [map filter]. rewrite E, IH. destruct (names_the_same sb t x); reflexivity.
  - intros x Hx. unfold names_the_same, everywhere, shift_tok in *. cbn [fst snd]. destruct (fst t); try reflexivity; try discriminate He. destruct (fst x); try reflexivity. apply andb_false_iff. right.
    apply not_true_iff_false. intros H. apply existsb_exists in H as (r & H1 & H2). apply andb_true_iff in H2 as [H2 H3]. apply around_spec in H2 as [H2 H2']. apply around_spec in H3 as [H3 H3']. apply token_a in Hx. apply token_b in Ht. cbn in H2, H2'.
    rewrite ranges_sum in H1. apply in_app_iff in H1 as [H1|H1]; [apply ranges_a in H1; lia|]. apply in_map_iff in H1 as (r' & <- & _). cbn in H3. lia.
Qed.
Lemma names_low t : names_symbol sa t -> names_symbol ss t.
Proof. unfold names_symbol. destruct (fst t); auto. intros (r & H1 & H2). exists r. split; [|exact H2]. rewrite flat_map_app. apply in_app_iff. left. exact H1. Qed.
Lemma names_high t : names_symbol sb t -> names_symbol ss (shift_tok d t).
Proof.
  unfold names_symbol, shift_tok. cbn [fst snd]. destruct (fst t); auto. intros (r & H1 & H2 & H3). exists (shift_span d r). split; [rewrite ranges_sum; apply in_app_iff; right; apply in_map; exact H1|]. unfold SpecParse.inside, shift_span in *. cbn. lia.
Qed.
End Two.
(** ** A part between others *)
Lemma everywhere_shift d t : everywhere (shift_tok d t) = everywhere t. Proof. destruct t. reflexivity. Qed.
Lemma shifted_same ss t d x : everywhere t = true -> names_the_same ss (shift_tok d t) x = names_the_same ss t x.
Proof. intros H. symmetry. apply same_anywhere; [exact H|destruct t; reflexivity]. Qed.
Section Between.
Variables (u : uclass) (l r : list piece) (q : piece).
Hypothesis Hg : Forall (good_piece u) (l ++ q :: r).
Notation n := (length (whole l)).
Lemma between : exists ts st, parse_from_str u (whole (l ++ q :: r)) = Val (mkPR ts st []) /\ whole (l ++ q :: r) = whole l ++ (pc_text q ++ whole r) /\ full_lines (whole l) /\ full_lines (pc_text q) /\
  (forall t, In t (pr_tokens (pc_result q)) -> names_symbol (pr_stmts (pc_result q)) t -> In (shift_tok n t) ts /\ names_symbol st (shift_tok n t) /\ map (lsp_range (whole (l ++ q :: r))) (written st ts (shift_tok n t)) = places_all t l q r) /\
  (forall t, In t (pr_tokens (pc_result q)) -> sp_start (snd t) < length (pc_text q) /\ sp_end (snd t) <= length (pc_text q)) /\
  exists sl sr, st = sl ++ map (move_stmt n) (pr_stmts (pc_result q) ++ map (move_stmt (length (pc_text q))) sr).
Proof.
  pose proof Hg as Hg0. apply Forall_app in Hg0 as [Gl Gr]. inversion_clear Gr as [|? ? (Hfq & Hq & Hne) Gr']. destruct (all_parts _ _ Gl) as (tl & sl & Hl & Hfl & _). destruct (all_parts _ _ Gr') as (tr & sr & Hr & _).
  assert (W : whole (l ++ q :: r) = whole l ++ (pc_text q ++ whole r)) by (unfold whole; rewrite flat_map_app; reflexivity).
  destruct (pc_result q) as [tq sq eq] eqn:Eq. cbn [pr_errors pr_stmts pr_tokens] in *. subst eq.
  pose proof (sum_parsed _ _ _ _ _ _ _ Hfq Hq Hr) as Hqr. pose proof (sum_parsed _ _ _ _ _ _ _ Hfl Hl Hqr) as Hs.
  eexists _, _. rewrite W at 1. split; [exact Hs|]. split; [exact W|]. split; [exact Hfl|]. split; [exact Hfq|]. split; [|split; [exact (left_tokens _ _ (sum_spans_a _ _ _ _ Hq))|eexists _, _; reflexivity]].
  intros t Ht Hn. split; [apply in_app_iff; right; apply in_map; apply in_app_iff; left; exact Ht|]. split; [apply names_high; apply names_low; exact Hn|].
  unfold places_all. destruct (everywhere t) eqn:Ev.
  - rewrite <- (global_places u _ t Hg Ev _ _) by (rewrite W; exact Hs). unfold written. do 2 f_equal. apply filter_ext. intros ?. apply shifted_same. exact Ev.
  - assert (In t (tq ++ map (shift_tok (length (pc_text q))) tr)) as Ht' by (apply in_app_iff; left; exact Ht).
    rewrite (local_high _ _ _ _ _ _ _ _ Hl Hqr t Ht' Ev), (local_low _ _ _ _ _ _ _ _ Hq Hr t Ht Ev). rewrite W, ranges_high by exact Hfl. f_equal. unfold places_in. rewrite Eq. cbn [pr_stmts pr_tokens]. unfold written.
    apply (ranges_low _ _ _ _ _ _ Hfq Hq). intros ? Hx. apply filter_In in Hx as [Hx _]. exact Hx.
Qed.
End Between.
Lemma part_range l q r sp : full_lines (whole l) -> full_lines (pc_text q) -> sp_start sp <= length (pc_text q) -> sp_end sp <= length (pc_text q) ->
  lsp_range (whole l ++ (pc_text q ++ whole r)) (shift_span (length (whole l)) sp) = lower_range (lsp_line_ends (whole l)) (lsp_range (pc_text q) sp).
Proof. intros H1 H2 H3 H4. rewrite range_right by exact H1. rewrite range_left by assumption. reflexivity. Qed.
Lemma part_position l q r p : full_lines (whole l) -> full_lines (pc_text q) -> p <= length (pc_text q) ->
  lsp_position (whole l ++ (pc_text q ++ whole r)) (p + length (whole l)) = lower (lsp_line_ends (whole l)) (lsp_position (pc_text q) p).
Proof. intros H1 H2 H3. rewrite position_right by exact H1. rewrite position_left by assumption. reflexivity. Qed.
Lemma locations_at src uri l : map (location_of src uri) l = map (mkLocn uri) (map (lsp_range src) l).
Proof. rewrite map_map. reflexivity. Qed.
Lemma parts_asked e s uri l q r d t p : Forall (good_piece (e_u e)) (l ++ q :: r) -> plain_document (whole (l ++ q :: r)) -> opened e s uri (whole (l ++ q :: r)) d ->
  In t (pr_tokens (pc_result q)) -> names_symbol (pr_stmts (pc_result q)) t -> covers (snd t) p ->
  let n := lsp_line_ends (whole l) in let pos := lower n (lsp_position (pc_text q) p) in let here := lower_range n (lsp_range (pc_text q) (snd t)) in
  exists own decls refs,
    (goto_definition e s uri pos = Panic \/ exists ext, goto_definition e s uri pos = Val (Some (here, own ++ ext))) /\
    goto_declaration e s uri pos = Val (Some (here, decls)) /\ references e s uri pos = Val (Some refs) /\
    Permutation (own ++ decls ++ refs) (map (mkLocn uri) (places_all t l q r)) /\ prepare_rename s uri pos = Some here /\
    forall new edits, ~ signed new -> rename e s uri pos new = Val (Reply edits) -> Permutation (map te_range edits) (places_all t l q r).
Proof.
  intros Hg Hp Ho Ht Hn Hc. destruct (between _ _ _ _ Hg) as (ts & st & Hs & W & Hfl & Hfq & B & Bt & _). destruct (B t Ht Hn) as (B1 & B2 & B3). destruct (Bt t Ht) as [T1 T2]. cbv zeta.
  destruct Hc as [C1 C2]. assert (Hc' : covers (snd (shift_tok (length (whole l)) t)) (p + length (whole l))) by (destruct t as [t sp]; unfold covers, shift_tok; cbn in *; lia).
  pose proof (written_found e s uri _ d _ (shift_tok (length (whole l)) t) _ Hp Ho Hs B1 B2 Hc') as F. cbv zeta in F. cbn [pr_stmts pr_tokens] in F. rewrite locations_at, B3 in F.
  assert (lsp_range (whole (l ++ q :: r)) (snd (shift_tok (length (whole l)) t)) = lower_range (lsp_line_ends (whole l)) (lsp_range (pc_text q) (snd t))) as E1.
  { rewrite W. destruct t as [t sp]. unfold shift_tok. cbn [fst snd] in *. apply part_range; [exact Hfl|exact Hfq|lia|lia]. }
  assert (lsp_position (whole (l ++ q :: r)) (p + length (whole l)) = lower (lsp_line_ends (whole l)) (lsp_position (pc_text q) p)) as E2.
  { rewrite W. apply part_position; [exact Hfl|exact Hfq|lia]. }
  rewrite E1, E2 in F. exact F.
Qed.
(** ** Labels *)
Lemma labels_moved d bs : label_names (map (move_block d) bs) = map (move_name d) (label_names bs).
Proof.
  unfold label_names. induction bs as [|b bs IH]; [reflexivity|]. cbn [map flat_map]. rewrite IH, !map_app. f_equal. f_equal.
  - destruct b as [[x|] c i sp]; reflexivity.
  - cbn [move_block bb_instrs]. induction (bb_instrs b) as [|i is IH2]; [reflexivity|]. cbn [map flat_map]. rewrite IH2, map_app. reflexivity.
Qed.
Lemma label_written_moved d bs n : label_written (map (move_block d) bs) n = map (shift_span d) (label_written bs n).
Proof. unfold label_written. rewrite labels_moved, filter_move by (intros [x sp]; reflexivity). rewrite !map_map. reflexivity. Qed.
Lemma def_between u l q r f : Forall (good_piece u) (l ++ q :: r) -> In f (function_defs (pr_stmts (pc_result q))) -> forall ts st, parse_from_str u (whole (l ++ q :: r)) = Val (mkPR ts st []) -> In (move_def (length (whole l)) f) (function_defs st).
Proof.
  intros Hg Hf ts st Hp. destruct (between _ _ _ _ Hg) as (ts' & st' & Hs & _ & _ & _ & _ & _ & sl & sr & E). rewrite Hp in Hs. injection Hs as -> ->. rewrite E, function_defs_app. apply in_app_iff. right. rewrite defs_moved. apply in_map. rewrite function_defs_app. apply in_app_iff. left. exact Hf.
Qed.
Lemma label_bounds u src pr f x : parse_from_str u src = Val pr -> pr_errors pr = [] -> In f (function_defs (pr_stmts pr)) -> In x (label_names (fb_blocks (snd f))) -> sp_start (snd x) <= length src /\ sp_end (snd x) <= length src.
Proof.
  intros Hp He Hf Hx. apply In_nth_error in Hf as [i Hf]. rewrite <- (labelled_tree _ 0 i f Hf) in Hx. apply in_map_iff in Hx as (o & <- & Ho). apply filter_In in Ho as [Ho _]. destruct pr as [ts ss er]. cbn [pr_stmts pr_errors] in *. subst er.
  cbn [bare snd]. apply (tree_token _ _ _ (sum_spans_a _ _ _ _ Hp) (sum_sub_a _ _ _ _ Hp)) in Ho. apply (left_tokens _ _ (sum_spans_a _ _ _ _ Hp)) in Ho. cbn [occ_token snd] in Ho. lia.
Qed.
Lemma parts_labels e s uri l q r d f x p : Forall (good_piece (e_u e)) (l ++ q :: r) -> plain_document (whole (l ++ q :: r)) -> opened e s uri (whole (l ++ q :: r)) d ->
  In f (function_defs (pr_stmts (pc_result q))) -> In x (label_names (fb_blocks (snd f))) -> covers (snd x) p ->
  let n := lsp_line_ends (whole l) in let pos := lower n (lsp_position (pc_text q) p) in let here := lower_range n (lsp_range (pc_text q) (snd x)) in
  exists own decls refs,
    (goto_definition e s uri pos = Panic \/ exists ext, goto_definition e s uri pos = Val (Some (here, own ++ ext))) /\
    goto_declaration e s uri pos = Val (Some (here, decls)) /\ references e s uri pos = Val (Some refs) /\
    Permutation (own ++ decls ++ refs) (map (mkLocn uri) (label_places f (fst x) l q)) /\ prepare_rename s uri pos = Some here /\
    forall new edits, ~ signed new -> rename e s uri pos new = Val (Reply edits) -> Permutation (map te_range edits) (label_places f (fst x) l q).
Proof.
  intros Hg Hp Ho Hf Hx Hc. destruct (between _ _ _ _ Hg) as (ts & st & Hs & W & Hfl & Hfq & _). pose proof (def_between _ _ _ _ _ Hg Hf _ _ Hs) as Hf'. cbv zeta.
  assert (Hq : good_piece (e_u e) q) by (rewrite Forall_forall in Hg; apply (Hg q); apply in_app_iff; right; left; reflexivity). destruct Hq as (_ & Hq & Hqe).
  destruct (label_bounds _ _ _ _ _ Hq Hqe Hf Hx) as [T1 T2]. destruct Hc as [C1 C2].
  assert (Hx' : In (move_name (length (whole l)) x) (label_names (fb_blocks (snd (move_def (length (whole l)) f))))) by (cbn [move_def snd move_body fb_blocks]; rewrite labels_moved; apply in_map; exact Hx).
  assert (Hc' : covers (snd (move_name (length (whole l)) x)) (p + length (whole l))) by (destruct x as [x sp]; unfold covers, move_name; cbn in *; lia).
  pose proof (label_found e s uri _ d _ _ _ _ Hp Ho Hs Hf' Hx' Hc') as F. cbv zeta in F. rewrite locations_at in F. cbn [move_def move_name fst snd move_body fb_blocks] in F. rewrite label_written_moved in F.
  assert (map (lsp_range (whole (l ++ q :: r))) (map (shift_span (length (whole l))) (label_written (fb_blocks (snd f)) (fst x))) = label_places f (fst x) l q) as E3.
  { unfold label_places. rewrite !map_map. apply map_ext_in. intros sp H. unfold label_written in H. apply in_map_iff in H as (y & <- & H). apply filter_In in H as [H _]. destruct (label_bounds _ _ _ _ _ Hq Hqe Hf H). rewrite W. apply part_range; assumption. }
  assert (lsp_range (whole (l ++ q :: r)) (shift_span (length (whole l)) (snd x)) = lower_range (lsp_line_ends (whole l)) (lsp_range (pc_text q) (snd x))) as E1 by (rewrite W; apply part_range; assumption).
  assert (lsp_position (whole (l ++ q :: r)) (p + length (whole l)) = lower (lsp_line_ends (whole l)) (lsp_position (pc_text q) p)) as E2 by (rewrite W; apply part_position; [exact Hfl|exact Hfq|lia]).
  rewrite E1, E2, E3 in F. exact F.
Qed.
(** ** Two parts, the lower one with errors *)
Section Open.
Variables (e : env) (s : server) (uri a b : text) (d : doc) (pa pb : parser_result).
Hypothesis Hp : plain_document (a ++ b).
Hypothesis Hfl : full_lines a.
Hypothesis Ha : parse_from_str (e_u e) a = Val pa.
Hypothesis Hb : parse_from_str (e_u e) b = Val pb.
Hypothesis Hea : pr_errors pa = [].
Hypothesis Hrb : read pb.
Hypothesis Ho : opened e s uri (a ++ b) d.
Notation n := (lsp_line_ends a).
Lemma open_found ts st es t p : parse_from_str (e_u e) (a ++ b) = Val (mkPR ts st es) -> In t ts -> names_symbol st t -> covers (snd t) p ->
  answers e s uri (lsp_position (a ++ b) p) (lsp_range (a ++ b) (snd t)) (map (lsp_range (a ++ b)) (written st ts t)).
Proof. intros Hs Ht Hn Hc. pose proof (written_found e s uri _ d _ _ _ Hp Ho Hs Ht Hn Hc) as F. cbv zeta in F. rewrite locations_at in F. exact F. Qed.
Lemma asked_above t p : In t (pr_tokens pa) -> names_symbol (pr_stmts pa) t -> covers (snd t) p ->
  answers e s uri (lsp_position a p) (lsp_range a (snd t)) (places_in t (mkPiece a pa) ++ if everywhere t then map (lower_range n) (places_in t (mkPiece b pb)) else []).
Proof.
  destruct pa as [ta sa ea], pb as [tb sb eb]. unfold read, places_in in *. cbn [pr_tokens pr_stmts pr_errors pc_text pc_result] in *. subst ea. intros Ht Hn Hc. destruct (parse_above _ _ _ _ _ _ _ _ Hfl Ha Hb Hrb) as (es & Hs & _).
  destruct (left_tokens _ _ (sum_spans_a _ _ _ _ Ha) _ Ht) as [T1 T2]. destruct Hc as [C1 C2].
  pose proof (open_found _ _ _ t p Hs (in_or_app _ _ _ (or_introl Ht)) (names_low _ _ _ t Hn) (conj C1 C2)) as F. rewrite position_left, range_left in F by (assumption || lia).
  destruct (everywhere t) eqn:Ev.
  - unfold written in F |- *. rewrite filter_app, !map_app in F. rewrite (filter_ext _ (names_the_same sa t) (fun y => same_anywhere _ _ t t y Ev eq_refl) ta) in F. rewrite filter_move in F by (intros ?; apply same_shifted; exact Ev).
    rewrite (filter_ext _ (names_the_same sb t) (fun y => same_anywhere _ _ t t y Ev eq_refl) tb), spans_shifted, ranges_high in F by exact Hfl.
    rewrite (ranges_low _ _ _ _ _ _ Hfl Ha) in F by (intros ? Hx; apply filter_In in Hx as [Hx _]; exact Hx). exact F.
  - rewrite app_nil_r. rewrite (local_low _ _ _ _ _ _ _ _ Ha Hb t Ht Ev) in F. unfold written in F |- *. rewrite (ranges_low _ _ _ _ _ _ Hfl Ha) in F by (intros ? Hx; apply filter_In in Hx as [Hx _]; exact Hx). exact F.
Qed.
Lemma asked_below t p : In t (pr_tokens pb) -> names_symbol (pr_stmts pb) t -> covers (snd t) p ->
  answers e s uri (lower n (lsp_position b p)) (lower_range n (lsp_range b (snd t))) ((if everywhere t then places_in t (mkPiece a pa) else []) ++ map (lower_range n) (places_in t (mkPiece b pb))).
Proof.
  destruct pa as [ta sa ea], pb as [tb sb eb]. unfold read, places_in in *. cbn [pr_tokens pr_stmts pr_errors pc_text pc_result] in *. subst ea. intros Ht Hn Hc. destruct (parse_above _ _ _ _ _ _ _ _ Hfl Ha Hb Hrb) as (es & Hs & _). destruct Hc as [C1 C2].
  assert (Hc' : covers (snd (shift_tok (length a) t)) (p + length a)) by (destruct t as [t sp]; unfold covers, shift_tok; cbn in *; lia).
  pose proof (open_found _ _ _ (shift_tok (length a) t) (p + length a) Hs (in_or_app _ _ _ (or_intror (in_map _ _ _ Ht))) (names_high _ _ _ t Hn) Hc') as F.
  replace (snd (shift_tok (length a) t)) with (shift_span (length a) (snd t)) in F by (destruct t; reflexivity). rewrite position_right, range_right in F by exact Hfl.
  destruct (everywhere t) eqn:Ev.
  - unfold written in F |- *. rewrite (filter_ext _ (names_the_same sa t) (fun y => eq_trans (shifted_same _ t _ y Ev) (same_anywhere _ _ t t y Ev eq_refl))) in F. rewrite filter_app, !map_app, filter_move in F by (intros ?; apply same_shifted; exact Ev).
    rewrite (filter_ext _ (names_the_same sb t) (fun y => same_anywhere _ _ t t y Ev eq_refl) tb), spans_shifted, ranges_high in F by exact Hfl.
    rewrite (ranges_low _ _ _ _ _ _ Hfl Ha) in F by (intros ? Hx; apply filter_In in Hx as [Hx _]; exact Hx). exact F.
  - cbn [app]. rewrite (local_high _ _ _ _ _ _ _ _ Ha Hb t Ht Ev), ranges_high in F by exact Hfl. exact F.
Qed.
End Open.
