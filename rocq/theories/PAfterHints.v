(** Lenses, graphs and hints after edits. *)
From Verif Require Import Text Rope Chumsky Tokenizer Parser Numbers Index SemTok Diag Rename Cfg Backtrace Server SpecText SpecLex SpecParse SpecIndex SpecDiag SpecBacktrace SpecNumbers SpecCfg SpecView SpecSemTok SpecRename SpecPatch SpecSimilar SpecRebind SpecSteps SpecRoom SpecDot SpecComment SpecAfter SpecAfterShift SpecAfterHints
  PText PRope PLexSpec PLexProps PParse PParseProps PNumbers PHints PFold PFoldText PNav PRequest PView PIndex PIndexDoc PIndexText PDiag PRename PRelex PRetree PRebind PUndo PSteps PDiagDoc PKeep PCfg PDot PCoherent PSumIndex PSumView PAlike PComment PRoom PAfter PAfterView PAfterShift.

(** ** The same slices of two texts *)
Section Slices.
Variables (u : uclass) (src : text) (edits : list text_edit).
Notation rg := (regapped u src edits).
Lemma regapped_low i j t t' toks toks' : rg i j t t' toks toks' -> forall a b, In (a, b) (combine toks toks') -> i <= sp_start (snd a) /\ sp_start (snd a) <= sp_end (snd a) /\ sp_end (snd a) <= i + length t /\ j <= sp_start (snd b) /\ sp_start (snd b) <= sp_end (snd b) /\ sp_end (snd b) <= j + length t'.
Proof.
  induction 1 as [i j bl|i j bl t t' w w' r r' toks toks' Hs Hr IH]; intros a b H; [contradiction|]. cbn [combine] in H. rewrite !app_length. destruct H as [H|H].
  - inversion H; subst. cbn [snd sp_start sp_end]. lia.
  - apply IH in H. lia.
Qed.
Lemma regapped_prefix i j t t' toks toks' : rg i j t t' toks toks' -> forall a b, In (a, b) (combine toks toks') ->
  (forall c w w', In c toks -> sp_end (snd c) <= sp_end (snd a) -> swapped u src edits c w w' -> w' = w) ->
  sp_end (snd b) - j = sp_end (snd a) - i /\ firstn (sp_end (snd a) - i) t' = firstn (sp_end (snd a) - i) t.
Proof.
  induction 1 as [i j bl|i j bl t t' w w' r r' toks toks' Hs Hr IH]; intros a b H Hk; [contradiction|]. cbn [combine] in H. destruct H as [H|H].
  - inversion H; subst. cbn [snd sp_start sp_end] in *. rewrite (Hk _ _ _ (or_introl eq_refl) (le_n _) Hs) in *. split; [lia|].
    replace (i + length bl + length w - i) with (length (bl ++ w)) by (rewrite app_length; lia). rewrite !app_assoc, !firstn_app, Nat.sub_diag. cbn [firstn]. reflexivity.
  - destruct (regapped_low _ _ _ _ _ _ Hr _ _ H) as (B1 & B2 & B3 & B4 & B5 & B6).
    assert (w' = w) as -> by (apply (Hk _ _ _ (or_introl eq_refl)); [cbn [snd sp_end]; lia|exact Hs]).
    destruct (IH _ _ H (fun c v v' Hc => Hk c v v' (or_intror Hc))) as [E1 E2]. split; [lia|].
    rewrite !(app_assoc bl w). rewrite !firstn_app. rewrite app_length. replace (sp_end (snd a) - i - (length bl + length w)) with (sp_end (snd a) - (i + length bl + length w)) by lia. rewrite E2. reflexivity.
Qed.
Lemma regapped_slice i j t t' toks toks' : rg i j t t' toks toks' -> forall a a' z z', In (a, a') (combine toks toks') -> In (z, z') (combine toks toks') -> sp_start (snd a) < sp_end (snd z) ->
  (forall c w w', In c toks -> sp_start (snd a) <= sp_start (snd c) -> sp_end (snd c) <= sp_end (snd z) -> swapped u src edits c w w' -> w' = w) ->
  sp_end (snd z') - sp_start (snd a') = sp_end (snd z) - sp_start (snd a) /\
  firstn (sp_end (snd z) - sp_start (snd a)) (skipn (sp_start (snd a') - j) t') = firstn (sp_end (snd z) - sp_start (snd a)) (skipn (sp_start (snd a) - i) t).
Proof.
  induction 1 as [i j bl|i j bl t t' w w' r r' toks toks' Hs Hr IH]; intros a a' z z' H Hz Hlt Hk; [contradiction|]. cbn [combine] in H. destruct H as [H|H].
  - inversion H; subst. cbn [snd sp_start sp_end] in *.
    assert (rg (i + length bl) (j + length bl) (w ++ r) (w' ++ r') ((t, mkSpan (i + length bl) (i + length bl + length w)) :: toks) ((t', mkSpan (j + length bl) (j + length bl + length w')) :: toks')) as G.
    { pose proof (rg_token u src edits (i + length bl) (j + length bl) [] t t' w w' r r' toks toks') as G. cbn [length app] in G. rewrite !Nat.add_0_r in G. apply G; assumption. }
    destruct (regapped_prefix _ _ _ _ _ _ G z z' Hz) as [E1 E2].
    { intros c v v' Hc He. apply Hk; [exact Hc| |exact He]. destruct Hc as [<-|Hc]; [apply le_n|].
      assert (exists c', In (c, c') (combine toks toks')) as (c' & Hc').
      { clear - Hr Hc. induction Hr as [|? ? ? ? ? ? ? ? ? ? ? ? _ IH]; [contradiction|]. destruct Hc as [<-|Hc]; [eexists; left; reflexivity|]. destruct (IH Hc) as (c' & Hq). exists c'. right. exact Hq. }
      apply (regapped_low _ _ _ _ _ _ Hr) in Hc'. lia. }
    split; [exact E1|]. replace (i + length bl - i) with (length bl) by lia. replace (j + length bl - j) with (length bl) by lia. rewrite !skipn_app, !skipn_all, !Nat.sub_diag. cbn [app skipn]. exact E2.
  - destruct (regapped_low _ _ _ _ _ _ Hr _ _ H) as (B1 & B2 & B3 & B4 & B5 & B6). cbn [combine] in Hz. destruct Hz as [Hz|Hz]; [inversion Hz; subst; cbn [snd sp_end] in Hlt; lia|].
    destruct (IH _ _ _ _ H Hz Hlt (fun c v v' Hc => Hk c v v' (or_intror Hc))) as [E1 E2]. split; [exact E1|].
    assert (Sk : forall (p q x : text) n m, n = length p + length q + m -> skipn n (p ++ q ++ x) = skipn m x).
    { intros p q x n m ->. rewrite app_assoc, skipn_app, skipn_all2 by (rewrite app_length; lia). rewrite app_length. cbn [app]. f_equal. lia. }
    rewrite (Sk bl w r _ (sp_start (snd a) - (i + length bl + length w))) by lia. rewrite (Sk bl w' r' _ (sp_start (snd a') - (j + length bl + length w'))) by lia. exact E2.
Qed.
End Slices.

Lemma pos_eqb_eq a b : pos_eqb a b = true <-> a = b.
Proof. destruct a as [a1 a2], b as [b1 b2]. unfold pos_eqb. cbn [p_line p_char]. rewrite andb_true_iff, !Nat.eqb_eq. split; [intros [-> ->]; reflexivity|intros G; inversion G; auto]. Qed.
Lemma range_eqb_eq a b : range_eqb a b = true <-> a = b.
Proof. destruct a as [a1 a2], b as [b1 b2]. unfold range_eqb. cbn [r_start r_end]. rewrite andb_true_iff, !pos_eqb_eq. split; [intros [-> ->]; reflexivity|intros G; inversion G; auto]. Qed.
Lemma tree_of_def n ss : forall k j f, nth_error (function_defs ss) j = Some f -> In n (occ Def KFunction None (fs_name (fst f)) :: flat_map (block_occs (k + j)) (fb_blocks (snd f))) -> In n (tree_occs k ss).
Proof.
  unfold function_defs. induction ss as [|st ss IH]; intros k j f Hj Hn; [destruct j; discriminate|]. cbn [flat_map tree_occs] in *.
  destruct st as [| |kw sg bd| |]; cbn [app is_def] in *; try (apply in_or_app; right; apply (IH (k + 0) j f Hj); rewrite Nat.add_0_r; exact Hn).
  destruct j as [|j]; cbn [nth_error] in Hj.
  - injection Hj as <-. cbn [fst snd] in Hn. rewrite Nat.add_0_r in Hn. apply in_or_app. left. cbn [stmt_occs]. destruct Hn as [Hn|Hn]; [left; exact Hn|right; apply in_or_app; right; exact Hn].
  - apply in_or_app. right. apply (IH (k + 1) j f Hj). replace (k + 1 + j) with (k + S j) by lia. exact Hn.
Qed.
Lemma find_index {A B} (p : A -> bool) (q : B -> bool) a : forall b, length a = length b -> (forall i x y, nth_error a i = Some x -> nth_error b i = Some y -> p x = q y) -> forall x, find p a = Some x ->
  exists i y, nth_error a i = Some x /\ nth_error b i = Some y /\ find q b = Some y /\ p x = true /\ forall j z, j < i -> nth_error a j = Some z -> p z = false.
Proof.
  induction a as [|v a IH]; intros [|w b] HL H x; try discriminate. cbn [find]. rewrite <- (H 0 v w eq_refl eq_refl). destruct (p v) eqn:E.
  - intros G. injection G as <-. exists 0, w. do 3 (split; [reflexivity|]). split; [exact E|]. intros j z Hj. lia.
  - intros G. injection HL as HL. destruct (IH b HL (fun i => H (S i)) x G) as (i & y & H1 & H2 & H3 & H4 & H5). exists (S i), y. split; [exact H1|]. split; [exact H2|]. split; [exact H3|]. split; [exact H4|].
    intros [|j] z Hj Hz; [injection Hz as <-; exact E|apply (H5 j z); [lia|exact Hz]].
Qed.
Lemma forall2_split {A B} (Q : A -> B -> Prop) a b : Forall2 Q a b -> Forall2 (fun x y => Q x y /\ In x a /\ In y b) a b.
Proof. induction 1 as [|x y a b H _ IH]; constructor; [cbn; auto|]. eapply forall2_impl; [|exact IH]. cbn. intros ? ? (? & ? & ?). auto. Qed.
Lemma last_strict r : forall lo hi x y, spans_in lo hi (x :: r) -> sp_start (snd x) < sp_end (snd (last (x :: r) y)).
Proof.
  induction r as [|z r IH]; intros lo hi [t sp] y (H1 & H2 & H3); [exact H2|]. destruct z as [t2 sp2]. pose proof (IH _ _ _ y H3) as K. destruct H3 as (H4 & _). cbn [snd] in *.
  change (last ((t, sp) :: (t2, sp2) :: r) y) with (last ((t2, sp2) :: r) y). lia.
Qed.
Lemma last_pairs {A B} (Q : A -> B -> Prop) a b : Forall2 Q a b -> forall x y, Q x y -> Q (last a x) (last b y).
Proof. induction 1 as [|v w a b H H2 IH]; intros x y Hxy; [exact Hxy|]. specialize (IH x y Hxy). destruct H2; [exact H|exact IH]. Qed.
Lemma rflat_pairs {A B C D} (R : A -> B -> Prop) (f : A -> res (list C)) (g : B -> res (list D)) (k : C -> D) a b : Forall2 R a b -> (forall x y, In x a -> R x y -> g y = rmap (map k) (f x)) -> rflat_map g b = rmap (map k) (rflat_map f a).
Proof.
  induction 1 as [|x y a b H _ IH]; intros G; [reflexivity|]. cbn [rflat_map]. rewrite (G x y (or_introl eq_refl) H), IH by (intros; apply G; [right; assumption|assumption]).
  destruct (f x) as [q|]; [|reflexivity]. cbn [rmap rbind]. destruct (rflat_map f a) as [w|]; [|reflexivity]. cbn [rmap rbind]. rewrite map_app. reflexivity.
Qed.
Lemma once_pairs (R : spanned -> spanned -> Prop) a b : (forall x x' y y', R x x' -> R y y' -> spanned_eqb x y = spanned_eqb x' y') -> Forall2 R a b -> forall p q, Forall2 R p q -> Forall2 R (once p a) (once q b).
Proof.
  intros HR. induction 1 as [|x y a b H _ IH]; intros p q K; [constructor|]. cbn [once].
  assert (existsb (spanned_eqb x) p = existsb (spanned_eqb y) q) as -> by (clear - HR H K; induction K as [|v w p q Hvw _ IH]; [reflexivity|]; cbn [existsb]; rewrite IH, (HR _ _ _ _ H Hvw); reflexivity).
  destruct (existsb (spanned_eqb y) q); [apply IH; exact K|]. constructor; [exact H|]. apply IH. apply Forall2_app; [exact K|repeat constructor; exact H].
Qed.

Section After.
Variables (e : env) (s s' : server) (uri src src' : text) (d d' : doc) (pr pr' : parser_result) (nm : occurrence -> text) (edits : list text_edit).
Notation u := (e_u e).
Notation l := (recorded (pr_stmts pr) (pr_tokens pr)).
Notation l' := (recorded (pr_stmts pr') (pr_tokens pr')).
Notation T := (counterparts (pr_tokens pr) (pr_tokens pr')).
Hypothesis P1 : plain_document src.
Hypothesis P2 : plain_document src'.
Hypothesis Ho : opened e s uri src d.
Hypothesis Ho' : opened e s' uri src' d'.
Hypothesis Hp : parse_from_str u src = Val pr.
Hypothesis Hp' : parse_from_str u src' = Val pr'.
Hypothesis BA : bound_alike pr pr'.
Hypothesis Hsim : Forall2 (fun a b => similar (fst a) (fst b)) (pr_tokens pr) (pr_tokens pr').
Hypothesis S : Forall2 (same_stmt T) (pr_stmts pr) (pr_stmts pr').
Hypothesis F : Forall2 (follows src src' edits) (pr_tokens pr) (pr_tokens pr').
Hypothesis Hnm : forall x x', In (x, x') (combine l l') -> o_name x' = nm x.
Notation ix1 := (ix e s uri src d pr Ho Hp).
Notation ix2 := (ix' e s' uri src' d' pr' Ho' Hp').
Notation renames_ k := (renames pr pr' k).
Notation in_tree1 := (in_tree e s uri src d pr Ho Hp).
Notation rng_ := (rng src src' pr pr' edits F).
Notation after := (new_name src l nm).

(** names at ranges *)
Lemma occurrence_pair x a b : In x l -> T a b -> occ_token x = a -> exists x', In (x, x') (combine l l') /\ occ_token x' = b.
Proof. intros Hx Ht E. pose proof BA as [[Hoc _] _]. destruct (there _ _ _ _ _ _ _ ix1 ix2 Hoc x _ _ Ht Hx (f_equal snd E)) as (x' & H & _ & _ & _ & _ & _ & Eb). eauto. Qed.
Lemma name_at_range x b n m : In x l -> T (occ_token x) b -> token_name (fst b) = Some n -> after (lsp_range src (o_span x)) m = n.
Proof.
  intros Hx Ht En. unfold new_name. destruct (find _ l) as [y|] eqn:E.
  - apply find_some in E as [Hy E]. apply range_eqb_eq in E.
    pose proof (recorded_range e src d pr ix1 x Hx) as [B1 B2]. pose proof (recorded_range e src d pr ix1 y Hy) as [B3 B4].
    assert (o_span y = snd (occ_token x)) as Es.
    { inversion E as [[E1 E2]]. apply (position_inj src P1) in E1; [|lia|lia]. apply (position_inj src P1) in E2; [|lia|lia]. cbn [occ_token snd]. destruct (o_span x) as [x1 x2], (o_span y) as [y1 y2]. cbn [sp_start sp_end] in *. congruence. }
    pose proof BA as [[Hoc _] _]. destruct (there _ _ _ _ _ _ _ ix1 ix2 Hoc y _ _ Ht Hy Es) as (y' & H & _ & _ & _ & _ & _ & Eb).
    rewrite <- (Hnm _ _ H). pose proof (occ_token_name y') as N. rewrite Eb in N. congruence.
  - exfalso. pose proof (find_none _ _ E _ Hx) as G. cbn beta in G. assert (range_eqb (lsp_range src (o_span x)) (lsp_range src (o_span x)) = true) as K by (apply range_eqb_eq; reflexivity). congruence.
Qed.

(** function definitions *)
Lemma defs_pairs : Forall2 (fun f g => same_sig T (fst f) (fst g) /\ same_body T (snd f) (snd g)) (function_defs (pr_stmts pr)) (function_defs (pr_stmts pr')) /\
  Forall2 (ranges T) (flat_map func_ranges (pr_stmts pr)) (flat_map func_ranges (pr_stmts pr')).
Proof.
  unfold function_defs. revert S. generalize T as Q. generalize (pr_stmts pr) as a, (pr_stmts pr') as b. clear. intros a b Q H. induction H as [|y z a b Hyz _ [IH1 IH2]]; [split; constructor|]. cbn [flat_map].
  destruct y as [| |kw sg bd| |], z as [| |kw' sg' bd'| |]; try contradiction Hyz; try (split; [exact IH1|exact IH2]).
  cbn in Hyz. destruct Hyz as (K1 & K2 & K3). cbn [app func_ranges]. split; constructor; try assumption; [split; assumption|].
  destruct K3 as (_ & K3 & _). split; eexists _, _; [split; [exact K1|split; reflexivity]|split; [exact K3|split; reflexivity]].
Qed.
Definition def_pair (f g : func_sig * func_body) : Prop :=
  In (occ Def KFunction None (fs_name (fst f))) l /\ T (tglobal (fs_name (fst f))) (tglobal (fs_name (fst g))).
Lemma def_pairs : Forall2 def_pair (function_defs (pr_stmts pr)) (function_defs (pr_stmts pr')).
Proof.
  destruct defs_pairs as [H _]. apply Forall2_nth_error_iff in H as [H1 H2]. apply Forall2_nth_error_iff. split; [exact H1|]. intros id f g Hf Hg. destruct (H2 _ _ _ Hf Hg) as [(_ & _ & K & _) _]. split; [|exact K].
  apply in_tree1. apply (tree_of_def _ _ 0 id f Hf). left. reflexivity.
Qed.
Lemma def_renames f g : def_pair f g -> renames_ KFunction (fst (fs_name (fst f))) (fst (fs_name (fst g))).
Proof. intros [H1 H2]. exact (renames_at e s s' uri src src' d d' pr pr' Ho Ho' Hp Hp' BA KFunction _ _ _ _ H1 eq_refl eq_refl eq_refl H2 eq_refl). Qed.
Lemma def_named f g f2 g2 : def_pair f g -> def_pair f2 g2 -> text_eqb (fst (fs_name (fst f))) (fst (fs_name (fst f2))) = text_eqb (fst (fs_name (fst g))) (fst (fs_name (fst g2))).
Proof. intros H1 H2. apply (eqb_linked (renames_ KFunction)); [apply (renames_one pr pr' BA)|apply def_renames; assumption..]. Qed.
Lemma def_range f g m : def_pair f g -> lsp_range src' (snd (fs_name (fst g))) = carried_range edits (lsp_range src (snd (fs_name (fst f)))) /\
  after (lsp_range src (snd (fs_name (fst f)))) m = fst (fs_name (fst g)).
Proof.
  intros [H1 H2]. split; [exact (rng_ _ _ H2)|]. exact (name_at_range (occ Def KFunction None (fs_name (fst f))) (tglobal (fs_name (fst g))) _ m H1 H2 eq_refl).
Qed.

(** lenses *)
Lemma once_pair f g : def_pair f g -> defined_once (pr_stmts pr) f = defined_once (pr_stmts pr') g.
Proof.
  intros H. unfold defined_once. f_equal.
  assert (K : forall a b, Forall2 def_pair a b -> length (filter (same_name f) a) = length (filter (same_name g) b)); [|exact (K _ _ def_pairs)].
  induction 1 as [|x y a b Hxy _ IH]; [reflexivity|]. cbn [filter]. assert (same_name f x = same_name g y) as -> by (unfold same_name; apply def_named; assumption). destruct (same_name g y); cbn [length]; rewrite IH; reflexivity.
Qed.
Lemma after_lenses : visits_all (e_ord e) -> exists a b, code_lens e s uri = Some a /\ code_lens e s' uri = Some b /\ Permutation b (map (carried_lens src uri l nm edits) a).
Proof.
  intros Hv. destruct (code_lenses _ _ _ _ _ P1 Hv Ho) as (a & E & Ha). destruct (code_lenses _ _ _ _ _ P2 Hv Ho') as (b & E' & Hb). exists a, b. split; [exact E|]. split; [exact E'|].
  destruct (opened_here _ _ _ _ _ _ Ho Hp) as (_ & _ & E1 & _). destruct (opened_here _ _ _ _ _ _ Ho' Hp') as (_ & _ & E2 & _). rewrite E1 in Ha. rewrite E2 in Hb.
  rewrite Hb, Ha, map_map.
  assert (K : forall p q, Forall2 def_pair p q -> map (function_lens src' uri) (filter (defined_once (pr_stmts pr')) q) = map (fun x => carried_lens src uri l nm edits (function_lens src uri x)) (filter (defined_once (pr_stmts pr)) p)); [|rewrite (K _ _ def_pairs); reflexivity].
  induction 1 as [|x y p q Hxy _ IH]; [reflexivity|]. cbn [filter]. rewrite (once_pair _ _ Hxy). destruct (defined_once (pr_stmts pr') y); [|exact IH]. cbn [map]. rewrite IH. f_equal.
  unfold carried_lens, function_lens. cbn [cl_range cl_command cl_args]. destruct (def_range _ _ (fst (fs_name (fst x))) Hxy) as [-> ->]. reflexivity.
Qed.

(** graphs *)
Notation lab := (new_label pr pr').
Definition label_pair (id : nat) (x y : spanned) : Prop :=
  T (tident x) (tident y) /\ exists z, In z l /\ o_kind z = KLabel /\ o_body z = Some id /\ occ_token z = tident x.
Lemma label_named id x y : label_pair id x y -> fst y = lab id (fst x).
Proof.
  intros (Ht & z & Hz & K & B & E). destruct (occurrence_pair z _ _ Hz Ht E) as (z' & Hp2 & E').
  pose proof (label_renamed pr pr' BA id z z' Hp2 K B) as N. pose proof (occ_token_name z) as N1. rewrite E in N1. injection N1 as N1. pose proof (occ_token_name z') as N2. rewrite E' in N2. injection N2 as N2. congruence.
Qed.
Definition instr_pair (id : nat) (i j : instruction) : Prop := is_branching i = is_branching j /\ Forall2 (label_pair id) (i_refs i) (i_refs j).
Definition block_pair (id : nat) (b c : basic_block) : Prop :=
  both (label_pair id) (bb_label b) (bb_label c) /\ both (fun a a' => T (tp (ch ":") a) (tp (ch ":") a')) (bb_label_comma b) (bb_label_comma c) /\ Forall2 (instr_pair id) (bb_instrs b) (bb_instrs c).
Lemma branching_alike i j : same_instr T i j -> is_branching i = is_branching j.
Proof.
  intros (_ & M & _). apply (combine_forall2 _ _ _ Hsim) in M. unfold tident in M. cbn [fst] in M. apply Bool.eq_iff_eq_true. rewrite !branching_iff. destruct M as [M|[N1 N2]].
  - unfold branch, mnemonic. injection M as ->. reflexivity.
  - assert (K : forall k, branch k -> needs_targets k) by (intros k [H|H]; [left; exact H|right; left; exact H]).
    split; intros H; [destruct (plain_mnemonic i N1 (K _ H))|destruct (plain_mnemonic j N2 (K _ H))].
Qed.
Lemma blocks_pairs id f g : nth_error (function_defs (pr_stmts pr)) id = Some f -> nth_error (function_defs (pr_stmts pr')) id = Some g -> Forall2 (block_pair id) (fb_blocks (snd f)) (fb_blocks (snd g)).
Proof.
  intros Hf Hg. destruct defs_pairs as [H _]. apply Forall2_nth_error_iff in H as [_ H]. destruct (H _ _ _ Hf Hg) as [_ (_ & _ & HB)].
  eapply forall2_impl; [|exact (forall2_split _ _ _ HB)]. intros b c ((L & C & I & _) & Hb & _).
  assert (K : forall n, In n (block_occs id b) -> In n l).
  { intros n Hn. apply in_tree1. apply (tree_of_def _ _ 0 id f Hf). right. apply in_flat_map. exists b. split; assumption. }
  split; [|split; [exact C|]].
  - destruct (bb_label b) as [x|] eqn:Eb, (bb_label c) as [y|]; try contradiction L; [|exact I0 || exact Logic.I]. split; [exact L|]. exists (occ Def KLabel (Some id) x). split; [|repeat split].
    apply K. unfold block_occs. rewrite Eb. left. reflexivity.
  - eapply forall2_impl; [|exact (forall2_split _ _ _ I)]. intros i j (Hij & Hi & _). split; [apply branching_alike; exact Hij|]. destruct Hij as (_ & _ & R & _).
    eapply forall2_impl; [|exact (forall2_split _ _ _ R)]. intros x y (Hxy & Hx & _). split; [exact Hxy|]. exists (occ Use KLabel (Some id) x). split; [|repeat split].
    apply K. unfold block_occs. apply in_or_app. right. apply in_flat_map. exists i. split; [exact Hi|]. unfold instr_occs. apply in_or_app. right. apply in_map. exact Hx.
Qed.
Lemma edges_after id a b : Forall2 (block_pair id) a b -> cfg_edges b = map (fun x => (lab id (fst x), lab id (snd x))) (cfg_edges a).
Proof.
  induction 1 as [|x y a b (L & _ & I) _ IH]; [reflexivity|]. unfold cfg_edges in *. cbn [flat_map]. rewrite map_app, <- IH. f_equal. unfold bb_edges.
  destruct (bb_label x) as [m|], (bb_label y) as [k|]; try contradiction L.
  - cbn [both] in L. induction I as [|i j p q [E R] _ IHI]; [reflexivity|]. cbn [flat_map]. rewrite map_app, <- IHI. f_equal. rewrite <- E. destruct (is_branching i); [|reflexivity].
    induction R as [|v w p' q' Hvw _ IHR]; [reflexivity|]. cbn [map fst snd]. rewrite IHR, (label_named _ _ _ L), (label_named _ _ _ Hvw). reflexivity.
  - assert (Z : forall p : list instruction, flat_map (fun _ => @nil (text * text)) p = []) by (induction p; [reflexivity|assumption]). rewrite !Z. reflexivity.
Qed.

(** function bodies *)
Definition body_pair (id : nat) (f g : function_body) : Prop := exists fd gd,
  nth_error (function_defs (pr_stmts pr)) id = Some fd /\ nth_error (function_defs (pr_stmts pr')) id = Some gd /\
  def_pair fd gd /\ fb_name f = fs_name (fst fd) /\ fb_name g = fs_name (fst gd) /\ ranges T (complete_range f) (complete_range g) /\ Forall2 (block_pair id) (basic_blocks f) (basic_blocks g) /\
  (forall t, alookup t (incoming f) = match incoming_labels (basic_blocks f) t with [] => None | k => Some k end) /\
  (forall t, alookup t (incoming g) = match incoming_labels (basic_blocks g) t with [] => None | k => Some k end).
Lemma body_pairs : length (function_bodies (doc_index d)) = length (function_bodies (doc_index d')) /\
  forall id f g, nth_error (function_bodies (doc_index d)) id = Some f -> nth_error (function_bodies (doc_index d')) id = Some g -> body_pair id f g.
Proof.
  destruct defs_pairs as [Hd0 Hr]. pose proof (proj1 (Forall2_nth_error_iff _ _ _) def_pairs) as [Ld Hd1]. apply Forall2_nth_error_iff in Hr as [Lr Hr].
  destruct (bodies_of _ _ _ _ ix1) as [C1 _]. destruct (bodies_of _ _ _ _ ix2) as [C2 _]. split; [rewrite C1, C2; exact Ld|]. intros id f g Hf Hg.
  assert (A : forall u0 src0 pr0 ix0 id0 fb, indexed u0 src0 pr0 ix0 -> nth_error (function_bodies ix0) id0 = Some fb -> exists f, nth_error (function_defs (pr_stmts pr0)) id0 = Some f /\ fb_name fb = fs_name (fst f) /\ basic_blocks fb = fb_blocks (snd f) /\ nth_error (flat_map func_ranges (pr_stmts pr0)) id0 = Some (complete_range fb) /\
    numbers (mentions_label (snd f)) (length (labels fb)) /\ forall t, alookup t (incoming fb) = match incoming_labels (fb_blocks (snd f)) t with [] => None | l => Some l end).
  { intros u0 src0 [t0 ss0 e0] ix0 id0 fb H1 H2. exact (bodies_at _ _ _ _ _ H1 _ _ H2). }
  destruct (A _ _ _ _ _ _ ix1 Hf) as (y & Y1 & Y2 & Y3 & Y4 & _ & Y5). destruct (A _ _ _ _ _ _ ix2 Hg) as (z & Z1 & Z2 & Z3 & Z4 & _ & Z5).
  exists y, z. split; [exact Y1|]. split; [exact Z1|]. split; [exact (Hd1 _ _ _ Y1 Z1)|]. split; [exact Y2|]. split; [exact Z2|]. split; [exact (Hr _ _ _ Y4 Z4)|]. rewrite Y3, Z3. split; [exact (blocks_pairs _ _ _ Y1 Z1)|]. split; assumption.
Qed.
Lemma ask_eq s0 d0 m : get_doc s0 uri = Some d0 -> execute_command s0 (str "visualize-cfg") [JStr uri; JStr m] =
  match find (fun b => text_eqb (fst (fb_name b)) m) (function_bodies (doc_index d0)) with
  | None => RpcError (str "function `" ++ m ++ str "` not found")
  | Some b => Reply (mkShow (str "CFG for " ++ m) (create_cfg_dot_visualization b))
  end.
Proof. intros G. unfold execute_command. rewrite text_eqb_refl, G. reflexivity. Qed.
Lemma after_graph x g : In x l -> o_kind x = KFunction -> execute_command s (str "visualize-cfg") [JStr uri; JStr (o_name x)] = Reply g ->
  exists g' id f items, execute_command s' (str "visualize-cfg") [JStr uri; JStr (nm x)] = Reply g' /\ sg_title g' = str "CFG for " ++ nm x /\ first_named (pr_stmts pr) (o_name x) id /\
    (forall y, In y l -> o_kind y = KLabel -> o_body y = Some id -> f (o_name y) = nm y) /\ dot_read (sg_dot g) = Some items /\ dot_read (sg_dot g') = Some (map (with_labels f) items).
Proof.
  intros Hx Kx. destruct (opened_here _ _ _ _ _ _ Ho Hp) as (_ & _ & _ & G1). destruct (opened_here _ _ _ _ _ _ Ho' Hp') as (_ & _ & _ & G2). rewrite (ask_eq s d _ G1), (ask_eq s' d' _ G2).
  pose proof BA as [[Hoc _] _]. destruct (forall2_pair _ _ _ Hoc) as [G _]. destruct (G _ Hx) as (x' & Px). 
  assert (renames_ KFunction (o_name x) (nm x)) as Rx. { exists x, x'. split; [exact Px|]. split; [exact Kx|]. split; [|split; [reflexivity|symmetry; apply Hnm; exact Px]]. apply (global_body e src d pr ix1); [exact Hx|right; exact Kx]. }
  destruct body_pairs as [HL HB]. destruct (find _ (function_bodies (doc_index d))) as [fb|] eqn:Ef; [|discriminate]. intros Eg. injection Eg as <-.
  assert (Ag : forall i a b, nth_error (function_bodies (doc_index d)) i = Some a -> nth_error (function_bodies (doc_index d')) i = Some b -> text_eqb (fst (fb_name a)) (o_name x) = text_eqb (fst (fb_name b)) (nm x)).
  { intros i a b Ha Hb. destruct (HB _ _ _ Ha Hb) as (fd & gd & _ & _ & D & -> & -> & _). apply (eqb_linked (renames_ KFunction)); [apply (renames_one pr pr' BA)|apply def_renames; exact D|exact Rx]. }
  destruct (find_index _ (fun b => text_eqb (fst (fb_name b)) (nm x)) _ _ HL Ag _ Ef) as (id & fb' & N1 & N1' & E' & N2 & N3). rewrite E'.
  destruct (HB _ _ _ N1 N1') as (fd & gd & D1 & D2 & D & E1 & E2 & _ & B & _). eexists _, id, (lab id), _. split; [reflexivity|]. cbn [sg_title sg_dot]. split; [reflexivity|]. split; [|split; [|split]].
  - split; [exists fd; split; [exact D1|]|]; [rewrite <- E1; apply text_eqb_eq; exact N2|]. intros j h Hj Hh.
    assert (exists fj, nth_error (function_bodies (doc_index d)) j = Some fj) as (fj & Hfj). { destruct (nth_error (function_bodies (doc_index d)) j) as [fj|] eqn:G0; [eauto|]. apply nth_error_None in G0. assert (id < length (function_bodies (doc_index d))) by (apply nth_error_Some; congruence). lia. }
    assert (exists gj, nth_error (function_bodies (doc_index d')) j = Some gj) as (gj & Hgj). { destruct (nth_error (function_bodies (doc_index d')) j) as [gj|] eqn:G0; [eauto|]. apply nth_error_None in G0. assert (j < length (function_bodies (doc_index d))) by (apply nth_error_Some; congruence). lia. }
    destruct (HB _ _ _ Hfj Hgj) as (h' & _ & D1' & _ & _ & E1' & _). assert (h' = h) as -> by congruence. pose proof (N3 _ _ Hj Hfj) as N. rewrite E1' in N. intros G0. apply text_eqb_eq in G0. congruence.
  - intros y Hy Ky By. destruct (G _ Hy) as (y' & Py). rewrite <- (Hnm _ _ Py). symmetry. exact (label_renamed pr pr' BA id y y' Py Ky By).
  - exact (dot_read_edges _ _ _ _ _ ix1 (nth_error_In _ _ N1)).
  - rewrite (dot_read_edges _ _ _ _ _ ix2 (nth_error_In _ _ N1')), (edges_after id _ _ B), !map_map. reflexivity.
Qed.

(** hints *)
Hypothesis Hroots : roots s' = roots s.
Notation hint_after := (carried_hint src uri l nm edits).
Lemma inside_pair a b : T a b -> inside src (snd a) /\ inside src' (snd b).
Proof.
  intros H. destruct (indexed_ok _ _ _ _ ix1) as (_ & _ & Hsp & _). destruct (indexed_ok _ _ _ _ ix2) as (_ & _ & Hsp' & _).
  pose proof (spans_in_each _ _ _ _ Hsp (in_combine_l _ _ _ _ H)) as B1. pose proof (spans_in_each _ _ _ _ Hsp' (in_combine_r _ _ _ _ H)) as B2. split; (split; lia).
Qed.
Lemma range_pair a b : T a b -> range_to_lsp src (snd a) = Some (lsp_range src (snd a)) /\ range_to_lsp src' (snd b) = Some (carried_range edits (lsp_range src (snd a))).
Proof. intros H. destruct (inside_pair _ _ H) as [[A B] [C D]]. rewrite (plain_range src _ P1 A B), (plain_range src' _ P2 C D), (rng_ _ _ H). split; reflexivity. Qed.
Lemma end_pair a b : T a b -> offset_to_lsp_pos src (sp_end (snd a)) = Some (lsp_position src (sp_end (snd a))) /\ offset_to_lsp_pos src' (sp_end (snd b)) = Some (carried edits (lsp_position src (sp_end (snd a)))).
Proof. intros H. destruct (inside_pair _ _ H) as [[A B] [C D]]. rewrite (plain_pos src _ P1 B), (plain_pos src' _ P2 D). destruct (HF src src' pr pr' edits F _ _ H) as [_ ->]. split; reflexivity. Qed.
Lemma label_eq id x x' y y' : label_pair id x x' -> label_pair id y y' -> spanned_eqb x y = spanned_eqb x' y'.
Proof.
  intros (H1 & _) (H2 & _). destruct (indexed_ok _ _ _ _ ix1) as (_ & _ & Hsp & _). destruct (indexed_ok _ _ _ _ ix2) as (_ & _ & Hsp' & _).
  pose proof (spans_in_each _ _ _ _ Hsp (in_combine_l _ _ _ _ H1)) as B1. pose proof (spans_in_each _ _ _ _ Hsp' (in_combine_r _ _ _ _ H1)) as B2. 
  pose proof (spans_in_each _ _ _ _ Hsp (in_combine_l _ _ _ _ H2)) as B3. pose proof (spans_in_each _ _ _ _ Hsp' (in_combine_r _ _ _ _ H2)) as B4. 
  assert (Eq : forall a b : spanned, spanned_eqb a b = true <-> a = b).
  { intros [a sa] [b sb]. unfold spanned_eqb. cbn [fst snd]. rewrite andb_true_iff, text_eqb_eq, span_eqb_eq. split; [intros [-> ->]; reflexivity|intros G; inversion G; auto]. }
  apply Bool.eq_iff_eq_true. rewrite !Eq. destruct (counterparts_order _ _ _ _ _ _ Hsp Hsp' _ _ _ _ H1 H2) as [[E1 E2]|D].
  - destruct x, y, x', y'. unfold tident in E1, E2. cbn [fst snd] in E1, E2. inversion E1. inversion E2. split; reflexivity.
  - cbn [tident snd] in *. split; intros ->; lia.
Qed.
Lemma label_symbol id x y : label_pair id x y -> symbol_in l KLabel (Some id) (fst x).
Proof. intros (_ & z & Hz & K & B & E). exists z. repeat (split; [assumption|]). pose proof (occ_token_name z) as N. rewrite E in N. injection N as N. symmetry. exact N. Qed.
Lemma label_text id x x' y y' : label_pair id x x' -> label_pair id y y' -> text_eqb (fst x) (fst y) = text_eqb (fst x') (fst y').
Proof.
  intros H1 H2. apply Bool.eq_iff_eq_true. rewrite !text_eqb_eq, (label_named _ _ _ H1), (label_named _ _ _ H2). split; [intros ->; reflexivity|].
  apply (new_label_inj pr pr' BA); eapply label_symbol; eassumption.
Qed.
Lemma incoming_pairs id k k' a b : label_pair id k k' -> Forall2 (block_pair id) a b -> Forall2 (label_pair id) (incoming_labels a (fst k)) (incoming_labels b (fst k')).
Proof.
  intros Hk H. unfold incoming_labels. apply once_pairs; [intros; eapply label_eq; eassumption| |constructor].
  induction H as [|x y a b (L & _ & I) _ IH]; [constructor|]. cbn [flat_map]. apply Forall2_app; [|exact IH]. unfold branches_to. destruct (bb_label x) as [m|], (bb_label y) as [m'|]; try contradiction L; [|constructor]. cbn [both] in L.
  clear IH. induction I as [|i j p q [E R] _ IHI]; [constructor|]. cbn [flat_map]. apply Forall2_app; [|exact IHI]. rewrite <- E. destruct (is_branching i); [|constructor].
  induction R as [|v w p' q' Hvw _ IHR]; [constructor|]. cbn [flat_map]. apply Forall2_app; [|exact IHR]. rewrite (label_text _ _ _ _ _ Hk Hvw). destruct (text_eqb (fst k') (fst w)); repeat constructor; exact L || apply L.
Qed.
Lemma parts_after id a b : Forall2 (label_pair id) a b -> forall i, incoming_parts src' uri i b = map (carried_part src uri l nm edits) (incoming_parts src uri i a).
Proof.
  induction 1 as [|x y a b H _ IH]; intros i; [reflexivity|]. cbn [incoming_parts]. destruct H as (Ht & z & Hz & _ & _ & E). destruct (range_pair _ _ Ht) as [R1 R2]. cbn [tident snd] in R1, R2. rewrite R1, R2, map_app, IH. f_equal. cbn [map].
  unfold carried_part at 2. cbn [lp_location loc_range lp_value lp_tooltip]. f_equal. f_equal. f_equal.
  - symmetry. assert (o_span z = snd x) as <- by exact (f_equal snd E). apply (name_at_range z (tident y)); [exact Hz|rewrite E; exact Ht|reflexivity].
  - unfold carried_location. cbn [loc_uri loc_range]. rewrite text_eqb_refl. reflexivity.
Qed.
Lemma incoming_hints_after : incoming_hints d' uri = map hint_after (incoming_hints d uri).
Proof.
  destruct (opened_here _ _ _ _ _ _ Ho Hp) as (_ & R1 & _ & _). destruct (opened_here _ _ _ _ _ _ Ho' Hp') as (_ & R2 & _ & _). unfold incoming_hints. rewrite R1, R2.
  assert (Forall2 (fun f g => exists id, body_pair id f g) (function_bodies (doc_index d)) (function_bodies (doc_index d'))) as HB.
  { destruct body_pairs as [HL H]. apply Forall2_nth_error_iff. split; [exact HL|]. intros id f g Hf Hg. exists id. exact (H _ _ _ Hf Hg). }
  apply (flat_two _ _ _ _ _ _ HB). intros f g _ (id & fd & gd & _ & _ & _ & _ & _ & _ & B & I1 & I2). apply (filter_map_two _ _ _ _ _ _ B). intros x y _ (L & C & _). unfold incoming_hint.
  destruct (bb_label x) as [k|], (bb_label y) as [k'|]; try contradiction L; [|reflexivity]. cbn [both] in L. cbn [obind]. rewrite I1, I2. pose proof (incoming_pairs id k k' _ _ L B) as Q.
  destruct Q as [|v w p q Hvw Hpq]; [reflexivity|]. cbn [obind]. destruct (bb_label_comma x) as [c|], (bb_label_comma y) as [c'|]; try contradiction C; [|reflexivity]. cbn [both obind] in C |- *.
  destruct (end_pair _ _ C) as [E1 E2]. cbn [tp snd] in E1, E2. rewrite E1, E2. cbn [obind option_map]. f_equal. unfold carried_hint. cbn [ih_pos ih_parts]. f_equal. apply (parts_after id). constructor; assumption.
Qed.
Lemma end_hints_after : filter_map (end_hint d' uri) (function_bodies (doc_index d')) = map hint_after (filter_map (end_hint d uri) (function_bodies (doc_index d))).
Proof.
  destruct (opened_here _ _ _ _ _ _ Ho Hp) as (_ & R1 & _ & _). destruct (opened_here _ _ _ _ _ _ Ho' Hp') as (_ & R2 & _ & _).
  assert (Forall2 (fun f g => exists id, body_pair id f g) (function_bodies (doc_index d)) (function_bodies (doc_index d'))) as HB.
  { destruct body_pairs as [HL H]. apply Forall2_nth_error_iff. split; [exact HL|]. intros id f g Hf Hg. exists id. exact (H _ _ _ Hf Hg). }
  apply (filter_map_two _ _ _ _ _ _ HB). intros f g _ (id & fd & gd & _ & _ & D & N1 & N2 & (_ & a & b & Hab & E1 & E2) & _). unfold end_hint. rewrite R1, R2, E1, E2, N1, N2.
  destruct (end_pair _ _ Hab) as [-> ->]. cbn [obind]. destruct (range_pair _ _ (proj2 D)) as [Q1 Q2]. cbn [tglobal snd] in Q1, Q2. rewrite Q1, Q2. cbn [obind option_map]. f_equal. unfold carried_hint. cbn [ih_pos ih_parts map]. f_equal. f_equal.
  unfold carried_part. cbn [lp_location loc_range lp_value lp_tooltip]. destruct (def_range _ _ (fst (fs_name (fst fd))) D) as [_ ->]. f_equal. unfold carried_location. cbn [loc_uri loc_range]. rewrite text_eqb_refl. reflexivity.
Qed.

(** values of annotations *)
Variable ren : occurrence -> text -> Prop.
Hypothesis Hrep : replaces src ren l edits.
Hypothesis Hg : regapped u src edits 0 0 src src' (pr_tokens pr) (pr_tokens pr').
Hypothesis Hval : values_kept (pr_stmts pr) l (fun x => exists y, ren x y).
Lemma value_slice st st' n a b n' a' b' : In st (pr_stmts pr) -> In st' (pr_stmts pr') -> same_stmt T st st' -> value_range st = Some (n, a, b) -> value_range st' = Some (n', a', b') -> byte_slice src' a' b' = byte_slice src a b.
Proof.
  intros Hst Hst' Hs V V'. destruct (indexed_ok _ _ _ _ ix1) as (_ & _ & Hsp & Hsub & _). destruct (indexed_ok _ _ _ _ ix2) as (_ & _ & Hsp' & Hsub' & _).
  destruct (value_range_bounds _ _ _ _ _ _ _ Hsp Hsub Hst V) as [B1 B2]. destruct (value_range_bounds _ _ _ _ _ _ _ Hsp' Hsub' Hst' V') as [B3 B4].
  rewrite (byte_slice_ascii src a b (proj1 P1) B1 B2), (byte_slice_ascii src' a' b' (proj1 P2) B3 B4). f_equal. unfold text_at. cbn [sp_start sp_end].
  pose proof (fun x => Hval _ _ _ _ x Hst V) as Hk.
  destruct st as [| | | |v q]; try discriminate V. destruct st' as [| | | |v' q']; try contradiction Hs. cbn in Hs. destruct Hs as [_ Hq]. destruct Hq as [|[t0 sp] [t0' sp'] q q' H0 Hq]; [discriminate V|].
  cbn [value_range] in V, V'. assert (a = sp_start sp) as -> by congruence. assert (a' = sp_start sp') as -> by congruence.
  assert (b = sp_end (snd (last ((t0, sp) :: q) (t0, sp)))) as Eb by congruence. assert (b' = sp_end (snd (last ((t0', sp') :: q') (t0', sp')))) as Eb' by congruence. clear V V'.
  assert (subseq ((t0, sp) :: q) (pr_tokens pr)) as Hd.
  { eapply subseq_trans; [|exact Hsub]. apply in_split in Hst as (l1 & l2 & ->). rewrite flat_map_app. apply subseq_app_l. cbn [flat_map]. apply subseq_app_r. cbn [stmt_tokens]. apply sub_skip. apply subseq_refl. }
  pose proof (last_strict q _ _ _ (t0, sp) (spans_in_sub _ _ Hd _ _ Hsp)) as Hlt.
  pose proof (last_pairs T _ _ (Forall2_cons _ _ H0 Hq) _ _ H0) as HT. 
  assert (exists z z' : stoken, b = sp_end (snd z) /\ b' = sp_end (snd z') /\ T z z' /\ sp_start (snd (t0, sp)) < sp_end (snd z)) as (z & z' & -> & -> & HT2 & Hlt2) by exact (ex_intro _ _ (ex_intro _ _ (conj Eb (conj Eb' (conj HT Hlt))))).
  destruct (regapped_slice _ _ _ _ _ _ _ _ _ Hg _ _ _ _ H0 HT2 Hlt2) as [E1 E2].
  - intros c w w' Hc C1 C2 [_ [[-> _]|(ed & Hed & Er & _)]]; [reflexivity|]. exfalso. destruct Hrep as (He & _). apply He in Hed as (x & y & Hx & Hr & ->). cbn [te_range] in Er.
    pose proof (recorded_range e src d pr ix1 x Hx) as [X1 X2]. pose proof (spans_in_each _ _ _ _ Hsp Hc) as Bc. assert (sp_start (o_span x) = sp_start (snd c)) as Es.
    { inversion Er as [[K1 K2]]. apply (position_inj src P1) in K1; lia. }
    destruct (Hk x Hx (ex_intro _ y Hr)); cbn [snd] in *; lia.
  - cbn [snd] in E1, E2. rewrite !Nat.sub_0_r in E2. rewrite E1. exact E2.
Qed.
Lemma annotation_pair st st' : In st (pr_stmts pr) -> In st' (pr_stmts pr') -> same_stmt T st st' -> linked (renames_ KDbgAnnotation) (renames_ KFunction) st st' ->
  forall n n', renames_ KDbgAnnotation n n' -> forall acc, ann_step src' n' acc st' = ann_step src n acc st.
Proof.
  intros Hst Hst' Hs Hl n n' Hn acc. pose proof (fun a b c a' b' c' => value_slice st st' a b c a' b' c' Hst Hst' Hs) as Hv. unfold ann_step.
  destruct (value_range st) as [[[m a] b]|] eqn:V, (value_range st') as [[[m' a'] b']|] eqn:V'.
  - rewrite (Hv _ _ _ _ _ _ eq_refl eq_refl). assert (text_eqb n' m' = text_eqb n m) as ->; [|reflexivity]. symmetry. apply (eqb_linked (renames_ KDbgAnnotation)); [apply (renames_one pr pr' BA)|exact Hn|].
    destruct st as [| | | |v [|[? ?] q]]; try discriminate V. destruct st' as [| | | |v' [|[? ?] q']]; try discriminate V'. cbn [value_range] in V, V'. cbn [linked] in Hl. assert (m = fst v) as -> by congruence. assert (m' = fst v') as -> by congruence. apply Hl.
  - exfalso. destruct st as [| | | |v [|[? ?] q]]; try discriminate V. destruct st' as [| | | |v' [|[? ?] q']]; try contradiction Hs; try discriminate V'. destruct Hs as [_ Hs]. inversion Hs.
  - exfalso. destruct st' as [| | | |v' [|[? ?] q']]; try discriminate V'. destruct st as [| | | |v [|[? ?] q]]; try contradiction Hs; try discriminate V. destruct Hs as [_ Hs]. inversion Hs.
  - reflexivity.
Qed.
Lemma values_after n n' : renames_ KDbgAnnotation n n' -> ann_value src' (pr_stmts pr') n' = ann_value src (pr_stmts pr) n.
Proof.
  intros Hn. rewrite !ann_fold. pose proof (linked_stmts e s s' uri src src' d d' pr pr' Ho Ho' Hp Hp' BA Hsim S) as HL.
  assert (K : forall a b, Forall2 (fun x y => In x (pr_stmts pr) /\ In y (pr_stmts pr') /\ same_stmt T x y /\ linked (renames_ KDbgAnnotation) (renames_ KFunction) x y) a b -> forall acc, fold_left (ann_step src' n') b acc = fold_left (ann_step src n) a acc).
  { induction 1 as [|x y a b (H1 & H2 & H3 & H4) _ IH]; intros acc; [reflexivity|]. cbn [fold_left]. rewrite (annotation_pair _ _ H1 H2 H3 H4 _ _ Hn). apply IH. }
  apply K. apply Forall2_nth_error_iff. apply Forall2_nth_error_iff in HL as [HL1 HL2]. pose proof (proj1 (Forall2_nth_error_iff _ _ _) S) as [_ S2]. split; [exact HL1|]. intros i x y Hx Hy.
  split; [eapply nth_error_In; exact Hx|]. split; [eapply nth_error_In; exact Hy|]. split; [exact (S2 _ _ _ Hx Hy)|exact (HL2 _ _ _ Hx Hy)].
Qed.
Lemma hint_carried disp pos frames : inlay_hint_for_backtrace u disp (carried edits pos) frames = rmap hint_after (inlay_hint_for_backtrace u disp pos frames).
Proof.
  unfold inlay_hint_for_backtrace. destruct (identify_relevant_frames frames) as [i|]; [|cbn [rbind]; destruct (backtrace_json_to_md u disp frames); reflexivity].
  destruct (nth_error frames i) as [f|]; [|reflexivity]. destruct (shorten_name (f_symbol f) 50) as [sym|]; [|reflexivity]. cbn [rbind]. destruct (format_frame_as_md u disp f) as [tip|]; [|reflexivity]. cbn [rbind].
  destruct (backtrace_json_to_md u disp frames); reflexivity.
Qed.
Lemma dbg_token i r : In i (instructions (pr_stmts pr)) -> i_dbg i = Some r -> In (tdbg r) (pr_tokens pr).
Proof.
  intros Hi Er. unfold instructions, function_defs in Hi. apply in_flat_map in Hi as ([sig body] & Hd & Hi).
  apply in_flat_map in Hd as (st & Hst & Hd). destruct st as [| |kw sig' body'| |]; try contradiction. destruct Hd as [Hd|[]]. inversion Hd; subst. cbn [snd] in Hi.
  apply in_flat_map in Hi as (bb & Hb & Hi). apply (tree_token_in _ _ _ _ _ Hp Hst). eapply block_tokens_in; [exact Hb|].
  eapply instr_tokens_in; [exact Hi|]. unfold instr_tokens. rewrite !in_app_iff. right. right. right. rewrite Er. left. reflexivity.
Qed.
Lemma backtrace_hints_after : rflat_map (backtrace_hint e s' d') (instructions (pr_stmts pr')) = rmap (map hint_after) (rflat_map (backtrace_hint e s d) (instructions (pr_stmts pr))).
Proof.
  destruct (opened_here _ _ _ _ _ _ Ho Hp) as (_ & R1 & _ & _). destruct (opened_here _ _ _ _ _ _ Ho' Hp') as (_ & R2 & _ & _).
  destruct (indexed_ok _ _ _ _ ix1) as ([_ _ _ _ _ _ _ _ _ V] & _). destruct (indexed_ok _ _ _ _ ix2) as ([_ _ _ _ _ _ _ _ _ V'] & _).
  apply (rflat_pairs _ _ _ _ _ _ (instructions_alike T _ _ S)). intros i j Hi (_ & _ & _ & Hd & _). unfold backtrace_hint. pose proof (fun r => dbg_token i r Hi) as Ht. destruct (i_dbg i) as [r|], (i_dbg j) as [r'|]; try contradiction Hd; [|reflexivity].
  cbn [both] in Hd. cbn [obind]. rewrite V, V', (values_after _ _ (renames_debug e s s' uri src src' d d' pr pr' Ho Ho' Hp Hp' BA r r' (Ht r eq_refl) Hd)).
  destruct (ann_value src (pr_stmts pr) (fst r)) as [v|]; [|reflexivity]. cbn [obind]. destruct (e_json_parse e v) as [jv|]; [|reflexivity]. cbn [obind]. rewrite Hroots.
  destruct (parse_backtrace_from_json _ _ jv) as [[frames|]|]; [|reflexivity|reflexivity]. cbn [rbind]. destruct (end_pair _ _ Hd) as [E1 E2]. cbn [tdbg snd] in E1, E2. rewrite R1, R2, E1, E2, hint_carried.
  destruct (inlay_hint_for_backtrace _ _ _ _); reflexivity.
Qed.
Lemma after_hints : inlay_hint_handler e s' uri = rmap (option_map (map hint_after)) (inlay_hint_handler e s uri).
Proof.
  destruct (opened_here _ _ _ _ _ _ Ho Hp) as (_ & _ & E1 & G1). destruct (opened_here _ _ _ _ _ _ Ho' Hp') as (_ & _ & E2 & G2). unfold inlay_hint_handler. rewrite G1, G2, E1, E2, !instructions_eq, backtrace_hints_after.
  destruct (rflat_map _ _) as [bts|]; [|reflexivity]. cbn [rmap rbind option_map]. rewrite incoming_hints_after, end_hints_after, !map_app. reflexivity.
Qed.
End After.

(** ** After a rename *)
Lemma same_symbolb_iff o x : same_symbolb o x = true <-> same_symbol o x.
Proof. unfold same_symbolb, same_symbol. rewrite !andb_true_iff, text_eqb_eq. destruct (kind_dec (o_kind o) (o_kind x)), (body_dec (o_body o) (o_body x)); intuition congruence. Qed.
Section Rename.
Variables (e : env) (s s' : server) (uri src : text) (d d' : doc) (pr : parser_result) (p : nat) (o : occurrence) (new final : text) (edits : list text_edit).
Notation l := (recorded (pr_stmts pr) (pr_tokens pr)).
Hypothesis Hr : renaming e s uri src d pr p o new final edits.
Hypothesis Ho' : opened e s' uri (patched src edits) d'.
Lemma rename_there : exists pr', parse_from_str (e_u e) (patched src edits) = Val pr' /\ replaces src (renamed o final) l edits /\ bound_alike pr pr' /\
  Forall2 (fun a b => similar (fst a) (fst b)) (pr_tokens pr) (pr_tokens pr') /\ Forall2 (same_stmt (counterparts (pr_tokens pr) (pr_tokens pr'))) (pr_stmts pr) (pr_stmts pr') /\
  Forall2 (follows src (patched src edits) edits) (pr_tokens pr) (pr_tokens pr') /\ regapped (e_u e) src edits 0 0 src (patched src edits) (pr_tokens pr) (pr_tokens pr') /\
  forall x x', In (x, x') (combine l (recorded (pr_stmts pr') (pr_tokens pr'))) -> o_name x' = renamed_to o final x.
Proof.
  destruct Hr as (Hsrc & Hop & Hpr & Hcl & Hin & Hc & Hprop & Hun & Her & Hsrc'). pose proof (index_here e s uri src d pr Hop Hpr) as Hix.
  destruct (renamed_document e s uri src d pr p o new final edits Hsrc Hop Hpr Hcl Hin Hc Hprop Hun Her Hsrc') as (pr' & P' & T' & Hrep & R & B & Hsim & S & X & F).
  exists pr'. do 6 (split; [assumption|]). destruct (indexed_ok _ _ _ _ Hix) as (_ & _ & Hsp & Hsub & Hrg). split.
  - pose proof Hprop as (Ha & Hend & Hlb & Hd). destruct (rename_here e src pr _ Hsrc Hix s uri d p o new final Hop Hin Hc Hd Hcl Ha Hend Hlb) as (eds & pr2 & Er & _ & Hp2 & _ & _ & Hg & _).
    assert (eds = edits) as -> by congruence. assert (pr2 = pr') as -> by congruence. exact Hg.
  - intros x x' Hx. pose proof B as [[Hoc _] _]. destruct (combine_forall2 _ _ _ Hoc _ _ Hx) as (_ & _ & _ & Ht). pose proof (occ_token_name x') as N. unfold renamed_to.
    destruct (renamed_name _ _ _ _ Hsp Hsub Hrg o final (proper_single _ _ _ _ _ Hprop) R x (occ_token x') (in_combine_l _ _ _ _ Hx) Ht) as [[E1 E]|[E1 E]]; apply same_symbolb_iff in E1 || idtac.
    + rewrite E1. congruence.
    + destruct (same_symbolb o x) eqn:E2; [apply same_symbolb_iff in E2; contradiction|]. congruence.
Qed.
Lemma rename_lenses : visits_all (e_ord e) -> exists a b, code_lens e s uri = Some a /\ code_lens e s' uri = Some b /\ Permutation b (map (carried_lens src uri l (renamed_to o final) edits) a).
Proof.
  intros Hv. destruct rename_there as (pr' & P' & Hrep & B & Hsim & S & F & G & N). pose proof Hr as (Hsrc & Hop & Hpr & Hcl & Hin & Hc & Hprop & Hun & Her & Hsrc').
  eapply after_lenses with (src := src) (src' := patched src edits) (pr := pr) (pr' := pr'); eassumption.
Qed.
Lemma rename_graphs : graph_follows s s' uri (pr_stmts pr) l (renamed_to o final).
Proof.
  destruct rename_there as (pr' & P' & Hrep & B & Hsim & S & F & G & N). pose proof Hr as (Hsrc & Hop & Hpr & Hcl & Hin & Hc & Hprop & Hun & Her & Hsrc'). intros x g.
  eapply after_graph with (src := src) (src' := patched src edits) (pr := pr) (pr' := pr'); eassumption.
Qed.
Lemma rename_hints : roots s' = roots s -> values_kept (pr_stmts pr) l (same_symbol o) ->
  inlay_hint_handler e s' uri = rmap (option_map (map (carried_hint src uri l (renamed_to o final) edits))) (inlay_hint_handler e s uri).
Proof.
  intros Hro Hval. destruct rename_there as (pr' & P' & Hrep & B & Hsim & S & F & G & N). pose proof Hr as (Hsrc & Hop & Hpr & Hcl & Hin & Hc & Hprop & Hun & Her & Hsrc').
  eapply after_hints with (src := src) (src' := patched src edits) (pr := pr) (pr' := pr') (ren := renamed o final); try eassumption.
  intros st n a b x H1 H2 H3 (y & Hy & _). exact (Hval st n a b x H1 H2 H3 Hy).
Qed.
End Rename.

(** ** After a shift of numbers *)
Section Shift.
Variables (e : env) (s s' : server) (uri src : text) (d d' : doc) (pr : parser_result) (p : nat) (o : occurrence) (new : text) (z : Z) (n : N) (edits : list text_edit).
Notation l := (recorded (pr_stmts pr) (pr_tokens pr)).
Hypothesis Hsh : shifting e s uri src d pr p o new z n edits.
Hypothesis Ho' : opened e s' uri (patched src edits) d'.
Hypothesis Hv : visits_all (e_ord e).
Lemma shift_more : exists f, numbered l o n z f /\
  (exists a b, code_lens e s uri = Some a /\ code_lens e s' uri = Some b /\ Permutation b (map (carried_lens src uri l f edits) a)) /\
  graph_follows s s' uri (pr_stmts pr) l f /\
  (roots s' = roots s -> values_kept (pr_stmts pr) l (fun x => exists y, moved o n z x y) ->
   inlay_hint_handler e s' uri = rmap (option_map (map (carried_hint src uri l f edits))) (inlay_hint_handler e s uri)).
Proof.
  destruct (shifted_document _ _ _ _ _ _ _ _ _ _ _ _ Hsh Hv) as (pr' & P' & Hrep & R & B & Hsim & S & X & F & L & G). pose proof (shift_index _ _ _ _ _ _ _ _ _ _ _ _ Hsh) as Hix. destruct (indexed_ok _ _ _ _ Hix) as (_ & _ & Hsp & Hsub & Hrg).
  pose proof Hsh as (Hsrc & Hop & Hpr & Hcl & Hin & Hc & Ha & Hz & Hn & Hov & Hg & Hlb & Hfit & Her & Hsrc').
  assert (N : forall x x', In (x, x') (combine l (recorded (pr_stmts pr') (pr_tokens pr'))) -> o_name x' = name_there pr pr' x).
  { intros x x' Hx. pose proof B as [[Hoc _] _]. destruct (combine_forall2 _ _ _ Hoc _ _ Hx) as (_ & _ & _ & Ht). symmetry. exact (name_there_eq _ _ _ _ _ _ _ _ _ _ _ _ Hsh pr' P' x _ _ Ht (occ_token_name x')). }
  exists (name_there pr pr'). split; [|split; [|split]].
  - intros x Hx. pose proof B as [[Hoc _] _]. destruct (forall2_pair _ _ _ Hoc) as [Q _]. destruct (Q _ Hx) as (x' & Px). pose proof (combine_forall2 _ _ _ Hoc _ _ Px) as (_ & K & _ & Tx). rewrite <- (N _ _ Px). split; intros Hs.
    + exact (renumbered_token o n z l _ _ _ _ x x' eq_refl Hsp Hsub R Hg Hx Hs K Tx).
    + pose proof (outside _ _ _ _ _ _ _ _ _ _ _ _ Hsh pr' R x _ Hx Hs Tx) as E. rewrite (occ_token_name x') in E. congruence.
  - eapply after_lenses with (src := src) (src' := patched src edits) (pr := pr) (pr' := pr'); eassumption.
  - intros x g. eapply after_graph with (src := src) (src' := patched src edits) (pr := pr) (pr' := pr'); eassumption.
  - intros Hro Hval. eapply after_hints with (src := src) (src' := patched src edits) (pr := pr) (pr' := pr') (ren := moved o n z); eassumption.
Qed.
End Shift.
