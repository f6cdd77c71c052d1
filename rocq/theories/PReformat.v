(** Documents laid out in different ways: what is shown corresponds. *)
From Verif Require Import Text Rope Chumsky Tokenizer Parser Numbers Index SemTok Diag Rename Cfg Backtrace Server SpecText SpecLex SpecParse SpecIndex SpecDiag SpecBacktrace SpecNumbers SpecCfg SpecView SpecSemTok SpecRename SpecPatch SpecSimilar SpecValues SpecRebind SpecSteps SpecDot SpecLayout SpecLines SpecReformat
  PText PRope PLexSpec PLexProps PTokens PParse PParseProps PNumbers PHints PFold PFoldText PNav PRequest PView PIndex PIndexDoc PIndexText PDiag PRename PRelex PRetree PRebind PUndo PSteps PDiagDoc PKeep PCfg PDot PCoherent PSumIndex PSumView PAlike PComment PLayout PRoom PAfter PAfterView PAfterShift PAfterHints.

Lemma forall2_filter {A B} (R : A -> B -> Prop) (k : A -> bool) (k' : B -> bool) a b : Forall2 R a b -> (forall x y, In x a -> R x y -> k x = k' y) -> Forall2 R (filter k a) (filter k' b).
Proof.
  induction 1 as [|x y a b H _ IH]; intros G; [constructor|]. cbn [filter]. rewrite <- (G x y (or_introl eq_refl) H). specialize (IH (fun v w Hv => G v w (or_intror Hv))).
  destruct (k x); [constructor; assumption|exact IH].
Qed.
Lemma forall2_maps {A B C D} (R : A -> B -> Prop) (Q : C -> D -> Prop) (f : A -> C) (g : B -> D) a b : Forall2 R a b -> (forall x y, In x a -> R x y -> Q (f x) (g y)) -> Forall2 Q (map f a) (map g b).
Proof. induction 1 as [|x y a b H _ IH]; intros G; constructor; [apply G; [left; reflexivity|exact H]|apply IH; intros v w Hv; apply G; right; exact Hv]. Qed.
Lemma forall2_flats {A B C D} (R : A -> B -> Prop) (Q : C -> D -> Prop) (f : A -> list C) (g : B -> list D) a b : Forall2 R a b -> (forall x y, In x a -> R x y -> Forall2 Q (f x) (g y)) -> Forall2 Q (flat_map f a) (flat_map g b).
Proof. induction 1 as [|x y a b H _ IH]; intros G; cbn [flat_map]; [constructor|]. apply Forall2_app; [apply G; [left; reflexivity|exact H]|apply IH; intros v w Hv; apply G; right; exact Hv]. Qed.
Lemma forall2_filter_maps {A B C D} (R : A -> B -> Prop) (Q : C -> D -> Prop) (f : A -> option C) (g : B -> option D) a b : Forall2 R a b -> (forall x y, In x a -> In y b -> R x y -> both Q (f x) (g y)) -> Forall2 Q (filter_map f a) (filter_map g b).
Proof.
  induction 1 as [|x y a b H _ IH]; intros G; cbn [filter_map]; [constructor|]. specialize (IH (fun v w Hv Hw => G v w (or_intror Hv) (or_intror Hw))). pose proof (G x y (or_introl eq_refl) (or_introl eq_refl) H) as K.
  destruct (f x), (g y); try contradiction K; [constructor; assumption|exact IH].
Qed.
Lemma forall2_rflats {A B C D} (R : A -> B -> Prop) (Q : C -> D -> Prop) (f : A -> res (list C)) (g : B -> res (list D)) a b : Forall2 R a b ->
  (forall x y, In x a -> R x y -> match f x, g y with Val v, Val w => Forall2 Q v w | Panic, Panic => True | _, _ => False end) ->
  match rflat_map f a, rflat_map g b with Val v, Val w => Forall2 Q v w | Panic, Panic => True | _, _ => False end.
Proof.
  induction 1 as [|x y a b H _ IH]; intros G; cbn [rflat_map]; [constructor|]. specialize (IH (fun v w Hv => G v w (or_intror Hv))). pose proof (G x y (or_introl eq_refl) H) as K.
  destruct (f x), (g y); try contradiction K; [|exact I]. cbn [rbind]. destruct (rflat_map f a), (rflat_map g b); try contradiction IH; [|exact I]. cbn [rbind]. apply Forall2_app; assumption.
Qed.
Lemma permuted {A B} (Q : A -> B -> Prop) a0 a b b0 : Permutation a0 a -> Forall2 Q a b -> Permutation b0 b -> exists k, Permutation k b0 /\ Forall2 Q a0 k.
Proof.
  intros P F P'. symmetry in P. destruct (Permutation_Forall2 P F) as (k & K1 & K2). exists k. split; [|exact K2]. rewrite P', K1. reflexivity.
Qed.

Section Same.
Variables (e : env) (s s' : server) (uri src src' : text) (d d' : doc) (pr pr' : parser_result) (T : stoken -> stoken -> Prop).
Notation u := (e_u e).
Notation l := (recorded (pr_stmts pr) (pr_tokens pr)).
Notation l' := (recorded (pr_stmts pr') (pr_tokens pr')).
Hypothesis P1 : plain_document src.
Hypothesis P2 : plain_document src'.
Hypothesis Ho : opened e s uri src d.
Hypothesis Ho' : opened e s' uri src' d'.
Hypothesis Hp : parse_from_str u src = Val pr.
Hypothesis Hp' : parse_from_str u src' = Val pr'.
Hypothesis HTv : forall a b, T a b -> revalued (fst a) (fst b).
Hypothesis HTi : forall a b, T a b -> In a (pr_tokens pr) /\ In b (pr_tokens pr').
Hypothesis HTo : forall a b x y, T a b -> T x y -> (a = x <-> b = y).
Hypothesis S : Forall2 (same_stmt T) (pr_stmts pr) (pr_stmts pr').
Hypothesis BU : Forall2 (same_occ T) (undefined_uses l) (undefined_uses l').
Hypothesis BR : Forall2 (fun a b => same_occ T (fst a) (fst b) /\ same_occ T (snd a) (snd b)) (redefinitions l) (redefinitions l').

Notation ix1 := (ix e s uri src d pr Ho Hp).
Notation ix2 := (ix' e s' uri src' d' pr' Ho' Hp').
Lemma bounds a b : T a b -> inside src (snd a) /\ inside src' (snd b).
Proof.
  intros H. destruct (HTi _ _ H) as [H1 H2]. destruct (indexed_ok _ _ _ _ ix1) as (_ & _ & Hsp & _). destruct (indexed_ok _ _ _ _ ix2) as (_ & _ & Hsp' & _).
  pose proof (spans_in_each _ _ _ _ Hsp H1). pose proof (spans_in_each _ _ _ _ Hsp' H2). split; (split; lia).
Qed.
Lemma token_range a b : T a b -> range_alike T src src' (lsp_range src (snd a)) (lsp_range src' (snd b)).
Proof. intros H. split; exists a, b; (split; [exact H|split; reflexivity]). Qed.
Lemma span_range x y : ranges T x y -> range_alike T src src' (lsp_range src x) (lsp_range src' y).
Proof.
  intros [(a & b & H & E1 & E2) (a' & b' & H' & E3 & E4)]. split; [exists a, b|exists a', b']; (split; [assumption|]); cbn [lsp_range r_start r_end]; rewrite ?E1, ?E2, ?E3, ?E4; split; reflexivity.
Qed.
Lemma span_inside x y : ranges T x y -> sp_start x <= length src /\ sp_end x <= length src /\ sp_start y <= length src' /\ sp_end y <= length src'.
Proof.
  intros [(a & b & H & E1 & E2) (a' & b' & H' & E3 & E4)]. destruct (bounds _ _ H) as [[? ?] [? ?]]. destruct (bounds _ _ H') as [[? ?] [? ?]]. lia.
Qed.
Lemma occ_alike x x' : same_occ T x x' -> o_name x' = o_name x /\ range_alike T src src' (lsp_range src (o_span x)) (lsp_range src' (o_span x')).
Proof.
  intros (_ & K & _ & H). split; [|exact (token_range _ _ H)]. apply HTv in H. destruct H as [H|H]; [|exfalso; unfold occ_token in H; destruct (o_kind x), (o_kind x'); exact H]. pose proof (occ_token_name x) as N. pose proof (occ_token_name x') as N'. rewrite H in N. congruence.
Qed.

(** diagnostics *)
Lemma same_diagnostics diags diags' : visits_all (e_ord e) -> Forall2 (alike_error T src src') (pr_errors pr) (pr_errors pr') ->
  analyze e uri src = Val (d, diags) -> analyze e uri src' = Val (d', diags') -> exists k, Permutation k diags' /\ Forall2 (diagnostic_alike T uri src src') diags k.
Proof.
  intros Hv X A A'. destruct (document_diagnostics _ _ _ _ _ P1 Hv A) as (pr0 & Q & D). assert (pr0 = pr) as -> by congruence.
  destruct (document_diagnostics _ _ _ _ _ P2 Hv A') as (pr0 & Q' & D'). assert (pr0 = pr') as -> by congruence. clear Q Q'. eapply permuted; [exact D| |exact D'].
  assert (MA : forall x y, same_instr T x y -> missing_refs x = missing_refs y).
  { intros x y (_ & M & R & _). apply Bool.eq_iff_eq_true. rewrite !missing_refs_iff. assert (E : i_refs x = [] <-> i_refs y = []) by (inversion R; split; congruence). rewrite E.
    apply HTv in M. destruct M as [M|[]]. cbn [tident fst] in M. injection M as M. unfold needs_targets, mnemonic. rewrite M. reflexivity. }
  apply Forall2_app; [|apply Forall2_app; [|apply Forall2_app]].
  - eapply forall2_maps with (R := fun x y => alike_error T src src' x y /\ at_end src x = false).
    + assert (K : forall x y, alike_error T src src' x y -> at_end src x = at_end src' y).
      { intros x y [[Hr|[Ea Eb]] _].
        - destruct Hr as [(a & b & Hab & E2 & E3) _]. destruct (HTi _ _ Hab) as [I1 I2]. destruct (indexed_ok _ _ _ _ ix1) as (_ & _ & Hsp & _). destruct (indexed_ok _ _ _ _ ix2) as (_ & _ & Hsp' & _).
          pose proof (spans_in_each _ _ _ _ Hsp I1) as B1. pose proof (spans_in_each _ _ _ _ Hsp' I2) as B2.
          unfold at_end, span_eqb. cbn [sp_start sp_end]. rewrite E2, E3. destruct (Nat.eqb_spec (sp_start (snd a)) (length src)); [lia|]. destruct (Nat.eqb_spec (sp_start (snd b)) (length src')); [lia|reflexivity].
        - unfold at_end. rewrite Ea, Eb. unfold ends. rewrite (byte_len_ascii src) by apply P1. rewrite (byte_len_ascii src') by apply P2. unfold span_eqb. cbn [sp_start sp_end]. rewrite !Nat.add_1_r, !Nat.eqb_refl. reflexivity. }
      clear - X K. induction X as [|x y a b H _ IH]; [constructor|]. cbn [filter]. rewrite <- (K _ _ H). destruct (at_end src x) eqn:E; cbn [negb]; [exact IH|]. constructor; [split; assumption|exact IH].
    + intros x y _ [[Hr (H1 & H2 & H3)] K]. split; [|split; [|constructor]].
      * cbn [syntax_diagnostic d_message]. unfold parser_error_message. rewrite <- H1, <- H2. destruct (e_reason x); [|reflexivity]. destruct (e_found x), (e_found y); contradiction H3 || reflexivity.
      * cbn [syntax_diagnostic d_range]. destruct Hr as [Hr|[Ea _]]; [exact (span_range _ _ Hr)|]. exfalso. unfold at_end in K. rewrite Ea in K. unfold ends in K. rewrite (byte_len_ascii src) in K by apply P1.
        unfold span_eqb in K. cbn [sp_start sp_end] in K. rewrite Nat.add_1_r, !Nat.eqb_refl in K. discriminate K.
  - eapply forall2_maps; [apply (forall2_filter _ _ _ _ _ (instructions_alike T _ _ S)); intros x y _ H; exact (MA x y H)|].
    intros x y _ (_ & H & _). unfold named in H. split; [|split; [exact (token_range _ _ H)|constructor]]. cbn [missing_diagnostic d_message]. apply HTv in H. destruct H as [H|[]]. cbn [tident fst] in H. unfold mnemonic. congruence.
  - eapply forall2_maps; [exact BU|]. intros x y _ H. destruct (occ_alike _ _ H) as [E R]. split; [cbn [undefined_diagnostic d_message]; rewrite E; reflexivity|]. split; [exact R|constructor].
  - eapply forall2_maps; [exact BR|]. intros x y _ [H H']. destruct (occ_alike _ _ H) as [E R]. destruct (occ_alike _ _ H') as [_ R']. split; [cbn [redefinition_diagnostic d_message]; rewrite E; reflexivity|]. split; [exact R|].
    constructor; [|constructor]. split; [reflexivity|]. split; [reflexivity|]. split; [reflexivity|exact R'].
Qed.

(** outline *)
Lemma same_outline : visits_all (e_ord e) -> exists a b k, document_symbol e s uri = Some a /\ document_symbol e s' uri = Some b /\ Permutation k b /\ Forall2 (symbol_alike T src src') a k.
Proof.
  intros Hv. destruct (outline _ _ _ _ _ P1 Hv Ho) as (vs & E & Hvs & _). destruct (outline _ _ _ _ _ P2 Hv Ho') as (vs' & E' & Hvs' & _).
  destruct (opened_here _ _ _ _ _ _ Ho Hp) as (_ & _ & E1 & _). destruct (opened_here _ _ _ _ _ _ Ho' Hp') as (_ & _ & E2 & _). rewrite E1 in *. rewrite E2 in *.
  assert (exists k, Permutation k (vs' ++ function_outline src' (pr_stmts pr')) /\ Forall2 (symbol_alike T src src') (vs ++ function_outline src (pr_stmts pr)) k) as (k & K1 & K2).
  { eapply permuted; [apply Permutation_app_tail; exact Hvs| |apply Permutation_app_tail; exact Hvs']. apply Forall2_app.
    - eapply forall2_maps with (R := fun x y => T (tglobal x) (tglobal y)).
      + apply (forall2_flats _ _ _ _ _ _ S). intros x y _ H. destruct x, y; try contradiction H; try constructor; [exact (proj1 H)|constructor].
      + intros x y _ H. split; [|split; [reflexivity|]].
        * apply HTv in H. destruct H as [H|[]]. cbn [tglobal fst] in H. cbn [variable_symbol ds_name]. congruence.
        * split; exact (token_range _ _ H).
    - apply (forall2_flats _ _ _ _ _ _ S). intros x y _ H. destruct x as [| |kw sg bd| |], y as [| |kw' sg' bd'| |]; try contradiction H; try constructor; [|constructor].
      cbn in H. destruct H as (H1 & (_ & _ & H2 & _) & (_ & H3 & _)). unfold named in H2. split; [|split; [reflexivity|split]].
      + destruct (HTv _ _ H2) as [G|[]]. cbn [tglobal fst] in G. cbn [ds_name]. congruence.
      + split; [eexists _, _; split; [exact H1|split; reflexivity]|eexists _, _; split; [exact H3|split; reflexivity]].
      + exact (token_range _ _ H2). }
  exists (vs ++ function_outline src (pr_stmts pr)), (vs' ++ function_outline src' (pr_stmts pr')), k. auto.
Qed.

(** functions *)
Definition name_pair (x y : spanned) : Prop := fst y = fst x /\ T (tident x) (tident y).
Lemma ident_pair x y : T (tident x) (tident y) -> name_pair x y.
Proof. intros H. split; [|exact H]. apply HTv in H. destruct H as [H|[]]. cbn [tident fst] in H. congruence. Qed.
Definition instr_same (i j : instruction) : Prop := is_branching i = is_branching j /\ Forall2 name_pair (i_refs i) (i_refs j).
Definition block_same (b c : basic_block) : Prop :=
  both name_pair (bb_label b) (bb_label c) /\ both (fun a a' => T (tp (ch ":") a) (tp (ch ":") a')) (bb_label_comma b) (bb_label_comma c) /\ Forall2 instr_same (bb_instrs b) (bb_instrs c) /\ ranges T (bb_span b) (bb_span c).
Lemma blocks_same a b : Forall2 (same_block T) a b -> Forall2 block_same a b.
Proof.
  apply forall2_impl. intros x y (L & C & I & R). split; [|split; [exact C|split; [|exact R]]].
  - destruct (bb_label x), (bb_label y); try contradiction L; [apply ident_pair; exact L|exact Logic.I].
  - eapply forall2_impl; [|exact I]. intros i j (_ & M & Q & _). split.
    + apply Bool.eq_iff_eq_true. rewrite !branching_iff. unfold branch, mnemonic. unfold named in M. apply HTv in M. destruct M as [M|[]]. cbn [tident fst] in M. injection M as ->. reflexivity.
    + eapply forall2_impl; [|exact Q]. exact ident_pair.
Qed.
Definition def_same (f g : func_sig * func_body) : Prop := fst (fs_name (fst g)) = fst (fs_name (fst f)) /\ T (tglobal (fs_name (fst f))) (tglobal (fs_name (fst g))) /\ Forall2 block_same (fb_blocks (snd f)) (fb_blocks (snd g)).
Lemma defs_same : Forall2 def_same (function_defs (pr_stmts pr)) (function_defs (pr_stmts pr')) /\ Forall2 (ranges T) (flat_map func_ranges (pr_stmts pr)) (flat_map func_ranges (pr_stmts pr')).
Proof.
  split; apply (forall2_flats _ _ _ _ _ _ S); intros x y _ H; (destruct x as [| |kw sg bd| |], y as [| |kw' sg' bd'| |]; try contradiction H; try constructor; [|constructor]).
  - cbn in H. destruct H as (_ & (_ & _ & H2 & _) & (_ & _ & H3)). unfold named in H2. split; [|split; [exact H2|apply blocks_same; exact H3]]. destruct (HTv _ _ H2) as [G|[]]. cbn [tglobal fst] in *. congruence.
  - cbn in H. destruct H as (H1 & _ & (_ & H3 & _)). split; eexists _, _; [split; [exact H1|split; reflexivity]|split; [exact H3|split; reflexivity]].
Qed.
Lemma mentions_same f g n : Forall2 block_same (fb_blocks f) (fb_blocks g) -> (mentions_label f n <-> mentions_label g n).
Proof.
  unfold mentions_label. intros H. assert (K : forall a b, Forall2 block_same a b ->
    ((exists x, In x a /\ ((exists v, bb_label x = Some v /\ fst v = n) \/ (exists i r, In i (bb_instrs x) /\ In r (i_refs i) /\ fst r = n))) <->
     (exists x, In x b /\ ((exists v, bb_label x = Some v /\ fst v = n) \/ (exists i r, In i (bb_instrs x) /\ In r (i_refs i) /\ fst r = n))))); [|apply K; exact H]. clear.
  assert (R : forall a b, Forall2 name_pair a b -> ((exists r, In r a /\ fst r = n) <-> (exists r, In r b /\ fst r = n))).
  { induction 1 as [|x y a b [E _] _ IH]; [split; intros (? & [] & _)|]. split; intros (r & [<-|Hr] & En).
    - exists y. split; [left; reflexivity|congruence].
    - destruct (proj1 IH (ex_intro _ r (conj Hr En))) as (q & Hq & Eq). exists q. split; [right; exact Hq|exact Eq].
    - exists x. split; [left; reflexivity|congruence].
    - destruct (proj2 IH (ex_intro _ r (conj Hr En))) as (q & Hq & Eq). exists q. split; [right; exact Hq|exact Eq]. }
  assert (Q : forall a b, Forall2 instr_same a b -> ((exists i r, In i a /\ In r (i_refs i) /\ fst r = n) <-> (exists i r, In i b /\ In r (i_refs i) /\ fst r = n))).
  { induction 1 as [|x y a b [_ E] _ IH]; [split; intros (? & ? & [] & _)|]. pose proof (R _ _ E) as [R1 R2]. destruct IH as [I1 I2]. split; intros (i & r & [<-|Hi] & Hr & En).
    - destruct (R1 (ex_intro _ r (conj Hr En))) as (q & Hq & Eq). exists y, q. cbn. auto.
    - destruct (I1 (ex_intro _ i (ex_intro _ r (conj Hi (conj Hr En))))) as (j & q & Hj & Hq & Eq). exists j, q. cbn. auto.
    - destruct (R2 (ex_intro _ r (conj Hr En))) as (q & Hq & Eq). exists x, q. cbn. auto.
    - destruct (I2 (ex_intro _ i (ex_intro _ r (conj Hi (conj Hr En))))) as (j & q & Hj & Hq & Eq). exists j, q. cbn. auto. }
  induction 1 as [|x y a b (L & _ & I & _) _ IH]; [split; intros (? & [] & _)|]. pose proof (Q _ _ I) as [Q1 Q2]. destruct IH as [I1 I2].
  split; intros (z & [<-|Hz] & [(v & Ev & En)|G]).
  - rewrite Ev in L. destruct (bb_label y) as [w|] eqn:Ey; [|contradiction L]. exists y. split; [left; reflexivity|]. left. exists w. split; [exact Ey|]. destruct L as [L _]. congruence.
  - exists y. split; [left; reflexivity|]. right. exact (Q1 G).
  - destruct (I1 (ex_intro _ z (conj Hz (or_introl (ex_intro _ v (conj Ev En)))))) as (q & Hq & Eq). exists q. split; [right; exact Hq|exact Eq].
  - destruct (I1 (ex_intro _ z (conj Hz (or_intror G)))) as (q & Hq & Eq). exists q. split; [right; exact Hq|exact Eq].
  - rewrite Ev in L. destruct (bb_label x) as [w|] eqn:Ey; [|contradiction L]. exists x. split; [left; reflexivity|]. left. exists w. split; [exact Ey|]. destruct L as [L _]. congruence.
  - exists x. split; [left; reflexivity|]. right. exact (Q2 G).
  - destruct (I2 (ex_intro _ z (conj Hz (or_introl (ex_intro _ v (conj Ev En)))))) as (q & Hq & Eq). exists q. split; [right; exact Hq|exact Eq].
  - destruct (I2 (ex_intro _ z (conj Hz (or_intror G)))) as (q & Hq & Eq). exists q. split; [right; exact Hq|exact Eq].
Qed.
Definition body_same (f g : function_body) : Prop :=
  fst (fb_name g) = fst (fb_name f) /\ T (tglobal (fb_name f)) (tglobal (fb_name g)) /\ ranges T (complete_range f) (complete_range g) /\ Forall2 block_same (basic_blocks f) (basic_blocks g) /\ length (labels g) = length (labels f) /\
  (forall t, alookup t (incoming f) = match incoming_labels (basic_blocks f) t with [] => None | k => Some k end) /\
  (forall t, alookup t (incoming g) = match incoming_labels (basic_blocks g) t with [] => None | k => Some k end).
Lemma bodies_same : Forall2 body_same (function_bodies (doc_index d)) (function_bodies (doc_index d')).
Proof.
  destruct defs_same as [Hd Hr]. apply Forall2_nth_error_iff in Hd as [Ld Hd]. apply Forall2_nth_error_iff in Hr as [_ Hr].
  destruct (bodies_of _ _ _ _ ix1) as [C1 _]. destruct (bodies_of _ _ _ _ ix2) as [C2 _]. apply Forall2_nth_error_iff. split; [rewrite C1, C2; exact Ld|]. intros id f g Hf Hg.
  assert (A : forall u0 src0 pr0 ix0 id0 fb, indexed u0 src0 pr0 ix0 -> nth_error (function_bodies ix0) id0 = Some fb -> exists f, nth_error (function_defs (pr_stmts pr0)) id0 = Some f /\ fb_name fb = fs_name (fst f) /\ basic_blocks fb = fb_blocks (snd f) /\ nth_error (flat_map func_ranges (pr_stmts pr0)) id0 = Some (complete_range fb) /\
    numbers (mentions_label (snd f)) (length (labels fb)) /\ forall t, alookup t (incoming fb) = match incoming_labels (fb_blocks (snd f)) t with [] => None | l => Some l end).
  { intros u0 src0 [t0 ss0 e0] ix0 id0 fb H1 H2. exact (bodies_at _ _ _ _ _ H1 _ _ H2). }
  destruct (A _ _ _ _ _ _ ix1 Hf) as (y & Y1 & Y2 & Y3 & Y4 & Y5 & Y6). destruct (A _ _ _ _ _ _ ix2 Hg) as (z & Z1 & Z2 & Z3 & Z4 & Z5 & Z6). destruct (Hd _ _ _ Y1 Z1) as (D1 & D2 & D3).
  unfold body_same. rewrite Y2, Z2, Y3, Z3. split; [exact D1|]. split; [exact D2|]. split; [exact (Hr _ _ _ Y4 Z4)|]. split; [exact D3|]. split; [|split; assumption].
  apply (numbers_unique (mentions_label (snd z))); [exact Z5|]. destruct Y5 as (k & N1 & N2 & N3). exists k. split; [exact N1|]. split; [|exact N3]. intros n. rewrite N2. apply mentions_same. exact D3.
Qed.

(** folds *)
Lemma fold_same a b what : ranges T a b -> both (fold_alike T src src') (fold_lines src a what) (fold_lines src' b what).
Proof.
  intros H. unfold fold_lines. destruct (span_inside _ _ H) as (B1 & B2 & B3 & B4). pose proof (span_range _ _ H) as R.
  assert (range_to_lsp src a = Some (lsp_range src a)) as -> by (unfold range_to_lsp; rewrite !plain_pos by assumption; reflexivity).
  assert (range_to_lsp src' b = Some (lsp_range src' b)) as -> by (unfold range_to_lsp; rewrite !plain_pos by assumption; reflexivity).
  cbn [obind both]. split; [reflexivity|]. exists (lsp_range src a), (lsp_range src' b). split; [exact R|]. repeat split.
Qed.
Lemma same_folds : exists a b, folding_range s uri = Some a /\ folding_range s' uri = Some b /\ Forall2 (fold_alike T src src') a b.
Proof.
  destruct (opened_here _ _ _ _ _ _ Ho Hp) as (_ & R1 & _ & G1). destruct (opened_here _ _ _ _ _ _ Ho' Hp') as (_ & R2 & _ & G2).
  eexists _, _. split; [exact (folding_is _ _ _ G1)|]. split; [exact (folding_is _ _ _ G2)|]. rewrite R1, R2. apply Forall2_app.
  - apply (forall2_filter_maps _ _ _ _ _ _ bodies_same). intros f g _ _ (_ & _ & R & _ & L & _). unfold body_fold. rewrite L. apply fold_same. exact R.
  - apply (forall2_filter_maps block_same); [apply (forall2_flats _ _ _ _ _ _ bodies_same); intros f g _ (_ & _ & _ & B & _); exact B|].
    intros x y _ _ (_ & _ & I & R). unfold block_fold. rewrite (forall2_len _ _ _ I). apply fold_same. exact R.
Qed.

(** lenses *)
Lemma once_same f g : def_same f g -> defined_once (pr_stmts pr) f = defined_once (pr_stmts pr') g.
Proof.
  intros [H _]. unfold defined_once. f_equal. destruct defs_same as [D _]. induction D as [|x y a b [Hxy _] _ IH]; [reflexivity|]. cbn [filter].
  assert (same_name f x = same_name g y) as -> by (unfold same_name; rewrite H, Hxy; reflexivity). destruct (same_name g y); cbn [length]; rewrite IH; reflexivity.
Qed.
Lemma same_lenses : visits_all (e_ord e) -> exists a b k, code_lens e s uri = Some a /\ code_lens e s' uri = Some b /\ Permutation k b /\ Forall2 (lens_alike T src src') a k.
Proof.
  intros Hv. destruct (code_lenses _ _ _ _ _ P1 Hv Ho) as (a & E & Ha). destruct (code_lenses _ _ _ _ _ P2 Hv Ho') as (b & E' & Hb).
  destruct (opened_here _ _ _ _ _ _ Ho Hp) as (_ & _ & E1 & _). destruct (opened_here _ _ _ _ _ _ Ho' Hp') as (_ & _ & E2 & _). rewrite E1 in Ha. rewrite E2 in Hb.
  assert (exists k, Permutation k b /\ Forall2 (lens_alike T src src') a k) as (k & K1 & K2); [|exists a, b, k; auto].
  eapply permuted; [exact Ha| |exact Hb]. eapply forall2_maps; [apply (forall2_filter _ _ _ _ _ (proj1 defs_same)); intros x y _; apply once_same|].
  intros x y _ (N & H & _). split; [reflexivity|]. split; [cbn [function_lens cl_args]; rewrite N; reflexivity|]. exact (token_range _ _ H).
Qed.

(** graphs *)
Lemma edges_same a b : Forall2 block_same a b -> cfg_edges b = cfg_edges a.
Proof.
  induction 1 as [|x y a b (L & _ & I & _) _ IH]; [reflexivity|]. unfold cfg_edges in *. cbn [flat_map]. rewrite IH. f_equal. unfold bb_edges.
  destruct (bb_label x) as [m|], (bb_label y) as [k|]; try contradiction L.
  - cbn [both] in L. destruct L as [L _]. rewrite L. induction I as [|i j p q [E R] _ IHI]; [reflexivity|]. cbn [flat_map]. rewrite IHI. f_equal. rewrite <- E. destruct (is_branching i); [|reflexivity].
    induction R as [|v w p' q' [Hvw _] _ IHR]; [reflexivity|]. cbn [map fst snd]. rewrite IHR, Hvw. reflexivity.
  - assert (Z : forall p : list instruction, flat_map (fun _ => @nil (text * text)) p = []) by (induction p; [reflexivity|assumption]). rewrite !Z. reflexivity.
Qed.
Lemma same_graphs m : execute_command s' (str "visualize-cfg") [JStr uri; JStr m] = execute_command s (str "visualize-cfg") [JStr uri; JStr m].
Proof.
  destruct (opened_here _ _ _ _ _ _ Ho Hp) as (_ & _ & _ & G1). destruct (opened_here _ _ _ _ _ _ Ho' Hp') as (_ & _ & _ & G2). rewrite (ask_eq uri s d _ G1), (ask_eq uri s' d' _ G2).
  induction bodies_same as [|f g a b (N & _ & _ & B & _) _ IH]; [reflexivity|]. cbn [find]. rewrite N. destruct (text_eqb (fst (fb_name f)) m); [|exact IH].
  unfold create_cfg_dot_visualization. rewrite N, (edges_same _ _ B). reflexivity.
Qed.

(** hints *)
Hypothesis Hroots : roots s' = roots s.
Hypothesis Hval : values_alike e src src' (pr_stmts pr) (pr_stmts pr').
Lemma end_same a b : T a b -> offset_to_lsp_pos src (sp_end (snd a)) = Some (lsp_position src (sp_end (snd a))) /\ offset_to_lsp_pos src' (sp_end (snd b)) = Some (lsp_position src' (sp_end (snd b))).
Proof. intros H. destruct (bounds _ _ H) as [[A B] [C D]]. rewrite (plain_pos src _ P1 B), (plain_pos src' _ P2 D). split; reflexivity. Qed.
Lemma range_same a b : T a b -> range_to_lsp src (snd a) = Some (lsp_range src (snd a)) /\ range_to_lsp src' (snd b) = Some (lsp_range src' (snd b)).
Proof. intros H. destruct (bounds _ _ H) as [[A B] [C D]]. rewrite (plain_range src _ P1 A B), (plain_range src' _ P2 C D). split; reflexivity. Qed.
Lemma names_equal x x' y y' : name_pair x x' -> name_pair y y' -> spanned_eqb x y = spanned_eqb x' y'.
Proof.
  intros (_ & H1) (_ & H2). assert (Eq : forall a b : spanned, spanned_eqb a b = true <-> a = b).
  { intros [a sa] [b sb]. unfold spanned_eqb. cbn [fst snd]. rewrite andb_true_iff, text_eqb_eq, span_eqb_eq. split; [intros [-> ->]; reflexivity|intros G; inversion G; auto]. }
  apply Bool.eq_iff_eq_true. rewrite !Eq. assert (Ti : forall a b : spanned, a = b <-> tident a = tident b). { intros [a sa] [b sb]. unfold tident. cbn [fst snd]. split; intros G; inversion G; reflexivity. }
  rewrite !Ti. exact (HTo _ _ _ _ H1 H2).
Qed.
Lemma incoming_same k a b : Forall2 block_same a b -> Forall2 name_pair (incoming_labels a k) (incoming_labels b k).
Proof.
  intros H. unfold incoming_labels. apply once_pairs; [intros; apply names_equal; assumption| |constructor].
  apply (forall2_flats _ _ _ _ _ _ H). intros x y _ (L & _ & I & _). unfold branches_to. destruct (bb_label x) as [m|], (bb_label y) as [m'|]; try contradiction L; [|constructor]. cbn [both] in L.
  apply (forall2_flats _ _ _ _ _ _ I). intros i j _ [E R]. rewrite <- E. destruct (is_branching i); [|constructor]. apply (forall2_flats _ _ _ _ _ _ R). intros v w _ [N _]. rewrite N. destruct (text_eqb k (fst v)); repeat constructor; apply L.
Qed.
Lemma parts_same a b : Forall2 name_pair a b -> forall i, Forall2 (part_alike T uri src src') (incoming_parts src uri i a) (incoming_parts src' uri i b).
Proof.
  induction 1 as [|x y a b [N H] _ IH]; intros i; [constructor|]. cbn [incoming_parts]. destruct (range_same _ _ H) as [R1 R2]. cbn [tident snd] in R1, R2. rewrite R1, R2. apply Forall2_app; [|apply IH].
  constructor; [|constructor; [|constructor]].
  - split; [reflexivity|]. split; [reflexivity|exact I].
  - split; [exact N|]. split; [reflexivity|]. split; [reflexivity|]. split; [reflexivity|]. exact (token_range _ _ H).
Qed.
Lemma incoming_hints_same : Forall2 (hint_alike T uri src src') (incoming_hints d uri) (incoming_hints d' uri).
Proof.
  destruct (opened_here _ _ _ _ _ _ Ho Hp) as (_ & R1 & _ & _). destruct (opened_here _ _ _ _ _ _ Ho' Hp') as (_ & R2 & _ & _). unfold incoming_hints. rewrite R1, R2.
  apply (forall2_flats _ _ _ _ _ _ bodies_same). intros f g _ (_ & _ & _ & B & _ & I1 & I2). apply (forall2_filter_maps _ _ _ _ _ _ B). intros x y _ _ (L & C & _). unfold incoming_hint.
  destruct (bb_label x) as [k|], (bb_label y) as [k'|]; try contradiction L; [|exact I]. cbn [both] in L. cbn [obind]. rewrite I1, I2, (proj1 L). pose proof (incoming_same (fst k) _ _ B) as Q.
  destruct Q as [|v w p q Hvw Hpq]; [exact I|]. cbn [obind]. destruct (bb_label_comma x) as [c|], (bb_label_comma y) as [c'|]; try contradiction C; [|exact I]. cbn [both obind] in C |- *.
  destruct (end_same _ _ C) as [E1 E2]. cbn [tp snd] in E1, E2. rewrite E1, E2. cbn [obind]. split; [|apply parts_same; constructor; assumption]. eexists _, _. split; [exact C|split; reflexivity].
Qed.
Lemma end_hints_same : Forall2 (hint_alike T uri src src') (filter_map (end_hint d uri) (function_bodies (doc_index d))) (filter_map (end_hint d' uri) (function_bodies (doc_index d'))).
Proof.
  destruct (opened_here _ _ _ _ _ _ Ho Hp) as (_ & R1 & _ & _). destruct (opened_here _ _ _ _ _ _ Ho' Hp') as (_ & R2 & _ & _).
  apply (forall2_filter_maps _ _ _ _ _ _ bodies_same). intros f g _ _ (N & H & (_ & a & b & Hab & E1 & E2) & _). unfold end_hint. rewrite R1, R2, E1, E2.
  destruct (end_same _ _ Hab) as [-> ->]. cbn [obind]. destruct (range_same _ _ H) as [Q1 Q2]. cbn [tglobal snd] in Q1, Q2. rewrite Q1, Q2. cbn [obind both]. split; [exists a, b; auto|].
  constructor; [|constructor]. split; [exact N|]. split; [reflexivity|]. split; [reflexivity|]. split; [reflexivity|]. exact (token_range _ _ H).
Qed.
Lemma backtrace_alike disp pos pos' frames : ends_alike T src src' pos pos' ->
  match inlay_hint_for_backtrace u disp pos frames, inlay_hint_for_backtrace u disp pos' frames with Val a, Val b => hint_alike T uri src src' a b | Panic, Panic => True | _, _ => False end.
Proof.
  intros H. unfold inlay_hint_for_backtrace. destruct (match identify_relevant_frames frames with Some _ => _ | None => _ end) as [parts|] eqn:E; [|exact I]. cbn [rbind].
  destruct (backtrace_json_to_md u disp frames) as [tip|]; [|exact I]. cbn [rbind]. split; [exact H|]. cbn [ih_parts].
  assert (Forall (fun p => lp_location p = None) (parts ++ [mkPart (str "Full backtrace") None (Some tip)])) as G.
  { apply Forall_app. split; [|repeat constructor]. destruct (identify_relevant_frames frames) as [i|]; [|injection E as <-; constructor]. destruct (nth_error frames i) as [f|]; [|discriminate].
    destruct (shorten_name (f_symbol f) 50); [|discriminate]. cbn [rbind] in E. destruct (format_frame_as_md u disp f); [|discriminate]. cbn [rbind] in E. injection E as <-. repeat constructor. }
  induction G as [|p q Hp0 _ IH]; constructor; [|exact IH]. split; [reflexivity|]. split; [reflexivity|]. rewrite Hp0. exact I.
Qed.
Lemma backtrace_hints_same : match rflat_map (backtrace_hint e s d) (instructions (pr_stmts pr)), rflat_map (backtrace_hint e s' d') (instructions (pr_stmts pr')) with
  Val a, Val b => Forall2 (hint_alike T uri src src') a b | Panic, Panic => True | _, _ => False end.
Proof.
  destruct (opened_here _ _ _ _ _ _ Ho Hp) as (_ & R1 & _ & _). destruct (opened_here _ _ _ _ _ _ Ho' Hp') as (_ & R2 & _ & _).
  destruct (indexed_ok _ _ _ _ ix1) as ([_ _ _ _ _ _ _ _ _ V] & _). destruct (indexed_ok _ _ _ _ ix2) as ([_ _ _ _ _ _ _ _ _ V'] & _).
  apply (forall2_rflats _ _ _ _ _ _ (instructions_alike T _ _ S)). intros i j Hi (_ & _ & _ & Hd & _). unfold backtrace_hint. destruct (i_dbg i) as [r|], (i_dbg j) as [r'|]; try contradiction Hd; [|constructor].
  cbn [both] in Hd. unfold named in Hd. cbn [obind]. assert (fst r' = fst r) as -> by (apply HTv in Hd; destruct Hd as [Hd|[]]; cbn [tdbg fst] in Hd; congruence). rewrite V, V'. pose proof (Hval (fst r)) as Q.
  destruct (ann_value src (pr_stmts pr) (fst r)) as [v|], (ann_value src' (pr_stmts pr') (fst r)) as [v'|]; cbn [obind] in Q |- *; try (rewrite Q || rewrite <- Q); try (constructor; fail).
  destruct (e_json_parse e v') as [jv|]; [|constructor]. cbn [obind]. rewrite Hroots.
  destruct (parse_backtrace_from_json _ _ jv) as [[frames|]|]; [|constructor|exact I]. cbn [rbind]. destruct (end_same _ _ Hd) as [E1 E2]. cbn [tdbg snd] in E1, E2. rewrite R1, R2, E1, E2.
  assert (ends_alike T src src' (lsp_position src (sp_end (snd r))) (lsp_position src' (sp_end (snd r')))) as He by (eexists _, _; split; [exact Hd|split; reflexivity]).
  pose proof (backtrace_alike (e_url_display e) _ _ frames He) as K. destruct (inlay_hint_for_backtrace _ _ (lsp_position src _) frames), (inlay_hint_for_backtrace _ _ (lsp_position src' _) frames); try contradiction K; [|exact I].
  cbn [rmap rbind]. repeat constructor; apply K.
Qed.
Lemma same_hints : hints_alike T uri src src' (inlay_hint_handler e s uri) (inlay_hint_handler e s' uri).
Proof.
  destruct (opened_here _ _ _ _ _ _ Ho Hp) as (_ & _ & E1 & G1). destruct (opened_here _ _ _ _ _ _ Ho' Hp') as (_ & _ & E2 & G2). unfold inlay_hint_handler. rewrite G1, G2, E1, E2, !instructions_eq.
  pose proof backtrace_hints_same as K. destruct (rflat_map (backtrace_hint e s d) _), (rflat_map (backtrace_hint e s' d') _); try contradiction K; [|exact I]. cbn [rbind hints_alike].
  apply Forall2_app; [exact incoming_hints_same|]. apply Forall2_app; [exact K|exact end_hints_same].
Qed.
Lemma same_shown : visits_all (e_ord e) -> shown_alike T uri src src' e s s'.
Proof. intros Hv. split; [exact (same_outline Hv)|]. split; [exact same_folds|]. split; [exact (same_lenses Hv)|exact same_hints]. Qed.
End Same.
