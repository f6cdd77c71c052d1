(** Outline, folds, highlighting and navigation after a rename. *)
From Verif Require Import Text Rope Chumsky Tokenizer Parser Numbers Index SemTok Diag Rename Cfg Backtrace Server SpecText SpecLex SpecParse SpecIndex SpecDiag SpecBacktrace SpecNumbers SpecCfg SpecView SpecSemTok SpecRename SpecPatch SpecSimilar SpecRebind SpecSteps SpecComment SpecAfter
  PText PRope PLexSpec PLexProps PParse PParseProps PNumbers PHints PFold PFoldText PNav PRequest PIndex PIndexDoc PIndexText PDiag PRename PRelex PRetree PRebind PUndo PSteps PDiagDoc PKeep PCfg PCoherent PSumIndex PSumView PAlike PComment PAfter.

(** ** External definitions of renamed functions *)
Section Externals.
Variables (D F : text -> text -> Prop).
Hypothesis HD : forall a a' b b', D a a' -> D b b' -> (a = b <-> a' = b').
Hypothesis HF : forall a a' b b', F a a' -> F b b' -> (a = b <-> a' = b').
Definition linked (x y : statement) : Prop :=
  match x, y with
  | SFuncDecl sg _ g, SFuncDecl sg' _ g' => F (fst (fs_name sg)) (fst (fs_name sg')) /\ both (fun v w => D (fst v) (fst w)) g g'
  | SDbgAnnotation v l, SDbgAnnotation w m => D (fst v) (fst w) /\ Forall2 (fun a b => similar (fst a) (fst b)) l m
  | SFuncDecl _ _ _, _ | SDbgAnnotation _ _, _ | _, SFuncDecl _ _ _ | _, SDbgAnnotation _ _ => False
  | _, _ => True
  end.
Lemma eqb_linked (P : text -> text -> Prop) a a' b b' : (forall a a' b b', P a a' -> P b b' -> (a = b <-> a' = b')) -> P a a' -> P b b' -> text_eqb a b = text_eqb a' b'.
Proof. intros H H1 H2. pose proof (H _ _ _ _ H1 H2). destruct (text_eqb_spec a b), (text_eqb_spec a' b'); tauto. Qed.
Lemma decl_for_linked a b v w : D v w -> Forall2 linked a b -> both F (decl_for a v) (decl_for b w).
Proof.
  intros Hv H. unfold decl_for. assert (both F (@None text) (@None text)) as K by exact I. revert K. generalize (@None text) at 1 3. generalize (@None text).
  induction H as [|x y a b Hxy H IH]; intros acc acc' K; [exact K|]. cbn [fold_left]. apply IH.
  destruct x as [? ?|sg ad g|? ? ?|? ?|? ?], y as [? ?|sg' ad' g'|? ? ?|? ?|? ?]; try contradiction Hxy; try exact K.
  destruct Hxy as [Hf Hg]. destruct g, g'; cbn [both] in Hg; try contradiction; [|exact K]. rewrite (eqb_linked D _ _ _ _ HD Hv Hg). destruct (text_eqb w _); [exact Hf|exact K].
Qed.
Lemma stmt_ext_linked pre pre' x y f f' : Forall2 linked pre pre' -> linked x y -> F f f' -> stmt_ext pre x f = stmt_ext pre' y f'.
Proof.
  intros Hp H Hf. destruct x as [? ?|sg ad g|? ? ?|? ?|v dd], y as [? ?|sg' ad' g'|? ? ?|? ?|v' dd']; try contradiction H; try reflexivity.
  destruct H as [Hv Hd]. cbn [stmt_ext]. inversion Hd as [|a b l l' Hab Hl]; subst; [reflexivity|]. destruct a as [a sa], b as [b sb]. cbn [fst] in Hab.
  destruct Hab as [<-|Hab].
  - inversion Hl; subst; [|destruct a; reflexivity]. destruct a; try reflexivity. pose proof (decl_for_linked _ _ _ _ Hv Hp) as K.
    destruct (decl_for pre (fst v)) as [q|], (decl_for pre' (fst v')) as [q'|]; cbn [both] in K; try contradiction; [|reflexivity].
    destruct (parse_file_line _) as [[? ?]|]; [|reflexivity]. rewrite (eqb_linked F _ _ _ _ HF Hf K). reflexivity.
  - destruct a, b; contradiction Hab || reflexivity.
Qed.
Lemma ext_defs_linked f f' : F f f' -> forall ss ss', Forall2 linked ss ss' -> forall pre pre', Forall2 linked pre pre' -> ext_defs pre ss f = ext_defs pre' ss' f'.
Proof.
  intros Hf. induction 1 as [|x y ss ss' Hxy H IH]; intros pre pre' Hp; [reflexivity|]. cbn [ext_defs]. rewrite (stmt_ext_linked _ _ _ _ _ _ Hp Hxy Hf). f_equal.
  apply IH. apply Forall2_app; [exact Hp|constructor; [exact Hxy|constructor]].
Qed.
End Externals.

(** ** Lengths *)
Lemma regapped_lengths u src edits i j t t' toks toks' : regapped u src edits i j t t' toks toks' ->
  Forall2 (fun a b => exists w w', swapped u src edits a w w' /\ sp_end (snd a) - sp_start (snd a) = length w /\ sp_end (snd b) - sp_start (snd b) = length w') toks toks'.
Proof. induction 1 as [|i j bl a a' w w' r r' toks toks' Hs Hr IH]; constructor; [|exact IH]. exists w, w'. cbn [snd sp_start sp_end]. split; [exact Hs|lia]. Qed.

Lemma opened_here e s uri src d pr : opened e s uri src d -> parse_from_str (e_u e) src = Val pr ->
  indexed (e_u e) src pr (doc_index d) /\ doc_rope d = src /\ doc_stmts d = pr_stmts pr /\ get_doc s uri = Some d.
Proof. intros H P. apply opened_indexed in H as (pr0 & Hix & Hr & Hs & Hg). assert (pr0 = pr) as -> by (destruct Hix as [G _]; congruence). auto. Qed.

Lemma tree_of_stmt st n ss k : In st ss -> (forall id, In n (stmt_occs id st)) -> In n (tree_occs k ss).
Proof.
  intros H Hn. revert k. induction ss as [|y ss IH]; intros k; [contradiction H|]. cbn [tree_occs]. apply in_or_app.
  destruct H as [->|H]; [left; apply Hn|right; apply IH; exact H].
Qed.
Lemma map_flat {A B C} (f : B -> C) (g : A -> list B) k : map f (flat_map g k) = flat_map (fun x => map f (g x)) k.
Proof. induction k as [|x k IH]; [reflexivity|]. cbn [flat_map]. rewrite map_app, IH. reflexivity. Qed.
Lemma stmts_loop {A B} (Q : statement -> statement -> Prop) (f : statement -> list A) (g : statement -> list B) (h : A -> B) ss ss' : Forall2 Q ss ss' ->
  (forall x y, In x ss -> Q x y -> g y = map h (f x)) -> flat_map g ss' = map h (flat_map f ss).
Proof. intros H G. exact (flat_two Q f g h ss ss' H G). Qed.

Lemma bodies_of u src pr ix : indexed u src pr ix -> length (function_bodies ix) = length (function_defs (pr_stmts pr)) /\
  forall id fb, nth_error (function_bodies ix) id = Some fb -> exists f, nth_error (function_defs (pr_stmts pr)) id = Some f /\ basic_blocks fb = fb_blocks (snd f) /\
    nth_error (flat_map func_ranges (pr_stmts pr)) id = Some (complete_range fb) /\ numbers (mentions_label (snd f)) (length (labels fb)).
Proof.
  intros H. destruct pr as [ts ss e0]. split; [exact (bodies_count _ _ _ _ _ H)|]. intros id fb Hn. destruct (bodies_at _ _ _ _ _ H _ _ Hn) as (f & H1 & _ & H2 & H3 & H4 & _). exists f. auto.
Qed.

Lemma tokens_of e s uri src d pr : plain_document src -> opened e s uri src d -> parse_from_str (e_u e) src = Val pr ->
  exists out, semantic_tokens_full s uri = Val (Some out) /\ Forall2 (shows (lsp_position src)) (filter_map highlighted (pr_tokens pr)) (decode out).
Proof. destruct pr. apply tokens_shown. Qed.
Lemma combine_pairs {A B} (a : list A) (b : list B) : length a = length b -> Forall2 (fun x y => In (x, y) (combine a b)) a b.
Proof.
  revert b. induction a as [|x a IH]; intros [|y b] E; try discriminate; constructor; [left; reflexivity|]. injection E as E. eapply forall2_impl; [|exact (IH b E)]. intros ? ? H. right. exact H.
Qed.
Lemma rev_pairs {A B} (Q : A -> B -> Prop) a b : Forall2 Q a b -> Forall2 Q (rev a) (rev b).
Proof. induction 1; [constructor|]. cbn [rev]. apply Forall2_app; [assumption|repeat constructor; assumption]. Qed.
Lemma find_pairs {A B} (Q : A -> B -> Prop) (p : A -> bool) (q : B -> bool) a b : Forall2 Q a b -> (forall x y, Q x y -> p x = q y) -> both Q (find p a) (find q b).
Proof. intros H G. induction H as [|x y a b Hxy _ IH]; [exact I|]. cbn [find]. rewrite <- (G _ _ Hxy). destruct (p x); [exact Hxy|exact IH]. Qed.

(** an outline with other names of global symbols *)
Definition named_symbol (gname : symbol_kind -> text -> text) (edits : list text_edit) (x : doc_symbol) : doc_symbol :=
  mkSym (gname (outlined (ds_kind x)) (ds_name x)) (ds_kind x) (carried_range edits (ds_range x)) (carried_range edits (ds_selection x)).
Section After.
Variables (e : env) (s s' : server) (uri src src' : text) (d d' : doc) (pr pr' : parser_result) (ren : occurrence -> text -> Prop) (gname : symbol_kind -> text -> text) (edits : list text_edit).
Notation u := (e_u e).
Notation l := (recorded (pr_stmts pr) (pr_tokens pr)).
Notation l' := (recorded (pr_stmts pr') (pr_tokens pr')).
Notation T := (counterparts (pr_tokens pr) (pr_tokens pr')).
Hypothesis P1 : plain_document src.
Hypothesis P2 : plain_document src'.
Hypothesis Ho : opened e s uri src d.
Hypothesis Ho' : opened e s' uri src' d'.
Hypothesis Hp : parse_from_str u src = Val pr.
Hypothesis Hp' : parse_from_str u src' = Val pr'.
Hypothesis Hrep : replaces src ren l edits.
Hypothesis Hgl : forall k y z, k = KGlobalVar \/ k = KFunction -> In (occ Def k None y) l -> T (tglobal y) (tglobal z) -> fst z = gname k (fst y).
Hypothesis BA : bound_alike pr pr'.
Hypothesis Hsim : Forall2 (fun a b => similar (fst a) (fst b)) (pr_tokens pr) (pr_tokens pr').
Hypothesis S : Forall2 (same_stmt T) (pr_stmts pr) (pr_stmts pr').
Hypothesis F : Forall2 (follows src src' edits) (pr_tokens pr) (pr_tokens pr').
Hypothesis L : Forall2 (fun a b => exists w w', swapped u src edits a w w' /\ sp_end (snd a) - sp_start (snd a) = length w /\ sp_end (snd b) - sp_start (snd b) = length w') (pr_tokens pr) (pr_tokens pr').

Lemma ix : indexed u src pr (doc_index d). Proof. apply (opened_here _ _ _ _ _ _ Ho Hp). Qed.
Lemma ix' : indexed u src' pr' (doc_index d'). Proof. apply (opened_here _ _ _ _ _ _ Ho' Hp'). Qed.
Lemma sp_tokens : spans_in 0 (length src) (pr_tokens pr). Proof. destruct (indexed_ok _ _ _ _ ix) as (_ & _ & H & _). exact H. Qed.
Lemma sp_tokens' : spans_in 0 (length src') (pr_tokens pr'). Proof. destruct (indexed_ok _ _ _ _ ix') as (_ & _ & H & _). exact H. Qed.
Lemma tree_tokens : subseq (flat_map stmt_tokens (pr_stmts pr)) (pr_tokens pr). Proof. destruct (indexed_ok _ _ _ _ ix) as (_ & _ & _ & H & _). exact H. Qed.
Lemma HF a b : T a b -> follows src src' edits a b. Proof. apply (combine_forall2 _ _ _ F). Qed.
Lemma rng a b : T a b -> lsp_range src' (snd b) = carried_range edits (lsp_range src (snd a)).
Proof. intros H. destruct (HF _ _ H) as [E1 E2]. unfold lsp_range, carried_range. cbn [r_start r_end]. rewrite E1, E2. reflexivity. Qed.
Lemma rngs s1 s2 : ranges T s1 s2 -> lsp_range src' s2 = carried_range edits (lsp_range src s1).
Proof.
  intros [(a & b & H & E1 & E2) (a' & b' & H' & E3 & E4)]. destruct (HF _ _ H) as [G _]. destruct (HF _ _ H') as [_ G'].
  unfold lsp_range, carried_range. cbn [r_start r_end]. rewrite E1, E2, E3, E4, G, G'. reflexivity.
Qed.
Lemma in_tree x : In x (tree_occs 0 (pr_stmts pr)) -> In x l.
Proof. intros H. rewrite (recorded_eq _ _ _ sp_tokens tree_tokens). apply in_or_app. left. exact H. Qed.
Lemma in_tree_stmt st n : In st (pr_stmts pr) -> (forall id, In n (stmt_occs id st)) -> In n l.
Proof. intros H Hn. apply in_tree. apply (tree_of_stmt _ _ _ 0 H Hn). Qed.

(** outline *)
Lemma after_variables : map (variable_symbol src') (variable_names (pr_stmts pr')) = map (named_symbol gname edits) (map (variable_symbol src) (variable_names (pr_stmts pr))).
Proof.
  unfold variable_names. rewrite (map_flat (variable_symbol src)), (map_flat (variable_symbol src')). 
  apply (stmts_loop _ _ _ _ _ _ S). intros y z Hy Hyz.
  destruct y, z; try contradiction Hyz; try reflexivity. cbn in Hyz. destruct Hyz as [Hyz _]. cbn [map]. unfold variable_symbol, named_symbol. cbn [ds_name ds_kind ds_range ds_selection outlined].
  rewrite <- (Hgl KGlobalVar _ _ (or_introl eq_refl) (in_tree_stmt _ _ Hy (fun id => or_introl eq_refl)) Hyz). f_equal; f_equal; exact (rng _ _ Hyz).
Qed.
Lemma after_functions : function_outline src' (pr_stmts pr') = map (named_symbol gname edits) (function_outline src (pr_stmts pr)).
Proof.
  apply (stmts_loop _ _ _ _ _ _ S). intros y z Hy Hyz.
  destruct y as [| |kw sg bd| |], z as [| |kw' sg' bd'| |]; try contradiction Hyz; try reflexivity. cbn in Hyz. destruct Hyz as (H1 & (_ & _ & H2 & _) & (_ & H3 & _)). cbn [map]. unfold named_symbol. cbn [ds_name ds_kind ds_range ds_selection outlined].
  rewrite <- (Hgl KFunction _ _ (or_intror eq_refl) (in_tree_stmt _ _ Hy (fun id => or_introl eq_refl)) H2). f_equal; f_equal.
  - unfold carried_range. cbn [r_start r_end]. destruct (HF _ _ H1) as [E1 _]. destruct (HF _ _ H3) as [_ E2]. cbn [snd tp] in E1, E2. rewrite E1, E2. reflexivity.
  - exact (rng _ _ H2).
Qed.
Lemma after_outline : visits_all (e_ord e) -> exists a b, document_symbol e s uri = Some a /\ document_symbol e s' uri = Some b /\ Permutation b (map (named_symbol gname edits) a).
Proof.
  intros Hv. destruct (outline _ _ _ _ _ P1 Hv Ho) as (vs & E & Hvs & _). destruct (outline _ _ _ _ _ P2 Hv Ho') as (vs' & E' & Hvs' & _). eexists _, _. split; [exact E|]. split; [exact E'|].
  destruct (opened_here _ _ _ _ _ _ Ho Hp) as (_ & _ & -> & _). destruct (opened_here _ _ _ _ _ _ Ho' Hp') as (_ & _ & E2 & _). rewrite E2 in *. destruct (opened_here _ _ _ _ _ _ Ho Hp) as (_ & _ & E1 & _). rewrite E1 in Hvs.
  rewrite after_functions, map_app. apply Permutation_app_tail. rewrite Hvs', after_variables, <- Hvs. reflexivity.
Qed.

(** folds *)
Notation label_of id m := (fun x : occurrence * occurrence => (if kind_dec (o_kind (fst x)) KLabel then true else false) && (if body_dec (o_body (fst x)) (Some id) then true else false) && text_eqb (o_name (fst x)) m).
Definition new_label (id : nat) (m : text) : text := match find (label_of id m) (combine l l') with Some x => o_name (snd x) | None => m end.
Lemma label_renamed id x x' : In (x, x') (combine l l') -> o_kind x = KLabel -> o_body x = Some id -> o_name x' = new_label id (o_name x).
Proof.
  intros Hx K B. unfold new_label. destruct (find _ _) as [[y y']|] eqn:E.
  - apply find_some in E as [Hy E]. cbn [fst snd] in *. destruct (kind_dec (o_kind y) KLabel) as [Ky|]; [|discriminate E]. destruct (body_dec (o_body y) (Some id)) as [By|]; [|discriminate E]. cbn [andb] in E. apply text_eqb_eq in E.
    pose proof BA as [[_ Hsy] _]. assert (same_symbol x y) as G by (split; [congruence|split; congruence]). apply (Hsy _ _ _ _ Hx Hy) in G as (_ & _ & G). exact G.
  - exfalso. pose proof (find_none _ _ E _ Hx) as G. cbn [fst] in G. rewrite K, B, text_eqb_refl in G. destruct (kind_dec KLabel KLabel), (body_dec (Some id) (Some id)); try contradiction. discriminate G.
Qed.
Lemma labels_renamed id m' : symbol_in l' KLabel (Some id) m' <-> exists m, symbol_in l KLabel (Some id) m /\ m' = new_label id m.
Proof.
  pose proof BA as [[Hoc _] _]. destruct (forall2_pair _ _ _ Hoc) as [A B]. split.
  - intros (x' & Hx' & K & Bd & <-). destruct (B _ Hx') as (x & Hx). pose proof (combine_forall2 _ _ _ Hoc _ _ Hx) as (_ & K2 & B2 & _). exists (o_name x). split.
    + exists x. split; [eapply in_combine_l; exact Hx|]. split; [congruence|]. split; [congruence|reflexivity].
    + apply label_renamed; [exact Hx|congruence|congruence].
  - intros (m & (x & Hx & K & Bd & <-) & ->). destruct (A _ Hx) as (x' & Hx'). pose proof (combine_forall2 _ _ _ Hoc _ _ Hx') as (_ & K2 & B2 & _). exists x'.
    split; [eapply in_combine_r; exact Hx'|]. split; [congruence|]. split; [congruence|]. apply label_renamed; assumption.
Qed.
Lemma new_label_inj id m k : symbol_in l KLabel (Some id) m -> symbol_in l KLabel (Some id) k -> new_label id m = new_label id k -> m = k.
Proof.
  intros (x & Hx & K & B & <-) (y & Hy & K' & B' & <-). pose proof BA as [[Hoc Hsy] _]. destruct (forall2_pair _ _ _ Hoc) as [A _]. destruct (A _ Hx) as (x' & Px). destruct (A _ Hy) as (y' & Py).
  pose proof (combine_forall2 _ _ _ Hoc _ _ Px) as (_ & K1 & B1 & _). pose proof (combine_forall2 _ _ _ Hoc _ _ Py) as (_ & K2 & B2 & _).
  rewrite <- (label_renamed _ _ _ Px K B), <- (label_renamed _ _ _ Py K' B'). intros E. apply (Hsy _ _ _ _ Px Py). split; [congruence|]. split; congruence.
Qed.
Lemma nodup_map {A B} (f : A -> B) k : NoDup k -> (forall x y, In x k -> In y k -> f x = f y -> x = y) -> NoDup (map f k).
Proof.
  induction 1 as [|x k H _ IH]; intros G; [constructor|]. cbn [map]. constructor.
  - intros K. apply in_map_iff in K as (y & E & Hy). apply H. rewrite <- (G y x (or_intror Hy) (or_introl eq_refl) E). exact Hy.
  - apply IH. intros; apply G; try right; assumption.
Qed.
Lemma label_numbers id f f' n : nth_error (function_defs (pr_stmts pr)) id = Some f -> nth_error (function_defs (pr_stmts pr')) id = Some f' ->
  numbers (mentions_label (snd f)) n -> numbers (mentions_label (snd f')) n.
Proof.
  intros Hf Hf' (k & N & Hk & <-).
  assert (A : forall m, mentions_label (snd f) m <-> symbol_in l KLabel (Some id) m).
  { intros m. rewrite (label_symbols e src d pr ix), Hf. split; [intros H; eexists; split; [reflexivity|exact H]|]. intros (g & E & H). injection E as <-. exact H. }
  assert (A' : forall m, mentions_label (snd f') m <-> symbol_in l' KLabel (Some id) m).
  { intros m. rewrite (label_symbols e src' d' pr' ix'), Hf'. split; [intros H; eexists; split; [reflexivity|exact H]|]. intros (g & E & H). injection E as <-. exact H. }
  exists (map (new_label id) k). split.
  - apply nodup_map; [exact N|]. intros x y Hx Hy. apply new_label_inj; apply A, Hk; assumption.
  - split; [|apply map_length]. intros m'. rewrite A', labels_renamed, in_map_iff. split.
    + intros (m & <- & Hm). exists m. split; [apply A, Hk; exact Hm|reflexivity].
    + intros (m & Hm & ->). exists m. split; [reflexivity|apply Hk, A; exact Hm].
Qed.
Definition same_lines (a b : span) : Prop := p_line (lsp_position src' (sp_start b)) = p_line (lsp_position src (sp_start a)) /\ p_line (lsp_position src' (sp_end b)) = p_line (lsp_position src (sp_end a)).
Lemma lines_of_range a b : lsp_range src' b = carried_range edits (lsp_range src a) -> same_lines a b.
Proof. intros H. split; [exact (f_equal (fun r => p_line (r_start r)) H)|exact (f_equal (fun r => p_line (r_end r)) H)]. Qed.
Definition after_block (x y : basic_block) : Prop := same_lines (bb_span x) (bb_span y) /\ length (bb_instrs y) = length (bb_instrs x).
Lemma after_blocks a b : Forall2 (same_block T) a b -> Forall2 after_block a b.
Proof. apply forall2_impl. intros x y (_ & _ & K1 & K2). split; [apply lines_of_range, rngs; exact K2|symmetry; eapply forall2_len; exact K1]. Qed.
Lemma after_defs : Forall2 (fun f g => Forall2 (same_block T) (fb_blocks (snd f)) (fb_blocks (snd g))) (function_defs (pr_stmts pr)) (function_defs (pr_stmts pr')) /\
  Forall2 same_lines (flat_map func_ranges (pr_stmts pr)) (flat_map func_ranges (pr_stmts pr')).
Proof.
  unfold function_defs. assert (G : forall a b, T a b -> follows src src' edits a b) by exact HF.
  revert S G. generalize T as Q. generalize (pr_stmts pr) as a, (pr_stmts pr') as b. clear. intros a b Q H G. induction H as [|y z a b Hyz _ [IH1 IH2]]; [split; constructor|]. cbn [flat_map].
  destruct y as [| |kw sg bd| |], z as [| |kw' sg' bd'| |]; try contradiction Hyz; try (split; [exact IH1|exact IH2]).
  cbn in Hyz. destruct Hyz as (K1 & _ & (_ & K3 & K4)). cbn [app func_ranges]. split; constructor; try assumption.
  destruct (G _ _ K1) as [E1 _]. destruct (G _ _ K3) as [_ E2]. cbn [snd tp] in E1, E2. unfold same_lines. cbn [sp_start sp_end]. rewrite E1, E2. split; reflexivity.
Qed.
Definition after_body (f g : function_body) : Prop := same_lines (complete_range f) (complete_range g) /\ length (labels g) = length (labels f) /\ Forall2 after_block (basic_blocks f) (basic_blocks g).
Lemma after_bodies : Forall2 after_body (function_bodies (doc_index d)) (function_bodies (doc_index d')).
Proof.
  destruct after_defs as [Hd0 Hr]. apply Forall2_nth_error_iff. pose proof (proj1 (Forall2_nth_error_iff _ _ _) Hd0) as [Ld Hd1]. apply Forall2_nth_error_iff in Hr as [Lr Hr].
  destruct (bodies_of _ _ _ _ ix) as [C1 I1]. destruct (bodies_of _ _ _ _ ix') as [C2 I2].
  split; [rewrite C1, C2; exact Ld|]. intros id f g Hf Hg.
  destruct (I1 _ _ Hf) as (y & Y1 & Y3 & Y4 & Y5). destruct (I2 _ _ Hg) as (z & Z1 & Z3 & Z4 & Z5).
  split; [exact (Hr _ _ _ Y4 Z4)|]. split.
  - apply (numbers_unique (mentions_label (snd z))); [exact Z5|]. apply (label_numbers id y z); assumption.
  - rewrite Y3, Z3. apply after_blocks. exact (Hd1 _ _ _ Y1 Z1).
Qed.
Lemma after_fold a b what : inside src a -> inside src' b -> same_lines a b -> fold_lines src' b what = option_map (fun x => x) (fold_lines src a what).
Proof.
  intros [B1 B2] [B3 B4] [E1 E2]. unfold fold_lines. rewrite (plain_range src a P1 B1 B2), (plain_range src' b P2 B3 B4). cbn [obind option_map lsp_range r_start r_end]. rewrite E1, E2. reflexivity.
Qed.
Lemma forall2_in {A B} (Q : A -> B -> Prop) a b : Forall2 Q a b -> Forall2 (fun x y => Q x y /\ In y b) a b.
Proof. induction 1 as [|x y a b H _ IH]; constructor; [split; [exact H|left; reflexivity]|]. eapply forall2_impl; [|exact IH]. intros ? ? [? ?]. split; [assumption|right; assumption]. Qed.
Lemma after_folds : exists k, folding_range s uri = Some k /\ folding_range s' uri = Some k.
Proof.
  destruct (opened_here _ _ _ _ _ _ Ho Hp) as (I1 & R1 & _ & G1). destruct (opened_here _ _ _ _ _ _ Ho' Hp') as (I2 & R2 & _ & G2). pose proof (forall2_in _ _ _ after_bodies) as HB.
  eexists. split; [exact (folding_is _ _ _ G1)|]. rewrite (folding_is _ _ _ G2), R1, R2.
  assert (In1 : forall fb, In fb (function_bodies (doc_index d)) -> inside src (complete_range fb) /\ Forall (block_inside src) (basic_blocks fb)).
  { intros fb Hfb. clear - I1 Hfb P1. destruct pr. destruct (bodies_inside _ _ _ _ _ fb (proj2 (proj2 P1)) I1 Hfb) as (A & _ & B & _). split; assumption. }
  assert (In2 : forall fb, In fb (function_bodies (doc_index d')) -> inside src' (complete_range fb) /\ Forall (block_inside src') (basic_blocks fb)).
  { intros fb Hfb. clear - I2 Hfb P2. destruct pr'. destruct (bodies_inside _ _ _ _ _ fb (proj2 (proj2 P2)) I2 Hfb) as (A & _ & B & _). split; assumption. }
  do 2 f_equal.
  - etransitivity; [|apply map_id]. apply (filter_map_two _ _ _ (fun x => x) _ _ HB). intros f g Hf [(E1 & E2 & _) Hg]. unfold body_fold. rewrite E2. apply after_fold; [apply In1, Hf|apply In2, Hg|exact E1].
  - rewrite !filter_map_flat'. etransitivity; [|apply map_id]. apply (flat_two _ _ _ (fun x => x) _ _ HB). intros f g Hf [(_ & _ & K) Hg]. apply (filter_map_two _ _ _ (fun x => x) _ _ (forall2_in _ _ _ K)).
    intros y z Hy [(E1 & E2) Hz]. unfold block_fold. rewrite E2. destruct (In1 f Hf) as [_ B1]. destruct (In2 g Hg) as [_ B2]. rewrite Forall_forall in B1, B2. apply after_fold; [exact (proj1 (B1 y Hy))|exact (proj1 (B2 z Hz))|exact E1].
Qed.

(** highlighting *)
Lemma edit_occurrence ed : In ed edits -> exists x, In x l /\ ren x (te_text ed) /\ te_range ed = lsp_range src (o_span x).
Proof. intros H. destruct Hrep as (He & _). apply He in H as (x & y & Hx & Hs & ->). exists x. auto. Qed.
Lemma position_inj p q : p <= length src -> q <= length src -> lsp_position src p = lsp_position src q -> p = q.
Proof.
  intros A B G. assert (p <= q) by (apply (leb_positions src P1); [assumption..|rewrite G; apply (leb_positions src P1); auto]).
  assert (q <= p) by (apply (leb_positions src P1); [assumption..|rewrite G; apply (leb_positions src P1); auto]). lia.
Qed.
Lemma token_length a b : T a b -> sp_end (snd b) - sp_start (snd b) =
  match find (fun ed => pos_eqb (r_start (te_range ed)) (lsp_position src (sp_start (snd a)))) edits with Some ed => length (te_text ed) | None => sp_end (snd a) - sp_start (snd a) end.
Proof.
  intros H. destruct (combine_forall2 _ _ _ L _ _ H) as (w & w' & (_ & Hc) & -> & ->). pose proof (in_combine_l _ _ _ _ H) as Ha. pose proof (spans_in_each _ _ _ _ sp_tokens Ha) as Bd.
  destruct (find _ edits) as [ed|] eqn:Ef.
  - apply find_some in Ef as [Hed Es]. destruct (edit_occurrence ed Hed) as (x & Hx & Hs & Er).
    assert (occ_token x = a) as Ea.
    { pose proof (recorded_token _ _ _ sp_tokens tree_tokens _ Hx) as Tx. pose proof (spans_in_each _ _ _ _ sp_tokens Tx) as Bx. cbn [snd occ_token] in Bx.
      assert (sp_start (o_span x) = sp_start (snd a)) as E0. { destruct (position_cases (r_start (te_range ed)) (lsp_position src (sp_start (snd a)))) as [[E _]|[_ E]]; [|congruence]. rewrite Er in E. cbn [lsp_range r_start] in E. apply position_inj in E; [exact E|lia|lia]. }
      destruct (spans_in_disjoint _ _ _ _ _ sp_tokens Tx Ha) as [G|G]; [exact G|]. cbn [snd occ_token] in G. lia. }
    destruct (touched _ _ _ _ _ _ P1 ix Hrep a x _ Ha Hx (f_equal snd Ea) Hs) as [N Hw].
    destruct Hc as [[_ Hu]|(ed' & Hin' & E' & <-)]; [contradiction|]. rewrite (Hw _ Hin' E'). reflexivity.
  - destruct Hc as [[-> _]|(ed' & Hin' & E' & _)]; [reflexivity|]. exfalso. pose proof (find_none _ _ Ef _ Hin') as N. cbn beta in N. rewrite E' in N. cbn [lsp_range r_start] in N.
    unfold pos_eqb in N. rewrite !Nat.eqb_refl in N. discriminate N.
Qed.
Lemma shown_after (Q : stoken -> stoken -> Prop) a b : Forall2 Q a b ->
  (forall x y, Q x y -> match highlighted x, highlighted y with
     | Some (p, n, ty), Some (q, m, ty') => carried_token edits (lsp_position src p, n, 0) = (lsp_position src' q, m, 0) /\ ty = ty' | None, None => True | _, _ => False end) ->
  forall ds es, Forall2 (shows (lsp_position src)) (filter_map highlighted a) ds -> Forall2 (shows (lsp_position src')) (filter_map highlighted b) es -> es = map (carried_token edits) ds.
Proof.
  intros H G. induction H as [|x y a b Hxy _ IH]; intros ds es; cbn [filter_map]; [intros H1 H2; inversion H1; inversion H2; reflexivity|].
  specialize (G _ _ Hxy). destruct (highlighted x) as [[[p n] ty]|], (highlighted y) as [[[q m] ty']|]; try contradiction; [|apply IH].
  intros H1 H2. inversion H1 as [|? [[p1 l1] i1] ? ds' X1 X2]; subst. inversion H2 as [|? [[p2 l2] i2] ? es' Y1 Y2]; subst. cbn [map]. f_equal; [|apply IH; assumption].
  destruct G as [G ->]. cbn [shows] in X1, Y1. destruct X1 as (-> & -> & X), Y1 as (-> & -> & Y). rewrite (legend_unique _ _ _ Y X). unfold carried_token in *. injection G as G1 G2. rewrite G1, G2. reflexivity.
Qed.
Lemma similar_highlight a b : similar a b -> highlight b = highlight a.
Proof. intros [->|H]; [reflexivity|]. destruct a, b; contradiction H || reflexivity. Qed.
Lemma after_tokens : exists out out', semantic_tokens_full s uri = Val (Some out) /\ semantic_tokens_full s' uri = Val (Some out') /\ decode out' = map (carried_token edits) (decode out).
Proof.
  destruct (tokens_of _ _ _ _ _ _ P1 Ho Hp) as (out & E1 & H1). destruct (tokens_of _ _ _ _ _ _ P2 Ho' Hp') as (out' & E2 & H2). exists out, out'. split; [exact E1|]. split; [exact E2|].
  refine (shown_after (fun a b => T a b) _ _ (combine_pairs _ _ (forall2_len _ _ _ F)) _ _ _ H1 H2). intros x y Hxy. pose proof (combine_forall2 _ _ _ Hsim _ _ Hxy) as Hs. cbn beta in Hs.
  unfold highlighted. rewrite (similar_highlight _ _ Hs). destruct (highlight (fst x)); [|exact I]. split; [|reflexivity]. unfold carried_token. rewrite (token_length _ _ Hxy). destruct (HF _ _ Hxy) as [-> _]. reflexivity.
Qed.

(** navigation *)
Lemma contains_start x a : In x l -> In a (pr_tokens pr) -> span_contains (o_span x) (sp_start (snd a)) = true <-> o_span x = snd a.
Proof.
  intros Hx Ha. pose proof (recorded_token _ _ _ sp_tokens tree_tokens _ Hx) as Tx. pose proof (spans_in_each _ _ _ _ sp_tokens Tx) as Bx. pose proof (spans_in_each _ _ _ _ sp_tokens Ha) as Ba.
  unfold span_contains. rewrite andb_true_iff, Nat.leb_le, Nat.ltb_lt. split; [|intros ->; cbn [snd occ_token] in *; lia].
  destruct (spans_in_disjoint _ _ _ _ _ sp_tokens Tx Ha) as [G|G]; [intros _; exact (f_equal snd G)|]. cbn [snd occ_token] in *. lia.
Qed.
Lemma contains_start' x a : In x l' -> In a (pr_tokens pr') -> span_contains (o_span x) (sp_start (snd a)) = true <-> o_span x = snd a.
Proof.
  destruct (indexed_ok _ _ _ _ ix') as (_ & _ & Hsp & Hsub & _).
  intros Hx Ha. pose proof (recorded_token _ _ _ Hsp Hsub _ Hx) as Tx. pose proof (spans_in_each _ _ _ _ Hsp Tx) as Bx. pose proof (spans_in_each _ _ _ _ Hsp Ha) as Ba.
  unfold span_contains. rewrite andb_true_iff, Nat.leb_le, Nat.ltb_lt. split; [|intros ->; cbn [snd occ_token] in *; lia].
  destruct (spans_in_disjoint _ _ _ _ _ Hsp Tx Ha) as [G|G]; [intros _; exact (f_equal snd G)|]. cbn [snd occ_token] in *. lia.
Qed.
Notation pairs := (fun x x' => In (x, x') (combine l l')).
Lemma occ_pairs : Forall2 pairs l l'.
Proof. apply combine_pairs. destruct BA as [[H _] _]. exact (forall2_len _ _ _ H). Qed.
Lemma after_symbol y : In y l -> exists x x', symbol_at d (lsp_position src (sp_start (o_span y))) = Some x /\ In (x, x') (combine l l') /\ occ_token x = occ_token y /\
  symbol_at d' (carried edits (lsp_position src (sp_start (o_span y)))) = Some x'.
Proof.
  intros Hy. pose proof BA as [[Hoc _] _]. pose proof (recorded_token _ _ _ sp_tokens tree_tokens _ Hy) as Ty. destruct (forall2_pair _ _ _ F) as [A _]. destruct (A _ Ty) as (b & Hb).
  pose proof (in_combine_r _ _ _ _ Hb) as Tb. pose proof (spans_in_each _ _ _ _ sp_tokens Ty) as B1. pose proof (spans_in_each _ _ _ _ sp_tokens' Tb) as B2. cbn [snd occ_token] in B1.
  destruct (HF _ _ Hb) as [E _]. cbn [snd occ_token] in E. rewrite <- E.
  destruct (opened_here _ _ _ _ _ _ Ho Hp) as (_ & R1 & _ & _). destruct (opened_here _ _ _ _ _ _ Ho' Hp') as (_ & R2 & _ & _).
  rewrite (symbol_at_find e src d pr ix R1 P1) by lia. rewrite (symbol_at_find e src' d' pr' ix' R2 P2) by lia.
  assert (K : forall x x', In (x, x') (combine l l') -> span_contains (o_span x) (sp_start (o_span y)) = span_contains (o_span x') (sp_start (snd b))).
  { intros x x' Hx. destruct (pair_at _ _ _ _ _ _ _ ix ix' Hoc _ _ _ _ Hb Hx) as [G _]. pose proof (contains_start x _ (in_combine_l _ _ _ _ Hx) Ty) as C1. pose proof (contains_start' x' b (in_combine_r _ _ _ _ Hx) Tb) as C2. cbn [snd occ_token] in C1, G.
    destruct (span_contains (o_span x) _) eqn:Q1, (span_contains (o_span x') _) eqn:Q2; try reflexivity; exfalso.
    - assert (false = true) as Z by (apply C2, G, C1; reflexivity). discriminate Z.
    - assert (false = true) as Z by (apply C1, G, C2; reflexivity). discriminate Z. }
  pose proof (find_pairs _ _ _ _ _ (rev_pairs _ _ _ occ_pairs) K) as M.
  destruct (find _ (rev l)) as [x|] eqn:Ef.
  - destruct (find _ (rev l')) as [x'|] eqn:Ef'; [|contradiction]. exists x, x'. split; [reflexivity|]. split; [exact M|]. split; [|reflexivity].
    apply find_some in Ef as [Hx Hc]. apply in_rev in Hx. apply (contains_start x _ Hx Ty) in Hc. exact (proj1 (proj2 (pair_at _ _ _ _ _ _ _ ix ix' Hoc _ _ _ _ Hb M) Hc)).
  - exfalso. apply in_rev in Hy. pose proof (find_none _ _ Ef _ Hy) as N. cbn beta in N. unfold span_contains in N. apply andb_false_iff in N as [N|N]; [apply Nat.leb_gt in N|apply Nat.ltb_ge in N]; lia.
Qed.
Lemma entry_iff ud x z : entry_is ud (o_kind x) (o_body x) (o_name x) z = true <-> o_ud z = ud /\ same_symbol x z.
Proof.
  unfold entry_is, same_symbol. rewrite !andb_true_iff, text_eqb_eq. destruct (kind_dec (o_kind z) (o_kind x)), (body_dec (o_body z) (o_body x)); destruct (o_ud z), ud; intuition congruence.
Qed.
Lemma occ_range x x' : In (x, x') (combine l l') -> lsp_range src' (o_span x') = carried_range edits (lsp_range src (o_span x)).
Proof. intros H. pose proof BA as [[Hoc _] _]. destruct (combine_forall2 _ _ _ Hoc _ _ H) as (_ & _ & _ & Ht). exact (rng _ _ Ht). Qed.
Lemma after_spans ud x x' : In (x, x') (combine l l') -> map (location_of src' uri) (spans pr' ud x') = map (carried_location uri edits) (map (location_of src uri) (spans pr ud x)).
Proof.
  intros H. pose proof BA as [[Hoc Hsy] _]. unfold spans, spans_of. rewrite !map_map. eapply follow_filter; [exact occ_pairs|..].
  - intros z z' _ Hz. pose proof (combine_forall2 _ _ _ Hoc _ _ Hz) as (Eu & _). specialize (Hsy _ _ _ _ H Hz).
    pose proof (entry_iff ud x z) as I1. pose proof (entry_iff ud x' z') as I2. rewrite <- Eu, <- Hsy, <- I1 in I2. destruct (entry_is ud _ _ _ z), (entry_is ud _ _ _ z'); try reflexivity; intuition congruence.
  - intros z z' _ Hz _. unfold location_of, carried_location. cbn [loc_uri loc_range]. rewrite text_eqb_refl, (occ_range _ _ Hz). reflexivity.
Qed.

(** external definitions *)
Definition renames (k : symbol_kind) (a a' : text) : Prop := exists x x', In (x, x') (combine l l') /\ o_kind x = k /\ o_body x = None /\ a = o_name x /\ a' = o_name x'.
Lemma renames_one k a a' b b' : renames k a a' -> renames k b b' -> (a = b <-> a' = b').
Proof.
  intros (x & x' & Hx & Kx & Bx & -> & ->) (y & y' & Hy & Ky & By & -> & ->). pose proof BA as [[Hoc Hsy] _]. specialize (Hsy _ _ _ _ Hx Hy).
  pose proof (combine_forall2 _ _ _ Hoc _ _ Hx) as (_ & K1 & B1 & _). pose proof (combine_forall2 _ _ _ Hoc _ _ Hy) as (_ & K2 & B2 & _). unfold same_symbol in Hsy. split; intros E.
  - apply Hsy. split; [congruence|]. split; congruence.
  - apply Hsy. split; [congruence|]. split; congruence.
Qed.
Lemma renames_at k x a b n : In x l -> o_kind x = k -> o_body x = None -> occ_token x = a -> T a b -> token_name (fst b) = Some n -> renames k (o_name x) n.
Proof.
  intros Hx Kx Bx E Ht En. pose proof BA as [[Hoc _] _]. destruct (there _ _ _ _ _ _ _ ix ix' Hoc x _ _ Ht Hx (f_equal snd E)) as (x' & P & _ & _ & _ & _ & _ & Eb).
  exists x, x'. repeat (split; [assumption || reflexivity|]). pose proof (occ_token_name x') as N. rewrite Eb in N. congruence.
Qed.
Lemma debug_body x : In x l -> o_kind x = KDbgAnnotation -> o_body x = None.
Proof.
  intros H Hk. rewrite (recorded_eq _ _ _ sp_tokens tree_tokens), in_app_iff in H. destruct H as [H|H].
  - pose proof (tree_kind _ _ _ H) as K. rewrite Hk in K. exact K.
  - apply filter_In in H as [H _]. apply in_flat_map in H as (t & _ & H). apply token_shape in H as [_ K]. rewrite Hk in K. exact K.
Qed.
Lemma renames_debug x y : In (tdbg x) (pr_tokens pr) -> T (tdbg x) (tdbg y) -> renames KDbgAnnotation (fst x) (fst y).
Proof.
  intros Hx Ht. destruct (indexed_ok _ _ _ _ ix) as (_ & _ & Hsp & Hsub & Hrg). destruct (recorded_covers _ _ _ Hsp Hsub Hrg (tdbg x) Hx I) as (z & Hz & Es).
  assert (occ_token z = tdbg x) as Ez by (apply (token_span_unique _ _ Hsp); [exact (recorded_token _ _ _ Hsp Hsub _ Hz)|exact Hx|exact Es]).
  assert (o_kind z = KDbgAnnotation /\ o_name z = fst x) as [Kz Nz] by (unfold occ_token, tdbg in Ez; destruct (o_kind z); inversion Ez; auto).
  rewrite <- Nz. eapply renames_at; [exact Hz|exact Kz|exact (debug_body _ Hz Kz)|exact Ez|exact Ht|reflexivity].
Qed.
Lemma linked_stmts : Forall2 (linked (renames KDbgAnnotation) (renames KFunction)) (pr_stmts pr) (pr_stmts pr').
Proof.
  assert (G : forall ss ss', Forall2 (same_stmt T) ss ss' -> incl ss (pr_stmts pr) -> Forall2 (linked (renames KDbgAnnotation) (renames KFunction)) ss ss'); [|apply (G _ _ S), incl_refl].
  induction 1 as [|x y ss ss' Hxy _ IH]; intros Hi; [constructor|]. constructor; [|apply IH; intros z Hz; apply Hi; right; exact Hz]. assert (In x (pr_stmts pr)) as Hx by (apply Hi; left; reflexivity).
  destruct x as [? ?|sg ad g|? ? ?|? ?|v dd], y as [? ?|sg' ad' g'|? ? ?|? ?|v' dd']; try contradiction Hxy; try exact I; cbn in Hxy |- *.
  - destruct Hxy as ((_ & _ & Hn & _) & _ & Hg). split.
    + assert (In (occ Decl KFunction None (fs_name sg)) l) as Hz by (apply (in_tree_stmt _ _ Hx); intros id; left; reflexivity).
      exact (renames_at KFunction _ _ _ _ Hz eq_refl eq_refl eq_refl Hn eq_refl).
    + destruct g as [g|], g' as [g'|]; cbn [both] in Hg |- *; try contradiction; [|exact I]. apply renames_debug; [|exact Hg].
      apply (tree_token_in _ _ _ _ _ Hp Hx). cbn [stmt_tokens]. rewrite !in_app_iff. cbn. auto 8.
  - destruct Hxy as [Hv Hl]. split.
    + apply renames_debug; [|exact Hv]. apply (tree_token_in _ _ _ _ _ Hp Hx). left. reflexivity.
    + eapply forall2_impl; [|exact Hl]. intros a b Hab. exact (combine_forall2 _ _ _ Hsim _ _ Hab).
Qed.
Lemma after_externals x x' : In (x, x') (combine l l') -> externals (pr_stmts pr') x' = externals (pr_stmts pr) x.
Proof.
  intros H. pose proof BA as [[Hoc _] _]. pose proof (combine_forall2 _ _ _ Hoc _ _ H) as (_ & K & B & _). unfold externals. rewrite <- K. destruct (o_kind x) eqn:Kx; try reflexivity.
  symmetry. apply (ext_defs_linked (renames KDbgAnnotation) (renames KFunction)); [apply renames_one|apply renames_one| |exact linked_stmts|constructor].
  exists x, x'. repeat (split; [assumption || reflexivity|]). split; [|split; reflexivity]. apply (global_body e src d pr ix); [eapply in_combine_l; exact H|auto].
Qed.
Lemma carried_externals rs k ext : (forall x y, In x k -> resolve_relative_path (e_fs e) rs (ext_path x) = Val (Some y) -> e_url_display e y <> uri) -> external_locations e rs k = Val ext -> map (carried_location uri edits) ext = ext.
Proof.
  intros Hu. revert ext. induction k as [|x k IH]; intros ext H; cbn [external_locations] in H; [injection H as <-; reflexivity|].
  pose proof (IH (fun z y Hz => Hu z y (or_intror Hz))) as IH'. clear IH. rename IH' into IH. pose proof (fun y => Hu x y (or_introl eq_refl)) as Hx.
  destruct (resolve_relative_path (e_fs e) rs (ext_path x)) as [[y|]|]; cbn [rbind] in H; [|exact (IH _ H)|discriminate].
  destruct (u32_pred (e_pf e) (ext_line x)) as [line|]; cbn [rbind] in H; [|discriminate]. destruct (external_locations e rs k) as [rest|]; cbn [rbind] in H; [|discriminate]. injection H as <-.
  cbn [map]. rewrite (IH rest eq_refl). f_equal. unfold carried_location. cbn [loc_uri]. destruct (text_eqb (e_url_display e y) uri) eqn:E; [|reflexivity]. apply text_eqb_eq in E. destruct (Hx _ eq_refl E).
Qed.
Lemma after_ranges y ud : In y l -> (ud = Def -> roots s' = roots s /\ leads_elsewhere e (roots s) uri (pr_stmts pr)) ->
  let q := lsp_position src (sp_start (o_span y)) in
  get_use_def_ranges e s' uri (carried edits q) ud = rmap (option_map (carried_answer uri edits)) (get_use_def_ranges e s uri q ud).
Proof.
  intros Hy Hdf q. subst q. destruct (opened_here _ _ _ _ _ _ Ho Hp) as (I1 & R1 & _ & G1). destruct (opened_here _ _ _ _ _ _ Ho' Hp') as (I2 & R2 & _ & G2).
  destruct (after_symbol y Hy) as (x & x' & Ex & Hx & _ & Ex').
  pose proof (recorded_token _ _ _ sp_tokens tree_tokens _ Hy) as Ty. destruct (forall2_pair _ _ _ F) as [A _]. destruct (A _ Ty) as (b & Hb). destruct (HF _ _ Hb) as [E _]. cbn [snd occ_token] in E.
  rewrite (answer_at e s uri src d pr I1 R1 G1 P1 x _ ud Ex). rewrite <- E in Ex' |- *. rewrite (answer_at e s' uri src' d' pr' I2 R2 G2 P2 x' _ ud Ex').
  rewrite (after_externals _ _ Hx), (after_spans ud _ _ Hx), (occ_range _ _ Hx). destruct ud; cbn [ud_kind_is_def rmap rbind option_map].
  - unfold carried_answer. cbn [fst snd]. rewrite !app_nil_r. reflexivity.
  - destruct (Hdf eq_refl) as [-> Hu]. destruct (external_locations e (roots s) (externals (pr_stmts pr) x)) as [ext|] eqn:Ee; [|reflexivity]. cbn [rmap rbind option_map]. unfold carried_answer. cbn [fst snd].
    rewrite map_app, (carried_externals (roots s) (externals (pr_stmts pr) x) ext); [reflexivity| |exact Ee]. intros z w Hz. unfold externals in Hz. destruct (o_kind x); try contradiction Hz. exact (Hu _ z w Hz).
  - unfold carried_answer. cbn [fst snd]. rewrite !app_nil_r. reflexivity.
Qed.
Lemma after_navigation y : In y l -> let q := lsp_position src (sp_start (o_span y)) in let q' := carried edits q in
  goto_declaration e s' uri q' = rmap (option_map (carried_answer uri edits)) (goto_declaration e s uri q) /\
  references e s' uri q' = rmap (option_map (map (carried_location uri edits))) (references e s uri q) /\
  prepare_rename s' uri q' = option_map (carried_range edits) (prepare_rename s uri q) /\
  (roots s' = roots s -> leads_elsewhere e (roots s) uri (pr_stmts pr) -> goto_definition e s' uri q' = rmap (option_map (carried_answer uri edits)) (goto_definition e s uri q)).
Proof.
  intros Hy q q'. split; [|split; [|split]].
  - apply (after_ranges y Decl); [exact Hy|discriminate].
  - unfold references. subst q'. pose proof (after_ranges y Use Hy ltac:(discriminate)) as E. cbv zeta in E. fold q in E. rewrite E. destruct (get_use_def_ranges e s uri q Use) as [[[r ls]|]|]; reflexivity.
  - destruct (opened_here _ _ _ _ _ _ Ho Hp) as (I1 & R1 & _ & G1). destruct (opened_here _ _ _ _ _ _ Ho' Hp') as (I2 & R2 & _ & G2).
    destruct (after_symbol y Hy) as (x & x' & Ex & Hx & _ & Ex'). fold q in Ex, Ex'. fold q' in Ex'. unfold prepare_rename. rewrite G1, G2. cbn [obind]. rewrite Ex, Ex'. cbn [obind option_map]. rewrite R1, R2.
    pose proof (recorded_range e src d pr I1 x (in_combine_l _ _ _ _ Hx)) as [B1 B2]. pose proof (recorded_range e src' d' pr' I2 x' (in_combine_r _ _ _ _ Hx)) as [B3 B4].
    rewrite !plain_range by assumption. cbn [option_map]. rewrite (occ_range _ _ Hx). reflexivity.
  - intros Hr Hu. apply after_ranges; [exact Hy|]. intros _. split; assumption.
Qed.
End After.

(** ** After a rename *)
Section Rename.
Variables (e : env) (s s' : server) (uri src : text) (d d' : doc) (pr : parser_result) (p : nat) (o : occurrence) (new final : text) (edits : list text_edit).
Notation u := (e_u e).
Notation l := (recorded (pr_stmts pr) (pr_tokens pr)).
Hypothesis Hsrc : plain_document src.
Hypothesis Hop : opened e s uri src d.
Hypothesis Hpr : parse_from_str u src = Val pr.
Hypothesis Hcl : tokenize u src = Val (Some (pr_tokens pr), []).
Hypothesis Hin : In o l.
Hypothesis Hc : covers (o_span o) p.
Hypothesis Hprop : proper u pr o new final.
Hypothesis Hun : unused l o final.
Hypothesis Her : rename e s uri (lsp_position src p) new = Val (Reply edits).
Hypothesis Hsrc' : plain_document (patched src edits).
Hypothesis Hop' : opened e s' uri (patched src edits) d'.

Lemma renamed_lengths pr' : parse_from_str u (patched src edits) = Val pr' ->
  Forall2 (fun a b => exists w w', swapped u src edits a w w' /\ sp_end (snd a) - sp_start (snd a) = length w /\ sp_end (snd b) - sp_start (snd b) = length w') (pr_tokens pr) (pr_tokens pr').
Proof.
  intros P'. pose proof (index_here e s uri src d pr Hop Hpr) as Hix. destruct Hprop as (Ha & Hend & Hlb & Hd).
  destruct (rename_here e src pr _ Hsrc Hix s uri d p o new final Hop Hin Hc Hd Hcl Ha Hend Hlb) as (eds & pr2 & Er & _ & Hp2 & _ & _ & Hg & _).
  assert (eds = edits) as -> by congruence. assert (pr2 = pr') as -> by congruence. exact (regapped_lengths _ _ _ _ _ _ _ _ _ Hg).
Qed.
Definition new_global (k : symbol_kind) (m : text) : text := if (if kind_dec k (o_kind o) then true else false) && text_eqb m (o_name o) then final else m.
Lemma renamed_global pr' : parse_from_str u (patched src edits) = Val pr' -> retold (renamed o final) l (pr_tokens pr) (pr_tokens pr') -> forall k y z, k = KGlobalVar \/ k = KFunction -> In (occ Def k None y) l -> counterparts (pr_tokens pr) (pr_tokens pr') (tglobal y) (tglobal z) ->
  fst z = new_global k (fst y).
Proof.
  intros P' R k y z Hk Hx Ht. pose proof (index_here e s uri src d pr Hop Hpr) as Hix. destruct (indexed_ok _ _ _ _ Hix) as (_ & _ & Hsp & Hsub & Hrg). unfold new_global.
  destruct (renamed_name _ _ _ _ Hsp Hsub Hrg o final (proper_single _ _ _ _ _ Hprop) R (occ Def k None y) (tglobal z) Hx) as [[(E1 & E2 & E3) E]|[N E]].
  - destruct Hk as [-> | ->]; destruct y; exact Ht.
  - cbn [o_kind o_name occ] in E1, E3. rewrite E1, E3. destruct (kind_dec k k) as [_|N]; [|contradiction]. rewrite text_eqb_refl. cbn [andb]. injection E as E. exact E.
  - injection E as E. cbn [occ o_name] in E. rewrite E. destruct (kind_dec k (o_kind o)) as [K|K]; [|reflexivity]. destruct (text_eqb_spec (fst y) (o_name o)) as [K2|K2]; [|reflexivity].
    exfalso. apply N. split; [symmetry; exact K|]. split; [|symmetry; exact K2]. cbn [occ o_body]. apply (global_body e src d pr Hix); [exact Hin|]. rewrite <- K. exact Hk.
Qed.
Lemma rename_outline : visits_all (e_ord e) -> exists a b, document_symbol e s uri = Some a /\ document_symbol e s' uri = Some b /\ Permutation b (map (carried_symbol o final edits) a).
Proof.
  destruct (renamed_document e s uri src d pr p o new final edits Hsrc Hop Hpr Hcl Hin Hc Hprop Hun Her Hsrc') as (pr' & P' & T' & Hrep & R & B & Hsim & S & X & F).
  intros Hv. eapply after_outline with (src := src) (src' := patched src edits) (gname := new_global) (pr := pr) (pr' := pr'); try eassumption; try exact (renamed_global pr' P' R).
Qed.
Lemma rename_folds : exists k, folding_range s uri = Some k /\ folding_range s' uri = Some k.
Proof.
  destruct (renamed_document e s uri src d pr p o new final edits Hsrc Hop Hpr Hcl Hin Hc Hprop Hun Her Hsrc') as (pr' & P' & T' & Hrep & R & B & Hsim & S & X & F).
  eapply after_folds with (src := src) (src' := patched src edits) (pr := pr) (pr' := pr'); try eassumption.
Qed.
Lemma rename_tokens : exists out out', semantic_tokens_full s uri = Val (Some out) /\ semantic_tokens_full s' uri = Val (Some out') /\ decode out' = map (carried_token edits) (decode out).
Proof.
  destruct (renamed_document e s uri src d pr p o new final edits Hsrc Hop Hpr Hcl Hin Hc Hprop Hun Her Hsrc') as (pr' & P' & T' & Hrep & R & B & Hsim & S & X & F).
  eapply after_tokens with (src := src) (src' := patched src edits) (ren := renamed o final) (pr := pr) (pr' := pr'); try eassumption; exact (renamed_lengths pr' P').
Qed.
Lemma rename_navigation y : In y l -> let q := lsp_position src (sp_start (o_span y)) in let q' := carried edits q in
  goto_declaration e s' uri q' = rmap (option_map (carried_answer uri edits)) (goto_declaration e s uri q) /\
  references e s' uri q' = rmap (option_map (map (carried_location uri edits))) (references e s uri q) /\
  prepare_rename s' uri q' = option_map (carried_range edits) (prepare_rename s uri q) /\
  (roots s' = roots s -> leads_elsewhere e (roots s) uri (pr_stmts pr) -> goto_definition e s' uri q' = rmap (option_map (carried_answer uri edits)) (goto_definition e s uri q)).
Proof.
  destruct (renamed_document e s uri src d pr p o new final edits Hsrc Hop Hpr Hcl Hin Hc Hprop Hun Her Hsrc') as (pr' & P' & T' & Hrep & R & B & Hsim & S & X & F).
  intros Hy. eapply after_navigation with (src := src) (src' := patched src edits) (pr := pr) (pr' := pr'); try eassumption.
Qed.
End Rename.

(** ** All of it *)
Lemma after_diagnostics e s uri src d pr p o new final edits d' diags diags' : renaming e s uri src d pr p o new final edits -> visits_all (e_ord e) ->
  analyze e uri src = Val (d, diags) -> analyze e uri (patched src edits) = Val (d', diags') ->
  let l := recorded (pr_stmts pr) (pr_tokens pr) in
  exists others, Permutation diags (others ++ reports_about src uri l o (fun x => x)) /\
    Permutation diags' (map (carried_diagnostic uri edits) (others ++ reports_about src uri l o (under final))).
Proof. intros (H1 & H2 & H3 & H4 & H5 & H6 & H7 & H8 & H9 & H10) Hv A A'. eapply diagnostics_after; eassumption. Qed.
Lemma after_views e s s' uri src d d' pr p o new final edits : renaming e s uri src d pr p o new final edits -> opened e s' uri (patched src edits) d' -> visits_all (e_ord e) ->
  (exists a b, document_symbol e s uri = Some a /\ document_symbol e s' uri = Some b /\ Permutation b (map (carried_symbol o final edits) a)) /\
  (exists k, folding_range s uri = Some k /\ folding_range s' uri = Some k) /\
  (exists out out', semantic_tokens_full s uri = Val (Some out) /\ semantic_tokens_full s' uri = Val (Some out') /\ decode out' = map (carried_token edits) (decode out)).
Proof.
  intros (H1 & H2 & H3 & H4 & H5 & H6 & H7 & H8 & H9 & H10) A Hv. split; [|split].
  - eapply rename_outline with (src := src) (s := s) (p := p) (new := new) (edits := edits); eassumption.
  - eapply rename_folds with (src := src) (s := s) (p := p) (new := new) (edits := edits); eassumption.
  - eapply rename_tokens with (src := src) (s := s) (p := p) (new := new) (edits := edits); eassumption.
Qed.
Lemma after_answers e s s' uri src d d' pr p o new final edits : renaming e s uri src d pr p o new final edits -> opened e s' uri (patched src edits) d' ->
  forall y, In y (recorded (pr_stmts pr) (pr_tokens pr)) -> let q := lsp_position src (sp_start (o_span y)) in let q' := carried edits q in
  goto_declaration e s' uri q' = rmap (option_map (carried_answer uri edits)) (goto_declaration e s uri q) /\
  references e s' uri q' = rmap (option_map (map (carried_location uri edits))) (references e s uri q) /\
  prepare_rename s' uri q' = option_map (carried_range edits) (prepare_rename s uri q) /\
  (roots s' = roots s -> leads_elsewhere e (roots s) uri (pr_stmts pr) -> goto_definition e s' uri q' = rmap (option_map (carried_answer uri edits)) (goto_definition e s uri q)).
Proof. intros (H1 & H2 & H3 & H4 & H5 & H6 & H7 & H8 & H9 & H10) A y Hy. exact (rename_navigation e s s' uri src d d' pr p o new final edits H1 H2 H3 H4 H5 H6 H7 H8 H9 H10 A y Hy). Qed.
