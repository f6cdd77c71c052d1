(** What else the server says about documents that are put one behind the other. *)
From Verif Require Import Text Rope Chumsky Tokenizer Parser Numbers Index SemTok Diag Rename Cfg Backtrace Server SpecText SpecLex SpecParse SpecIndex SpecDiag SpecBacktrace SpecNumbers SpecCfg SpecView SpecSemTok SpecSum SpecSumView
  PText PRope PSemTok PSemDoc PLexSpec PLexProps PTokens PParse PParseProps PIndex PIndexDoc PIndexText PDiag PDiagDoc PCfg PBacktrace PNumbers PHints PView PFold PFoldText PExt PNav PSum PSumIndex PAbove PSumDoc PSumNav.

Lemma opened_at {e0} e s uri src d ts sts : opened e s uri src d -> parse_from_str (e_u e) src = Val (mkPR ts sts e0) ->
  indexed (e_u e) src (mkPR ts sts e0) (doc_index d) /\ doc_rope d = src /\ doc_stmts d = sts /\ get_doc s uri = Some d.
Proof.
  intros H P. apply opened_indexed in H as (pr & Hix & Hr & Hs & Hg). assert (pr = mkPR ts sts e0) as -> by (destruct Hix as [Hix _]; congruence). auto.
Qed.

(** ** Functions *)
Definition same_function (f g : function_body) : Prop :=
  fb_name g = fb_name f /\ complete_range g = complete_range f /\ basic_blocks g = basic_blocks f /\ length (labels g) = length (labels f) /\
  forall t, alookup t (incoming g) = alookup t (incoming f).
Definition moved_function (d : nat) (f g : function_body) : Prop :=
  fb_name g = move_name d (fb_name f) /\ complete_range g = shift_span d (complete_range f) /\ basic_blocks g = map (move_block d) (basic_blocks f) /\ length (labels g) = length (labels f) /\
  forall t, alookup t (incoming g) = option_map (map (move_name d)) (alookup t (incoming f)).

Lemma spanned_moved d x y : spanned_eqb (move_name d x) (move_name d y) = spanned_eqb x y.
Proof.
  unfold spanned_eqb, move_name, span_eqb, shift_span. destruct x as [x [x1 x2]], y as [y [y1 y2]]. cbn. f_equal. apply Bool.eq_iff_eq_true. rewrite !andb_true_iff, !Nat.eqb_eq. lia.
Qed.
Lemma once_moved d l : forall seen, once (map (move_name d) seen) (map (move_name d) l) = map (move_name d) (once seen l).
Proof.
  induction l as [|x l IH]; intros seen; [reflexivity|]. cbn [map once]. rewrite existsb_map, (existsb_ext' _ (spanned_eqb x)) by (intros; apply spanned_moved).
  destruct (existsb (spanned_eqb x) seen); [apply IH|]. cbn [map]. rewrite <- IH, map_app. reflexivity.
Qed.
Lemma branching_moved d i : is_branching (move_instr d i) = is_branching i.
Proof. reflexivity. Qed.
Lemma branches_moved d t b : branches_to t (move_block d b) = map (move_name d) (branches_to t b).
Proof.
  unfold branches_to. cbn [bb_label move_block bb_instrs]. destruct (bb_label b) as [l|]; [|reflexivity]. cbn [option_map]. rewrite flat_map_map, map_flat. apply flat_map_ext. intros i.
  rewrite branching_moved. destruct (is_branching i); [|reflexivity]. cbn [i_refs move_instr]. rewrite flat_map_map, map_flat. apply flat_map_ext. intros r. cbn [move_name fst]. destruct (text_eqb t (fst r)); reflexivity.
Qed.
Lemma incoming_moved d t bl : incoming_labels (map (move_block d) bl) t = map (move_name d) (incoming_labels bl t).
Proof.
  unfold incoming_labels. rewrite <- (once_moved d _ []). cbn [map]. f_equal. rewrite flat_map_map, map_flat. apply flat_map_ext. intros b. apply branches_moved.
Qed.
Lemma mentions_moved d body n : mentions_label (move_body d body) n <-> mentions_label body n.
Proof.
  unfold mentions_label. cbn [fb_blocks move_body]. split.
  - intros (b & Hb & H). apply in_map_iff in Hb as (c & <- & Hc). exists c. split; [exact Hc|]. cbn [bb_label bb_instrs move_block] in H. destruct H as [(l & E & <-)|(i & r & Hi & Hr & <-)].
    + left. destruct (bb_label c) as [l0|]; [|discriminate]. injection E as <-. eauto.
    + right. apply in_map_iff in Hi as (j & <- & Hj). cbn [i_refs move_instr] in Hr. apply in_map_iff in Hr as (q & <- & Hq). exists j, q. auto.
  - intros (b & Hb & H). exists (move_block d b). split; [apply in_map; exact Hb|]. cbn [bb_label bb_instrs move_block]. destruct H as [(l & -> & <-)|(i & r & Hi & Hr & <-)].
    + left. exists (move_name d l). auto.
    + right. exists (move_instr d i), (move_name d r). split; [apply in_map; exact Hi|]. split; [apply in_map; exact Hr|reflexivity].
Qed.
Lemma numbers_iff P Q n : (forall x, P x <-> Q x) -> numbers P n -> numbers Q n.
Proof. intros H (l & H1 & H2 & H3). exists l. split; [exact H1|]. split; [|exact H3]. intros x. rewrite H2. apply H. Qed.

Lemma bodies_at {e0} u src ts sts ix : indexed u src (mkPR ts sts e0) ix -> forall id fb, nth_error (function_bodies ix) id = Some fb ->
  exists f, nth_error (function_defs sts) id = Some f /\ fb_name fb = fs_name (fst f) /\ basic_blocks fb = fb_blocks (snd f) /\ nth_error (flat_map func_ranges sts) id = Some (complete_range fb) /\
    numbers (mentions_label (snd f)) (length (labels fb)) /\ forall t, alookup t (incoming fb) = match incoming_labels (fb_blocks (snd f)) t with [] => None | l => Some l end.
Proof.
  intros H id fb Hn. destruct (function_body_at _ _ _ _ _ _ H Hn) as (kw & sig & body & _ & Hd & H1 & H2 & _). cbn [pr_stmts] in Hd. exists (sig, body). split; [exact Hd|]. split; [exact H1|]. split; [exact H2|].
  destruct (indexed_ok _ _ _ _ H) as (Ho & _). cbn [pr_stmts pr_tokens] in Ho. split; [rewrite <- (io_ranges _ _ _ _ Ho); apply map_nth_error; exact Hn|]. split.
  - assert (HB := bodies_defs (mkEnv u Debug (fun m => m) (fun _ => None) (fun _ => []) (fun _ => None) (fun _ => None) (fun l => l)) src (mkDoc src [] [] ix) (mkPR ts sts e0) H). cbn [doc_index pr_stmts] in HB.
    apply Forall2_nth_error_iff in HB as [_ HB]. exact (proj2 (HB _ _ _ Hd Hn)).
  - intros t. rewrite (io_incoming _ _ _ _ Ho _ _ Hn), H2. reflexivity.
Qed.

Lemma nth_firstn {A} (l : list A) : forall n i, i < n -> nth_error (firstn n l) i = nth_error l i.
Proof. induction l as [|x l IH]; intros [|n] [|i] H; try lia; try reflexivity. cbn. apply IH. lia. Qed.
Lemma nth_skipn {A} (l : list A) : forall n i, nth_error (skipn n l) i = nth_error l (n + i).
Proof. induction l as [|x l IH]; intros [|n] i; try reflexivity; [destruct i; reflexivity|]. cbn. apply IH. Qed.
Section Sum.
Variables (u : uclass) (a b : text) (ta tb : list stoken) (sa sb : list statement) (eb es : list (simple text)).
Hypothesis Hfl : full_lines a.
Hypothesis Ha : parse_from_str u a = Val (mkPR ta sa []).
Hypothesis Hb : parse_from_str u b = Val (mkPR tb sb eb).
Let d := length a.
Let k := length (function_defs sa).
Let ss := sa ++ map (move_stmt d) sb.
Let toks := ta ++ map (shift_tok d) tb.
Variables ix ixa ixb : hir_index.
Hypothesis Hix : indexed u (a ++ b) (mkPR toks ss es) ix.
Hypothesis Hixa : indexed u a (mkPR ta sa []) ixa.
Hypothesis Hixb : indexed u b (mkPR tb sb eb) ixb.

Lemma bodies_count {e0} v src ts sts i : indexed v src (mkPR ts sts e0) i -> length (function_bodies i) = length (function_defs sts).
Proof. intros H. apply function_bodies_defs in H. apply Forall2_nth_error_iff in H as [H _]. exact H. Qed.
Lemma bodies_sum : exists la lb, function_bodies ix = la ++ lb /\ Forall2 same_function (function_bodies ixa) la /\ Forall2 (moved_function d) (function_bodies ixb) lb.
Proof.
  assert (function_defs ss = function_defs sa ++ map (move_def d) (function_defs sb)) as Ed by (unfold ss; rewrite function_defs_app, defs_moved; reflexivity).
  pose proof (bodies_count _ _ _ _ _ Hix) as C. pose proof (bodies_count _ _ _ _ _ Hixa) as Ca. pose proof (bodies_count _ _ _ _ _ Hixb) as Cb.
  rewrite Ed, app_length, map_length in C. fold k in C, Ca.
  assert (Er : flat_map func_ranges ss = flat_map func_ranges sa ++ map (shift_span d) (flat_map func_ranges sb)) by (unfold ss; rewrite flat_map_app, ranges_moved; reflexivity).
  exists (firstn k (function_bodies ix)), (skipn k (function_bodies ix)). split; [symmetry; apply firstn_skipn|]. split.
  - apply Forall2_nth_error_iff. split; [rewrite firstn_length; lia|]. intros n f g Hf Hg.
    assert (n < k) as Hn by (rewrite <- Ca; apply nth_error_Some; congruence). rewrite nth_firstn in Hg by exact Hn.
    destruct (bodies_at _ _ _ _ _ Hix _ _ Hg) as (x & X1 & X2 & X3 & X4 & X5 & X6). destruct (bodies_at _ _ _ _ _ Hixa _ _ Hf) as (y & Y1 & Y2 & Y3 & Y4 & Y5 & Y6).
    rewrite Ed, nth_error_app1 in X1 by exact Hn. assert (x = y) as -> by congruence. rewrite Er, nth_error_app1 in X4 by (rewrite ranges_count; exact Hn). rewrite X4 in Y4. injection Y4 as Y4.
    split; [congruence|]. split; [exact Y4|]. split; [congruence|]. split; [exact (numbers_unique _ _ _ X5 Y5)|]. intros t. rewrite X6, Y6. reflexivity.
  - apply Forall2_nth_error_iff. split; [rewrite skipn_length; lia|]. intros n f g Hf Hg. rewrite nth_skipn in Hg.
    destruct (bodies_at _ _ _ _ _ Hix _ _ Hg) as (x & X1 & X2 & X3 & X4 & X5 & X6). destruct (bodies_at _ _ _ _ _ Hixb _ _ Hf) as (y & Y1 & Y2 & Y3 & Y4 & Y5 & Y6).
    rewrite Ed, nth_error_app2 in X1 by (unfold k; lia). replace (k + n - length (function_defs sa)) with n in X1 by (unfold k; lia). rewrite nth_error_map, Y1 in X1. injection X1 as <-.
    rewrite Er, nth_error_app2 in X4 by (rewrite ranges_count; unfold k; lia). rewrite ranges_count in X4. replace (k + n - length (function_defs sa)) with n in X4 by (unfold k; lia). rewrite nth_error_map, Y4 in X4. injection X4 as X4.
    destruct y as [sig body]. cbn [move_def fst snd] in *. split; [rewrite X2, Y2; reflexivity|]. split; [congruence|]. split; [rewrite X3, Y3; reflexivity|]. split.
    + apply (numbers_unique (mentions_label body)); [|exact Y5]. eapply numbers_iff; [|exact X5]. intros z. apply mentions_moved.
    + intros t. rewrite X6, Y6. cbn [fb_blocks move_body]. rewrite incoming_moved. destruct (incoming_labels (fb_blocks body) t); reflexivity.
Qed.
End Sum.

(** ** Places *)
Definition inside (src : text) (sp : span) : Prop := sp_start sp <= sp_end sp /\ sp_end sp <= length src.
Section Places.
Variables (a b : text).
Hypothesis Hp : plain_document (a ++ b).
Hypothesis Hfl : full_lines a.
Lemma range_to_low sp : inside a sp -> range_to_lsp (a ++ b) sp = range_to_lsp a sp.
Proof.
  intros [H1 H2]. destruct (plain_parts _ _ Hp) as [Pa _]. rewrite !plain_range by (try assumption; try rewrite app_length; lia). rewrite range_left by (assumption || lia). reflexivity.
Qed.
Lemma range_to_high sp : inside b sp -> range_to_lsp (a ++ b) (shift_span (length a) sp) = option_map (lower_range (lsp_line_ends a)) (range_to_lsp b sp).
Proof.
  intros [H1 H2]. destruct (plain_parts _ _ Hp) as [_ Pb]. rewrite (plain_range b) by assumption. cbn [option_map]. rewrite plain_range; [rewrite range_right by exact Hfl; reflexivity|exact Hp| |]; cbn [shift_span sp_start sp_end]; try rewrite app_length; lia.
Qed.
Lemma plain_pos src p : plain_document src -> p <= length src -> offset_to_lsp_pos src p = Some (lsp_position src p).
Proof. intros (H1 & H2 & H3) H. apply positions_are_lsp_ascii; assumption. Qed.
Lemma pos_low p : p <= length a -> offset_to_lsp_pos (a ++ b) p = offset_to_lsp_pos a p.
Proof.
  intros H. destruct (plain_parts _ _ Hp) as [Pa _]. rewrite !plain_pos by (try assumption; try rewrite app_length; lia). rewrite position_left by assumption. reflexivity.
Qed.
Lemma pos_high p : p <= length b -> offset_to_lsp_pos (a ++ b) (p + length a) = option_map (lower (lsp_line_ends a)) (offset_to_lsp_pos b p).
Proof.
  intros H. destruct (plain_parts _ _ Hp) as [_ Pb]. rewrite !plain_pos by (try assumption; try rewrite app_length; lia). rewrite position_right by exact Hfl. reflexivity.
Qed.
End Places.

Definition block_inside (src : text) (bb : basic_block) : Prop := inside src (bb_span bb) /\ (forall l, bb_label bb = Some l -> inside src (snd l)) /\ (forall c, bb_label_comma bb = Some c -> inside src c).
Lemma bodies_inside {e0} u src ts sts ix fb : small src -> indexed u src (mkPR ts sts e0) ix -> In fb (function_bodies ix) ->
  inside src (complete_range fb) /\ inside src (snd (fb_name fb)) /\ Forall (block_inside src) (basic_blocks fb) /\ forall t l, alookup t (incoming fb) = Some l -> Forall (fun x => inside src (snd x)) l.
Proof.
  intros Hsm H Hin. apply In_nth_error in Hin as [id Hid]. destruct (function_body_at _ _ _ _ _ _ H Hid) as (kw & sig & body & Hs & _ & E1 & E2 & E3).
  assert (Ht : forall t, In t (stmt_tokens (SFuncDef kw sig body)) -> inside src (snd t)).
  { intros t Ht. pose proof (proj1 H) as Hp. apply (tree_token_in _ _ _ _ _ Hp Hs) in Ht. apply parse_from_str_module in Hp as [Hsp _]. destruct (spans_in_each _ _ _ _ Hsp Ht) as (H1 & H2 & H3). split; lia. }
  assert (Hd : In (kw, (sig, body)) (defs3 sts)) by (apply in_flat_map; eexists; split; [exact Hs|left; reflexivity]).
  assert (HB := def3_bounds (mkEnv u Debug (fun m => m) (fun _ => None) (fun _ => []) (fun _ => None) (fun _ => None) (fun l => l)) src (mkDoc src [] [] ix) (mkPR ts sts e0) H eq_refl Hsm).
  assert (inside src (complete_range fb) /\ Forall (fun x => inside src (bb_span x)) (fb_blocks body)) as [K1 K2].
  { specialize (HB (kw, (sig, body)) Hd) as (B1 & B2 & B3). cbn [range3 fst snd sp_start sp_end] in *. rewrite E3. split; [split; cbn; lia|]. unfold blocks3 in B3. cbn [snd] in B3. apply Forall_map in B3. eapply Forall_impl; [|exact B3]. cbn. intros x Hx. split; lia. }
  split; [exact K1|]. split.
  { rewrite E1. change (snd (fs_name sig)) with (snd (tglobal (fs_name sig))). apply Ht. right. unfold sig_tokens. rewrite !in_app_iff. left. right. left. right. left. reflexivity. }
  assert (KB : Forall (block_inside src) (fb_blocks body)).
  { apply Forall_forall. intros bb Hbb. rewrite Forall_forall in K2. split; [apply K2; exact Hbb|]. split.
    - intros l El. change (snd l) with (snd (tident l)). apply Ht. eapply block_tokens_in; [exact Hbb|]. unfold bb_tokens. rewrite El. left. reflexivity.
    - intros c Ec. change c with (snd (tp (ch ":") c)). apply Ht. eapply block_tokens_in; [exact Hbb|]. unfold bb_tokens. apply in_or_app. right. apply in_or_app. left. rewrite Ec. left. reflexivity. }
  split; [rewrite E2; exact KB|]. intros t l El. destruct (bodies_at _ _ _ _ _ H _ _ Hid) as (f & _ & _ & F2 & _ & _ & F3). rewrite <- F2, E2 in F3. rewrite F3 in El.
  pose proof (proj2 (incoming_listed (fb_blocks body) t)) as Hi. assert (incoming_labels (fb_blocks body) t = l) as <- by (destruct (incoming_labels (fb_blocks body) t); [discriminate|congruence]).
  apply Forall_forall. intros x Hx. apply Hi in Hx as (bb & i & r & Hb & El2 & _). rewrite Forall_forall in KB. destruct (KB bb Hb) as (_ & KL & _). exact (KL _ El2).
Qed.

(** ** Folds *)
Definition fold_lines (t : rope) (sp : span) (what : text) : option folding := obind (range_to_lsp t sp) (fun r => Some (mkFold (p_line (r_start r)) (p_line (r_end r)) what)).
Lemma fold_low a b sp what : plain_document (a ++ b) -> full_lines a -> inside a sp -> fold_lines (a ++ b) sp what = fold_lines a sp what.
Proof. intros Hp Hfl H. unfold fold_lines. rewrite range_to_low by assumption. reflexivity. Qed.
Lemma fold_high a b sp what : plain_document (a ++ b) -> full_lines a -> inside b sp -> fold_lines (a ++ b) (shift_span (length a) sp) what = option_map (lower_fold (lsp_line_ends a)) (fold_lines b sp what).
Proof. intros Hp Hfl H. unfold fold_lines. rewrite range_to_high by assumption. destruct (range_to_lsp b sp) as [r|]; reflexivity. Qed.
Lemma filter_map_app' {A B} (f : A -> option B) l m : filter_map f (l ++ m) = filter_map f l ++ filter_map f m.
Proof. induction l as [|x l IH]; [reflexivity|]. cbn [app filter_map]. rewrite IH. destruct (f x); reflexivity. Qed.
Lemma filter_map_two {A B C D} (R : A -> B -> Prop) (f : A -> option C) (g : B -> option D) (h : C -> D) l m : Forall2 R l m -> (forall x y, In x l -> R x y -> g y = option_map h (f x)) -> filter_map g m = map h (filter_map f l).
Proof.
  induction 1 as [|x y l m H _ IH]; intros G; [reflexivity|]. cbn [filter_map]. rewrite (G x y (or_introl eq_refl) H), IH by (intros; apply G; [right; assumption|assumption]). destruct (f x); reflexivity.
Qed.
Lemma map_option {A} (x : option A) : x = option_map (fun y => y) x.
Proof. destruct x; reflexivity. Qed.
Lemma flat_two {A B C D} (R : A -> B -> Prop) (f : A -> list C) (g : B -> list D) (h : C -> D) l m : Forall2 R l m -> (forall x y, In x l -> R x y -> g y = map h (f x)) -> flat_map g m = map h (flat_map f l).
Proof.
  induction 1 as [|x y l m H _ IH]; intros G; [reflexivity|]. cbn [flat_map]. rewrite (G x y (or_introl eq_refl) H), IH, map_app by (intros; apply G; [right; assumption|assumption]). reflexivity.
Qed.
Definition body_fold (t : rope) (f : function_body) := fold_lines t (complete_range f) (render_N (N.of_nat (length (labels f))) ++ str " basic blocks").
Definition block_fold (t : rope) (bb : basic_block) := fold_lines t (bb_span bb) (render_N (N.of_nat (length (bb_instrs bb))) ++ str " instructions").
Lemma folding_is s uri d : get_doc s uri = Some d ->
  folding_range s uri = Some (filter_map (body_fold (doc_rope d)) (function_bodies (doc_index d)) ++ filter_map (block_fold (doc_rope d)) (flat_map basic_blocks (function_bodies (doc_index d)))).
Proof. intros H. unfold folding_range. rewrite H. reflexivity. Qed.
Lemma filter_map_ext_in' {A B} (f g : A -> option B) l : (forall x, In x l -> f x = g x) -> filter_map f l = filter_map g l.
Proof. induction l as [|x l IH]; intros H; [reflexivity|]. cbn [filter_map]. rewrite (H x (or_introl eq_refl)), IH by (intros; apply H; right; assumption). reflexivity. Qed.
Lemma filter_map_map' {A B C} (f : B -> option C) (g : A -> B) l : filter_map f (map g l) = filter_map (fun x => f (g x)) l.
Proof. induction l as [|x l IH]; [reflexivity|]. cbn [map filter_map]. rewrite IH. reflexivity. Qed.
Lemma filter_map_flat' {A B C} (f : B -> option C) (g : A -> list B) l : filter_map f (flat_map g l) = flat_map (fun x => filter_map f (g x)) l.
Proof. induction l as [|x l IH]; [reflexivity|]. cbn [flat_map]. rewrite filter_map_app', IH. reflexivity. Qed.
Lemma filter_map_under {A B C} (f : A -> option B) (g : A -> option C) (h : B -> C) l : (forall x, In x l -> g x = option_map h (f x)) -> filter_map g l = map h (filter_map f l).
Proof. induction l as [|x l IH]; intros G; [reflexivity|]. cbn [filter_map]. rewrite (G x (or_introl eq_refl)), IH by (intros; apply G; right; assumption). destruct (f x); reflexivity. Qed.
Lemma folds_sum e s s1 s2 uri a b D Da Db pa pb : plain_document (a ++ b) -> full_lines a ->
  parse_from_str (e_u e) a = Val pa -> parse_from_str (e_u e) b = Val pb -> pr_errors pa = [] -> read pb ->
  opened e s uri (a ++ b) D -> opened e s1 uri a Da -> opened e s2 uri b Db ->
  exists l la lb, folding_range s uri = Some l /\ folding_range s1 uri = Some la /\ folding_range s2 uri = Some lb /\
    Permutation l (la ++ map (lower_fold (lsp_line_ends a)) lb).
Proof.
  intros Hp Hfl Ha Hb Ea Eb Ho Ho1 Ho2. destruct pa as [ta sa ea], pb as [tb sb eb]. cbn in Ea, Eb. subst ea. destruct (parse_above _ _ _ _ _ _ _ _ Hfl Ha Hb Eb) as (es & Hs & _). destruct (plain_parts _ _ Hp) as [Pa Pb].
  destruct (opened_at _ _ _ _ _ _ _ Ho Hs) as (I & R & _ & G). destruct (opened_at _ _ _ _ _ _ _ Ho1 Ha) as (Ia & Ra & _ & Ga). destruct (opened_at _ _ _ _ _ _ _ Ho2 Hb) as (Ib & Rb & _ & Gb).
  pose proof (folding_is _ _ _ G) as F. pose proof (folding_is _ _ _ Ga) as Fa. pose proof (folding_is _ _ _ Gb) as Fb. rewrite R in F. rewrite Ra in Fa. rewrite Rb in Fb.
  eexists _, _, _. split; [exact F|]. split; [exact Fa|]. split; [exact Fb|].
  destruct (bodies_sum _ _ _ _ _ _ _ _ _ _ _ _ I Ia Ib) as (la & lb & E & H1 & H2). rewrite E. rewrite !filter_map_app', flat_map_app, filter_map_app', map_app.
  assert (In1 := fun fb => bodies_inside _ _ _ _ _ fb (proj2 (proj2 Pa)) Ia). assert (In2 := fun fb => bodies_inside _ _ _ _ _ fb (proj2 (proj2 Pb)) Ib).
  assert (filter_map (body_fold (a ++ b)) la = filter_map (body_fold a) (function_bodies (doc_index Da))) as ->.
  { rewrite <- (map_id (filter_map (body_fold a) _)). apply (filter_map_two _ _ _ _ _ _ H1). intros x y Hx (_ & Y2 & _ & Y4 & _). rewrite <- map_option. unfold body_fold. rewrite Y2, Y4. apply fold_low; try assumption. apply (In1 x Hx). }
  assert (filter_map (body_fold (a ++ b)) lb = map (lower_fold (lsp_line_ends a)) (filter_map (body_fold b) (function_bodies (doc_index Db)))) as ->.
  { apply (filter_map_two _ _ _ _ _ _ H2). intros x y Hx (_ & Y2 & _ & Y4 & _). unfold body_fold. rewrite Y2, Y4. apply fold_high; try assumption. apply (In2 x Hx). }
  assert (filter_map (block_fold (a ++ b)) (flat_map basic_blocks la) = filter_map (block_fold a) (flat_map basic_blocks (function_bodies (doc_index Da)))) as ->.
  { rewrite !filter_map_flat'. rewrite <- (map_id (flat_map _ (function_bodies (doc_index Da)))). apply (flat_two _ _ _ _ _ _ H1). intros x y Hx (_ & _ & Y3 & _). rewrite Y3, map_id. apply filter_map_ext_in'. intros bb Hbb.
    destruct (In1 x Hx) as (_ & _ & K & _). rewrite Forall_forall in K. destruct (K bb Hbb) as [K1 _]. apply fold_low; assumption. }
  assert (filter_map (block_fold (a ++ b)) (flat_map basic_blocks lb) = map (lower_fold (lsp_line_ends a)) (filter_map (block_fold b) (flat_map basic_blocks (function_bodies (doc_index Db))))) as ->.
  { rewrite !filter_map_flat'. apply (flat_two _ _ _ _ _ _ H2). intros x y Hx (_ & _ & Y3 & _). rewrite Y3, filter_map_map'. apply filter_map_under. intros bb Hbb.
    destruct (In2 x Hx) as (_ & _ & K & _). rewrite Forall_forall in K. destruct (K bb Hbb) as [K1 _]. unfold block_fold. cbn [move_block bb_span bb_instrs]. rewrite map_length. apply fold_high; assumption. }
  rewrite <- !app_assoc. apply Permutation_app_head. rewrite !app_assoc. apply Permutation_app_tail. apply Permutation_app_comm.
Qed.

(** ** Graphs *)
Lemma dot_same f g : same_function f g -> create_cfg_dot_visualization g = create_cfg_dot_visualization f.
Proof. intros (H1 & _ & H3 & _). unfold create_cfg_dot_visualization. rewrite H1, H3. reflexivity. Qed.
Lemma edges_moved d bl : cfg_edges (map (move_block d) bl) = cfg_edges bl.
Proof.
  unfold cfg_edges. rewrite flat_map_map. apply flat_map_ext. intros b. unfold bb_edges. cbn [bb_label bb_instrs move_block]. rewrite flat_map_map. apply flat_map_ext. intros i.
  rewrite branching_moved. destruct (bb_label b) as [l|]; [|reflexivity]. cbn [option_map move_name fst]. destruct (is_branching i); [|reflexivity]. cbn [i_refs move_instr]. rewrite map_map. reflexivity.
Qed.
Lemma dot_moved d f g : moved_function d f g -> create_cfg_dot_visualization g = create_cfg_dot_visualization f.
Proof. intros (H1 & _ & H3 & _). unfold create_cfg_dot_visualization. rewrite H1, H3, edges_moved. reflexivity. Qed.
Lemma find_app' {A} (p : A -> bool) l m : find p (l ++ m) = match find p l with Some x => Some x | None => find p m end.
Proof. induction l as [|x l IH]; [reflexivity|]. cbn [app find]. rewrite IH. destruct (p x); reflexivity. Qed.
Lemma find_two {A B} (R : A -> B -> Prop) p q l m : Forall2 R l m -> (forall x y, R x y -> q y = p x) ->
  match find p l, find q m with Some x, Some y => R x y | None, None => True | _, _ => False end.
Proof.
  intros H G. induction H as [|x y l m H _ IH]; [exact I|]. cbn [find]. rewrite (G _ _ H). destruct (p x); [exact H|exact IH].
Qed.
Lemma graph_sum e s s1 s2 uri a b D Da Db pa pb f : full_lines a ->
  parse_from_str (e_u e) a = Val pa -> parse_from_str (e_u e) b = Val pb -> pr_errors pa = [] -> read pb ->
  opened e s uri (a ++ b) D -> opened e s1 uri a Da -> opened e s2 uri b Db ->
  let ask t := execute_command t (str "visualize-cfg") [JStr uri; JStr f] in
  ask s = match ask s1 with Reply g => Reply g | RpcError _ => ask s2 end.
Proof.
  intros Hfl Ha Hb Ea Eb Ho Ho1 Ho2. destruct pa as [ta sa ea], pb as [tb sb eb]. cbn in Ea, Eb. subst ea. destruct (parse_above _ _ _ _ _ _ _ _ Hfl Ha Hb Eb) as (es & Hs & _).
  destruct (opened_at _ _ _ _ _ _ _ Ho Hs) as (I & R & _ & G). destruct (opened_at _ _ _ _ _ _ _ Ho1 Ha) as (Ia & Ra & _ & Ga). destruct (opened_at _ _ _ _ _ _ _ Ho2 Hb) as (Ib & Rb & _ & Gb).
  destruct (bodies_sum _ _ _ _ _ _ _ _ _ _ _ _ I Ia Ib) as (la & lb & E & H1 & H2). unfold execute_command. cbv zeta. change (text_eqb (str "visualize-cfg") (str "visualize-cfg")) with true. cbv iota. rewrite G, Ga, Gb, E, find_app'.
  pose proof (find_two _ (fun b0 => text_eqb (fst (fb_name b0)) f) (fun b0 => text_eqb (fst (fb_name b0)) f) _ _ H1) as F1. pose proof (find_two _ (fun b0 => text_eqb (fst (fb_name b0)) f) (fun b0 => text_eqb (fst (fb_name b0)) f) _ _ H2) as F2.
  assert (X1 : forall x y, same_function x y -> text_eqb (fst (fb_name y)) f = text_eqb (fst (fb_name x)) f) by (intros x y (K & _); rewrite K; reflexivity).
  assert (X2 : forall x y, moved_function (length a) x y -> text_eqb (fst (fb_name y)) f = text_eqb (fst (fb_name x)) f) by (intros x y (K & _); rewrite K; reflexivity).
  specialize (F1 X1). specialize (F2 X2). clear - F1 F2.
  destruct (find _ (function_bodies (doc_index Da))) as [x|], (find _ la) as [y|]; try contradiction; [rewrite (dot_same _ _ F1); reflexivity|].
  destruct (find _ (function_bodies (doc_index Db))) as [z|], (find _ lb) as [w|]; try contradiction; [rewrite (dot_moved _ _ _ F2); reflexivity|reflexivity].
Qed.

(** ** Lenses *)
Lemma count_filter_map {A B} (p : B -> bool) (f : A -> B) l : length (filter p (map f l)) = length (filter (fun x => p (f x)) l).
Proof. induction l as [|x l IH]; [reflexivity|]. cbn [map filter]. destruct (p (f x)); cbn; rewrite IH; reflexivity. Qed.
Lemma filter_none' {A} (p : A -> bool) l : (forall x, In x l -> p x = false) -> filter p l = [].
Proof. induction l as [|x l IH]; intros H; [reflexivity|]. cbn [filter]. rewrite (H x (or_introl eq_refl)). apply IH. intros; apply H; right; assumption. Qed.
Lemma filter_ext_in' {A} (p q : A -> bool) l : (forall x, In x l -> p x = q x) -> filter p l = filter q l.
Proof. induction l as [|x l IH]; intros H; [reflexivity|]. cbn [filter]. rewrite (H x (or_introl eq_refl)), IH by (intros; apply H; right; assumption). reflexivity. Qed.
Lemma filter_map_comm {A B} (p : B -> bool) (f : A -> B) l : filter p (map f l) = map f (filter (fun x => p (f x)) l).
Proof. induction l as [|x l IH]; [reflexivity|]. cbn [map filter]. destruct (p (f x)); cbn [map]; rewrite IH; reflexivity. Qed.
Lemma once_left d sa sb f : own_functions sa sb -> In f (function_defs sa) -> SpecCfg.defined_once (sa ++ map (move_stmt d) sb) f = SpecCfg.defined_once sa f.
Proof.
  intros H Hf. unfold SpecCfg.defined_once. rewrite function_defs_app, defs_moved, filter_app, app_length.
  rewrite (filter_none' _ (map (move_def d) (function_defs sb))); [rewrite Nat.add_0_r; reflexivity|].
  intros x Hx. apply in_map_iff in Hx as ((sig & body) & <- & Hg). unfold same_name. cbn [move_def fst snd move_sig fs_name move_name].
  pose proof (H f (sig, body) Hf Hg) as N. cbn [fst] in N. apply Bool.not_true_iff_false. intros E. apply text_eqb_eq in E. congruence.
Qed.
Lemma once_right d sa sb f : own_functions sa sb -> In f (function_defs sb) -> SpecCfg.defined_once (sa ++ map (move_stmt d) sb) (move_def d f) = SpecCfg.defined_once sb f.
Proof.
  intros H Hf. unfold SpecCfg.defined_once. rewrite function_defs_app, defs_moved, filter_app, app_length.
  rewrite (filter_none' _ (function_defs sa)).
  - rewrite count_filter_map. cbn [length Nat.add]. reflexivity.
  - intros x Hx. destruct f as [s0 b0]. unfold same_name. cbn [move_def fst snd move_sig fs_name move_name].
    pose proof (H x (s0, b0) Hx Hf) as N. cbn [fst] in N. apply Bool.not_true_iff_false. intros E. apply text_eqb_eq in E. congruence.
Qed.
Lemma name_low {e0} u a ta sa f : parse_from_str u a = Val (mkPR ta sa e0) -> In f (function_defs sa) -> inside a (snd (fs_name (fst f))).
Proof.
  intros P Hf. unfold function_defs in Hf. apply in_flat_map in Hf as (st & Hst & Hf). destruct st as [| |kw sig body| |]; try contradiction. destruct Hf as [<-|[]]. cbn [fst].
  assert (Ht : In (tglobal (fs_name sig)) ta).
  { apply (tree_token_in _ _ _ _ _ P Hst). right. unfold sig_tokens. rewrite !in_app_iff. left. right. left. right. left. reflexivity. }
  apply parse_from_str_module in P as [Hsp _]. destruct (spans_in_each _ _ _ _ Hsp Ht) as (H1 & H2 & H3). cbn [tglobal snd] in *. split; lia.
Qed.
Lemma lenses_sum e s s1 s2 uri a b D Da Db pa pb : plain_document (a ++ b) -> full_lines a -> visits_all (e_ord e) ->
  parse_from_str (e_u e) a = Val pa -> parse_from_str (e_u e) b = Val pb -> pr_errors pa = [] -> read pb -> own_functions (pr_stmts pa) (pr_stmts pb) ->
  opened e s uri (a ++ b) D -> opened e s1 uri a Da -> opened e s2 uri b Db ->
  exists l la lb, code_lens e s uri = Some l /\ code_lens e s1 uri = Some la /\ code_lens e s2 uri = Some lb /\
    Permutation l (la ++ map (lower_lens (lsp_line_ends a)) lb).
Proof.
  intros Hp Hfl Hv Ha Hb Ea Eb Hown Ho Ho1 Ho2. destruct pa as [ta sa ea], pb as [tb sb eb]. cbn in Ea, Eb, Hown. subst ea. destruct (parse_above _ _ _ _ _ _ _ _ Hfl Ha Hb Eb) as (es & Hs & _). destruct (plain_parts _ _ Hp) as [Pa Pb].
  destruct (opened_at _ _ _ _ _ _ _ Ho Hs) as (_ & _ & S & _). destruct (opened_at _ _ _ _ _ _ _ Ho1 Ha) as (_ & _ & Sa & _). destruct (opened_at _ _ _ _ _ _ _ Ho2 Hb) as (_ & _ & Sb & _).
  destruct (code_lenses _ _ _ _ _ Hp Hv Ho) as (l & L1 & L2). destruct (code_lenses _ _ _ _ _ Pa Hv Ho1) as (la & A1 & A2). destruct (code_lenses _ _ _ _ _ Pb Hv Ho2) as (lb & B1 & B2).
  exists l, la, lb. split; [exact L1|]. split; [exact A1|]. split; [exact B1|]. rewrite L2. etransitivity; [|apply Permutation_app; [symmetry; exact A2|apply Permutation_map; symmetry; exact B2]].
  rewrite S, Sa, Sb. rewrite function_defs_app, filter_app, map_app, defs_moved. apply Permutation_app.
  - rewrite (filter_ext_in' _ (SpecCfg.defined_once sa)) by (intros x Hx; apply once_left; assumption).
    erewrite map_ext_in; [reflexivity|]. intros x Hx. apply filter_In in Hx as [Hx _]. unfold function_lens. destruct (name_low _ _ _ _ _ Ha Hx) as [N1 N2]. rewrite range_left by (assumption || lia). reflexivity.
  - rewrite filter_map_comm, (filter_ext_in' _ (SpecCfg.defined_once sb)) by (intros x Hx; apply once_right; assumption). rewrite !map_map.
    erewrite map_ext_in; [reflexivity|]. intros [sig body] Hx. apply filter_In in Hx as [Hx _]. unfold function_lens, lower_lens. cbn [move_def fst snd move_sig fs_name move_name cl_range cl_command cl_args]. rewrite range_right by exact Hfl. reflexivity.
Qed.

(** ** Tokens *)
Lemma legend_unique i j ty : nth_error LEGEND_TYPE i = Some ty -> nth_error LEGEND_TYPE j = Some ty -> i = j.
Proof.
  intros H1 H2. assert (NoDup LEGEND_TYPE) as N by (repeat (constructor; [cbn; intuition discriminate|]); constructor).
  rewrite NoDup_nth_error in N. apply N; [apply nth_error_Some; congruence|congruence].
Qed.
Definition show_at (pos : nat -> position_) (x : nat * nat * sem_type) (i : nat) : position_ * nat * nat := let '(s, l, _) := x in (pos s, l, i).
Lemma shows_two (p q : nat -> position_) (n : nat) (f : nat * nat * sem_type -> nat * nat * sem_type) xs : forall ds es,
  (forall s l ty, In (s, l, ty) xs -> exists s', f (s, l, ty) = (s', l, ty) /\ q s' = lower n (p s)) ->
  Forall2 (shows p) xs ds -> Forall2 (shows q) (map f xs) es -> es = map (lower_token n) ds.
Proof.
  induction xs as [|[[s l] ty] xs IH]; intros ds es Hf H1 H2; inversion H1 as [|? [[p1 l1] i1] ? ds' X1 X2]; subst; cbn [map] in H2; inversion H2 as [|? [[p2 l2] i2] ? es' Y1 Y2]; subst; [reflexivity|].
  cbn [map]. rewrite <- (IH ds' es'); [|intros; apply Hf; right; assumption|assumption|assumption]. f_equal.
  destruct (Hf s l ty (or_introl eq_refl)) as (s' & E & Q). rewrite E in Y1. cbn in X1, Y1. destruct X1 as (-> & -> & X), Y1 as (-> & -> & Y). cbn. rewrite Q, (legend_unique _ _ _ X Y). reflexivity.
Qed.
Definition shift3 (d : nat) (x : nat * nat * sem_type) : nat * nat * sem_type := let '(s, l, ty) := x in (s + d, l, ty).
Lemma highlighted_shift d t : highlighted (shift_tok d t) = option_map (shift3 d) (highlighted t).
Proof. destruct t as [t [x y]]. unfold highlighted. cbn [shift_tok fst snd shift_span sp_start sp_end]. destruct (highlight t); [|reflexivity]. cbn. replace (y + d - (x + d)) with (y - x) by lia. reflexivity. Qed.
Lemma tokens_shown {e0} e s uri src d ts sts : plain_document src -> opened e s uri src d -> parse_from_str (e_u e) src = Val (mkPR ts sts e0) ->
  exists out, semantic_tokens_full s uri = Val (Some out) /\ Forall2 (shows (lsp_position src)) (filter_map highlighted ts) (decode out).
Proof.
  intros (P1 & P2 & P3) (Hg & ds & Ha) Hp. unfold semantic_tokens_full. rewrite Hg. unfold analyze in Ha. rewrite Hp in Ha. cbn [rbind pr_tokens pr_stmts] in Ha.
  destruct (semantic_tokens_from_tokens ts) as [sem|] eqn:Es; [|discriminate]. cbn [rbind] in Ha.
  destruct (create_index src ts sts) as [ix|]; [|discriminate]. cbn [rbind] in Ha. inversion Ha; subst d. cbn [doc_rope doc_semtoks].
  apply parse_from_str_cases in Hp as [(errs & _ & E & _)|(toks & errs & E & Et & _)]; cbn [pr_tokens] in *; subst.
  - inversion Es; subst sem. exists []. split; [reflexivity|constructor].
  - destruct (document_semantic_tokens_lsp _ _ _ _ P1 P2 P3 E) as (hs & out & E1 & E2 & E3). rewrite E1 in Es. inversion Es; subst sem. exists out. rewrite E2. split; [reflexivity|exact E3].
Qed.
Lemma tokens_sum e s s1 s2 uri a b D Da Db pa pb : plain_document (a ++ b) -> full_lines a ->
  parse_from_str (e_u e) a = Val pa -> parse_from_str (e_u e) b = Val pb -> pr_errors pa = [] -> read pb ->
  opened e s uri (a ++ b) D -> opened e s1 uri a Da -> opened e s2 uri b Db ->
  exists l la lb, semantic_tokens_full s uri = Val (Some l) /\ semantic_tokens_full s1 uri = Val (Some la) /\ semantic_tokens_full s2 uri = Val (Some lb) /\
    decode l = decode la ++ map (lower_token (lsp_line_ends a)) (decode lb).
Proof.
  intros Hp Hfl Ha Hb Ea Eb Ho Ho1 Ho2. destruct pa as [ta sa ea], pb as [tb sb eb]. cbn in Ea, Eb. subst ea. destruct (parse_above _ _ _ _ _ _ _ _ Hfl Ha Hb Eb) as (es & Hs & _). destruct (plain_parts _ _ Hp) as [Pa Pb].
  destruct (tokens_shown _ _ _ _ _ _ _ Hp Ho Hs) as (l & L1 & L2). destruct (tokens_shown _ _ _ _ _ _ _ Pa Ho1 Ha) as (la & A1 & A2). destruct (tokens_shown _ _ _ _ _ _ _ Pb Ho2 Hb) as (lb & B1 & B2).
  exists l, la, lb. split; [exact L1|]. split; [exact A1|]. split; [exact B1|]. rewrite filter_map_app' in L2.
  assert (filter_map highlighted (map (shift_tok (length a)) tb) = map (shift3 (length a)) (filter_map highlighted tb)) as E by (rewrite filter_map_map'; apply filter_map_under; intros; apply highlighted_shift).
  rewrite E in L2. apply Forall2_app_inv_l in L2 as (l1 & l2 & H1 & H2 & ->). f_equal.
  - rewrite <- (map_id (filter_map highlighted ta)) in H1. rewrite (shows_two (lsp_position a) (lsp_position (a ++ b)) 0 (fun x => x) (filter_map highlighted ta) (decode la) l1).
    + rewrite (map_ext _ (fun x => x)); [apply map_id|]. intros [[[x1 x2] y] z]. reflexivity.
    + intros s0 l0 ty Hin. exists s0. split; [reflexivity|]. rewrite position_left; [destruct (lsp_position a s0); reflexivity|exact Hfl|].
      apply in_filter_map in Hin as (t & Ht & Eh). unfold highlighted in Eh. destruct (highlight (fst t)); [|discriminate]. injection Eh as <- _ _.
      apply parse_from_str_module in Ha as [Hsp _]. destruct (spans_in_each _ _ _ _ Hsp Ht) as (X1 & X2 & X3). cbn in *. lia.
    + exact A2.
    + exact H1.
  - eapply shows_two; [|exact B2|exact H2]. intros s0 l0 ty Hin. exists (s0 + length a). split; [reflexivity|]. apply position_right. exact Hfl.
Qed.

(** ** Hints *)
Lemma last_map {A B} (f : A -> B) l x : last (map f l) (f x) = f (last l x).
Proof. induction l as [|y l IH]; [reflexivity|]. destruct l; [reflexivity|exact IH]. Qed.
Lemma value_moved d s : value_range (move_stmt d s) = option_map (fun '(n, x, y) => (n, x + d, y + d)) (value_range s).
Proof.
  destruct s as [| | | |x l]; try reflexivity. cbn [move_stmt value_range]. destruct l as [|[t sp] r]; [reflexivity|]. cbn [map shift_tok fst snd option_map move_name shift_span sp_start].
  f_equal. f_equal. change ((t, shift_span d sp) :: map (shift_tok d) r) with (map (shift_tok d) ((t, sp) :: r)). change (t, shift_span d sp) with (shift_tok d (t, sp)).
  rewrite last_map. reflexivity.
Qed.
Lemma slice_low a b x y : ascii_text (a ++ b) = true -> x <= y -> y <= length a -> byte_slice (a ++ b) x y = byte_slice a x y.
Proof.
  intros H H1 H2. assert (ascii_text a = true) as Ha by (unfold ascii_text in *; rewrite forallb_app in H; apply andb_true_iff in H as [H _]; exact H).
  rewrite !byte_slice_ascii by (try assumption; try rewrite app_length; lia). unfold text_at. cbn [sp_start sp_end]. rewrite skipn_app, firstn_app. replace (y - x - length (skipn x a)) with 0 by (rewrite skipn_length; lia). cbn [firstn]. rewrite app_nil_r. reflexivity.
Qed.
Lemma slice_high a b x y : ascii_text (a ++ b) = true -> x <= y -> y <= length b -> byte_slice (a ++ b) (x + length a) (y + length a) = byte_slice b x y.
Proof.
  intros H H1 H2. assert (ascii_text b = true) as Hb by (unfold ascii_text in *; rewrite forallb_app in H; apply andb_true_iff in H as [_ H]; exact H).
  rewrite !byte_slice_ascii by (try assumption; try rewrite app_length; lia). unfold text_at. cbn [sp_start sp_end]. rewrite skipn_app, skipn_all2 by lia. cbn [app]. replace (x + length a - length a) with x by lia. replace (y + length a - (x + length a)) with (y - x) by lia. reflexivity.
Qed.
Definition ann_step (src n : text) (acc : option text) (s : statement) : option text :=
  match value_range s with
  | Some (m, x, y) => if text_eqb n m then match byte_slice src x y with Val v => Some v | Panic => acc end else acc
  | None => acc
  end.
Lemma ann_fold src ss n : ann_value src ss n = fold_left (ann_step src n) ss None.
Proof. reflexivity. Qed.
Lemma ann_none n src ss : existsb (annotates n) ss = false -> forall acc, fold_left (ann_step src n) ss acc = acc.
Proof.
  induction ss as [|s ss IH]; intros H acc; [reflexivity|]. cbn [existsb] in H. apply orb_false_iff in H as [H1 H2]. cbn [fold_left]. rewrite IH by exact H2.
  unfold ann_step. destruct s as [| | | |x l]; try reflexivity. cbn [annotates] in H1. cbn [value_range]. destruct l as [|[t sp] r]; [reflexivity|]. rewrite text_eqb_sym, H1. reflexivity.
Qed.
Lemma fold_left_two {A B C} (f : C -> A -> C) (g : C -> B -> C) (h : A -> B) l : (forall x, In x l -> forall acc, g acc (h x) = f acc x) -> forall acc, fold_left g (map h l) acc = fold_left f l acc.
Proof. induction l as [|x l IH]; intros H acc; [reflexivity|]. cbn [map fold_left]. rewrite H by (left; reflexivity). apply IH. intros; apply H; right; assumption. Qed.
Lemma value_inside {e0} u src ts sts s n x y : parse_from_str u src = Val (mkPR ts sts e0) -> In s sts -> value_range s = Some (n, x, y) -> x <= y /\ y <= length src.
Proof. intros H Hs E. pose proof (provenance _ _ _ H) as Hsub. apply parse_from_str_module in H as [Hsp _]. eapply value_range_bounds; eassumption. Qed.
Section Values.
Variables (u : uclass) (a b : text) (ta tb : list stoken) (sa sb : list statement) (eb : list (simple text)).
Hypothesis Hp : plain_document (a ++ b).
Hypothesis Ha : parse_from_str u a = Val (mkPR ta sa []).
Hypothesis Hb : parse_from_str u b = Val (mkPR tb sb eb).
Let ss := sa ++ map (move_stmt (length a)) sb.
Lemma value_low n acc : fold_left (ann_step (a ++ b) n) sa acc = fold_left (ann_step a n) sa acc.
Proof.
  rewrite <- (map_id sa) at 1. apply fold_left_two. intros s Hs c. unfold ann_step. destruct (value_range s) as [[[m x] y]|] eqn:E; [|reflexivity]. destruct (value_inside _ _ _ _ _ _ _ _ Ha Hs E) as [H1 H2].
  rewrite (slice_low a b x y) by (try apply Hp; assumption). reflexivity.
Qed.
Lemma value_high n acc : fold_left (ann_step (a ++ b) n) (map (move_stmt (length a)) sb) acc = fold_left (ann_step b n) sb acc.
Proof.
  apply fold_left_two. intros s Hs c. unfold ann_step. rewrite value_moved. destruct (value_range s) as [[[m x] y]|] eqn:E; [|reflexivity]. cbn [option_map]. destruct (value_inside _ _ _ _ _ _ _ _ Hb Hs E) as [H1 H2].
  rewrite (slice_high a b x y) by (try apply Hp; assumption). reflexivity.
Qed.
Lemma values_above n : existsb (annotates n) sb = false -> ann_value (a ++ b) ss n = ann_value a sa n.
Proof. intros H. rewrite !ann_fold. unfold ss. rewrite fold_left_app, value_high, value_low. apply ann_none. exact H. Qed.
Lemma values_below n : existsb (annotates n) sa = false -> ann_value (a ++ b) ss n = ann_value b sb n.
Proof. intros H. rewrite !ann_fold. unfold ss. rewrite fold_left_app, value_high, value_low, (ann_none _ _ _ H). reflexivity. Qed.
End Values.

Lemma dbg_inside {e0} u src ts sts i r : parse_from_str u src = Val (mkPR ts sts e0) -> In i (instructions sts) -> i_dbg i = Some r -> inside src (snd r).
Proof.
  intros Hp Hi Er. assert (In (tdbg r) ts) as Ht.
  { unfold instructions, function_defs in Hi. apply in_flat_map in Hi as ([sig body] & Hd & Hi).
    apply in_flat_map in Hd as (st & Hst & Hd). destruct st as [| |kw sig' body'| |]; try contradiction. destruct Hd as [Hd|[]]. inversion Hd; subst. cbn [snd] in Hi.
    apply in_flat_map in Hi as (bb & Hb & Hi). apply (tree_token_in _ _ _ _ _ Hp Hst). eapply block_tokens_in; [exact Hb|].
    eapply instr_tokens_in; [exact Hi|]. unfold instr_tokens. rewrite !in_app_iff. right. right. right. rewrite Er. left. reflexivity. }
  apply parse_from_str_module in Hp as [Hsp _]. destruct (spans_in_each _ _ _ _ Hsp Ht) as (X1 & X2 & X3). cbn [tdbg snd] in *. split; lia.
Qed.
Lemma hint_lower n u disp pos frames : inlay_hint_for_backtrace u disp (lower n pos) frames = rmap (lower_hint n) (inlay_hint_for_backtrace u disp pos frames).
Proof.
  unfold inlay_hint_for_backtrace. destruct (identify_relevant_frames frames) as [i|]; [|cbn [rbind]; destruct (backtrace_json_to_md u disp frames); reflexivity].
  destruct (nth_error frames i) as [f|]; [|reflexivity]. destruct (shorten_name (f_symbol f) 50) as [sym|]; [|reflexivity]. cbn [rbind]. destruct (format_frame_as_md u disp f) as [tip|]; [|reflexivity]. cbn [rbind].
  destruct (backtrace_json_to_md u disp frames); reflexivity.
Qed.
Lemma rflat_app {A B} (f : A -> res (list B)) l m : rflat_map f (l ++ m) = rbind (rflat_map f l) (fun x => rbind (rflat_map f m) (fun y => Val (x ++ y))).
Proof.
  induction l as [|x l IH]; cbn [app rflat_map rbind].
  - destruct (rflat_map f m); reflexivity.
  - destruct (f x) as [q|]; [|reflexivity]. cbn [rbind]. rewrite IH. destruct (rflat_map f l) as [w|]; [|reflexivity]. cbn [rbind]. destruct (rflat_map f m) as [z|]; [|reflexivity]. cbn [rbind]. rewrite app_assoc. reflexivity.
Qed.
Lemma rflat_two {A B C D} (f : A -> res (list C)) (g : B -> res (list D)) (h : A -> B) (k : C -> D) l : (forall x, In x l -> g (h x) = rmap (map k) (f x)) -> rflat_map g (map h l) = rmap (map k) (rflat_map f l).
Proof.
  induction l as [|x l IH]; intros H; [reflexivity|]. cbn [map rflat_map]. rewrite (H x (or_introl eq_refl)), IH by (intros; apply H; right; assumption).
  destruct (f x) as [q|]; [|reflexivity]. cbn [rmap rbind]. destruct (rflat_map f l) as [w|]; [|reflexivity]. cbn [rmap rbind]. rewrite map_app. reflexivity.
Qed.
Lemma parts_low a b uri l : plain_document (a ++ b) -> full_lines a -> Forall (fun x => inside a (snd x)) l -> forall i, incoming_parts (a ++ b) uri i l = incoming_parts a uri i l.
Proof. intros Hp Hfl H. induction H as [|x l H _ IH]; intros i; [reflexivity|]. cbn [incoming_parts]. rewrite range_to_low, IH by assumption. reflexivity. Qed.
Lemma parts_high a b uri l : plain_document (a ++ b) -> full_lines a -> Forall (fun x => inside b (snd x)) l -> forall i,
  incoming_parts (a ++ b) uri i (map (move_name (length a)) l) = map (lower_part (lsp_line_ends a)) (incoming_parts b uri i l).
Proof.
  intros Hp Hfl H. induction H as [|x l H _ IH]; intros i; [reflexivity|]. cbn [map incoming_parts move_name fst snd]. rewrite range_to_high, IH, map_app by assumption. f_equal.
  destruct (range_to_lsp b (snd x)); [|reflexivity]. cbn [option_map map]. unfold lower_part. cbn [lp_value lp_location lp_tooltip option_map]. reflexivity.
Qed.
(** [None] and panics of the parts are those of the whole. *)
Lemma hints_sum e s s1 s2 uri a b D Da Db pa pb : plain_document (a ++ b) -> full_lines a ->
  parse_from_str (e_u e) a = Val pa -> parse_from_str (e_u e) b = Val pb -> pr_errors pa = [] -> read pb ->
  own_annotations (pr_stmts pa) (pr_stmts pb) -> own_annotations (pr_stmts pb) (pr_stmts pa) ->
  opened e s uri (a ++ b) D -> opened e s1 uri a Da -> opened e s2 uri b Db -> roots s1 = roots s -> roots s2 = roots s ->
  match inlay_hint_handler e s1 uri, inlay_hint_handler e s2 uri with
  | Val (Some la), Val (Some lb) => exists l, inlay_hint_handler e s uri = Val (Some l) /\ Permutation l (la ++ map (lower_hint (lsp_line_ends a)) lb)
  | _, _ => inlay_hint_handler e s uri = Panic
  end.
Proof.
  intros Hp Hfl Ha Hb Ea Eb Oa Ob Ho Ho1 Ho2 R1 R2. destruct pa as [ta sa ea], pb as [tb sb eb]. cbn in Ea, Eb, Oa, Ob. subst ea. destruct (parse_above _ _ _ _ _ _ _ _ Hfl Ha Hb Eb) as (es & Hs & _). destruct (plain_parts _ _ Hp) as [Pa Pb].
  destruct (opened_at _ _ _ _ _ _ _ Ho Hs) as (I & R & S & G). destruct (opened_at _ _ _ _ _ _ _ Ho1 Ha) as (Ia & Ra & Sa & Ga). destruct (opened_at _ _ _ _ _ _ _ Ho2 Hb) as (Ib & Rb & Sb & Gb).
  assert (In1 := fun fb => bodies_inside _ _ _ _ _ fb (proj2 (proj2 Pa)) Ia). assert (In2 := fun fb => bodies_inside _ _ _ _ _ fb (proj2 (proj2 Pb)) Ib).
  destruct (bodies_sum _ _ _ _ _ _ _ _ _ _ _ _ I Ia Ib) as (la & lb & E & H1 & H2).
  destruct (indexed_ok _ _ _ _ I) as ([_ _ _ _ _ _ _ _ _ V] & _). destruct (indexed_ok _ _ _ _ Ia) as ([_ _ _ _ _ _ _ _ _ Va] & _). destruct (indexed_ok _ _ _ _ Ib) as ([_ _ _ _ _ _ _ _ _ Vb] & _). cbn [pr_stmts] in V, Va, Vb.
  unfold inlay_hint_handler. rewrite G, Ga, Gb, S, Sa, Sb, !instructions_eq, instructions_sum, rflat_app.
  assert (rflat_map (backtrace_hint e s D) (instructions sa) = rflat_map (backtrace_hint e s1 Da) (instructions sa)) as ->.
  { rewrite <- (map_id (instructions sa)) at 1. rewrite (rflat_two (backtrace_hint e s1 Da) _ _ (fun h => h)).
    - destruct (rflat_map _ _) as [l|]; [|reflexivity]. cbn [rmap rbind]. rewrite map_id. reflexivity.
    - intros i Hi. unfold backtrace_hint. destruct (i_dbg i) as [r|] eqn:Er; [|reflexivity]. cbn [obind]. rewrite V, Va, (values_above _ _ _ _ _ _ _ _ Hp Ha Hb _ (Oa _ _ Hi Er)).
      destruct (ann_value a sa (fst r)) as [v|]; [|reflexivity]. cbn [obind]. destruct (e_json_parse e v) as [j|]; [|reflexivity]. cbn [obind]. rewrite R1. destruct (parse_backtrace_from_json _ _ j) as [[frames|]|]; [|reflexivity|reflexivity]. cbn [rbind].
      destruct (dbg_inside _ _ _ _ _ _ Ha Hi Er) as [_ K]. rewrite R, Ra, pos_low by assumption. destruct (offset_to_lsp_pos a _) as [pos|]; [|reflexivity]. destruct (inlay_hint_for_backtrace _ _ _ _); reflexivity. }
  assert (rflat_map (backtrace_hint e s D) (map (move_instr (length a)) (instructions sb)) = rmap (map (lower_hint (lsp_line_ends a))) (rflat_map (backtrace_hint e s2 Db) (instructions sb))) as ->.
  { apply rflat_two. intros i Hi. unfold backtrace_hint. cbn [move_instr i_dbg]. destruct (i_dbg i) as [r|] eqn:Er; [|reflexivity]. cbn [option_map obind move_name fst snd]. rewrite V, Vb, (values_below _ _ _ _ _ _ _ _ Hp Ha Hb _ (Ob _ _ Hi Er)).
    destruct (ann_value b sb (fst r)) as [v|]; [|reflexivity]. cbn [obind]. destruct (e_json_parse e v) as [j|]; [|reflexivity]. cbn [obind]. rewrite R2. destruct (parse_backtrace_from_json _ _ j) as [[frames|]|]; [|reflexivity|reflexivity]. cbn [rbind].
    destruct (dbg_inside _ _ _ _ _ _ Hb Hi Er) as [_ K]. rewrite R, Rb. cbn [move_name snd shift_span sp_end]. rewrite pos_high by assumption. destruct (offset_to_lsp_pos b _) as [pos|]; [|reflexivity]. cbn [option_map]. rewrite hint_lower. destruct (inlay_hint_for_backtrace _ _ _ _); reflexivity. }
  destruct (rflat_map (backtrace_hint e s1 Da) _) as [ba|]; cbn [rbind]; [|reflexivity].
  destruct (rflat_map (backtrace_hint e s2 Db) _) as [bb|]; cbn [rbind rmap]; [|reflexivity].
  eexists. split; [reflexivity|]. rewrite E. unfold incoming_hints. rewrite E, flat_map_app, filter_map_app', R, Ra, Rb.
  assert (flat_map (fun f => filter_map (incoming_hint (a ++ b) uri f) (basic_blocks f)) la = flat_map (fun f => filter_map (incoming_hint a uri f) (basic_blocks f)) (function_bodies (doc_index Da))) as ->.
  { rewrite <- (map_id (flat_map _ (function_bodies _))). apply (flat_two _ _ _ _ _ _ H1). intros x y Hx (_ & _ & Y3 & _ & Y5). rewrite Y3, map_id. apply filter_map_ext_in'. intros k Hk.
    destruct (In1 x Hx) as (_ & _ & K & L). rewrite Forall_forall in K. destruct (K k Hk) as (_ & K2 & K3). unfold incoming_hint. destruct (bb_label k) as [l|]; [|reflexivity]. cbn [obind]. rewrite Y5. destruct (alookup (fst l) (incoming x)) as [refs|] eqn:El; [|reflexivity]. cbn [obind].
    destruct (bb_label_comma k) as [c|]; [|reflexivity]. cbn [obind]. rewrite pos_low by (try assumption; apply (K3 c eq_refl)). destruct (offset_to_lsp_pos a _); [|reflexivity]. cbn [obind]. rewrite parts_low by (try assumption; eapply L; exact El). reflexivity. }
  assert (flat_map (fun f => filter_map (incoming_hint (a ++ b) uri f) (basic_blocks f)) lb = map (lower_hint (lsp_line_ends a)) (flat_map (fun f => filter_map (incoming_hint b uri f) (basic_blocks f)) (function_bodies (doc_index Db)))) as ->.
  { apply (flat_two _ _ _ _ _ _ H2). intros x y Hx (_ & _ & Y3 & _ & Y5). rewrite Y3, filter_map_map'. apply filter_map_under. intros k Hk.
    destruct (In2 x Hx) as (_ & _ & K & L). rewrite Forall_forall in K. destruct (K k Hk) as (_ & K2 & K3). unfold incoming_hint. cbn [move_block bb_label bb_label_comma]. destruct (bb_label k) as [l|]; [|reflexivity]. cbn [option_map obind move_name fst]. rewrite Y5. destruct (alookup (fst l) (incoming x)) as [refs|] eqn:El; [|reflexivity]. cbn [option_map obind].
    destruct (bb_label_comma k) as [c|]; [|reflexivity]. cbn [option_map obind shift_span sp_end]. rewrite pos_high by (try assumption; apply (K3 c eq_refl)). destruct (offset_to_lsp_pos b _); [|reflexivity]. cbn [option_map obind]. rewrite parts_high by (try assumption; eapply L; exact El). reflexivity. }
  assert (filter_map (end_hint D uri) la = filter_map (end_hint Da uri) (function_bodies (doc_index Da))) as ->.
  { rewrite <- (map_id (filter_map _ (function_bodies _))). apply (filter_map_two _ _ _ _ _ _ H1). intros x y Hx (Y1 & Y2 & _). rewrite <- map_option. unfold end_hint. destruct (In1 x Hx) as ([_ K1] & K2 & _).
    rewrite R, Ra, Y1, Y2, pos_low, range_to_low by assumption. reflexivity. }
  assert (filter_map (end_hint D uri) lb = map (lower_hint (lsp_line_ends a)) (filter_map (end_hint Db uri) (function_bodies (doc_index Db)))) as ->.
  { apply (filter_map_two _ _ _ _ _ _ H2). intros x y Hx (Y1 & Y2 & _). unfold end_hint. destruct (In2 x Hx) as ([_ K1] & K2 & _).
    rewrite R, Rb, Y1, Y2. change (sp_end (shift_span (length a) (complete_range x))) with (sp_end (complete_range x) + length a). cbn [move_name fst snd]. rewrite pos_high, range_to_high by assumption. destruct (offset_to_lsp_pos b _); [|reflexivity]. cbn [option_map obind]. destruct (range_to_lsp b _); reflexivity. }
  rewrite !map_app. rewrite <- !app_assoc. apply Permutation_app_head. generalize (map (lower_hint (lsp_line_ends a)) bb), (filter_map (end_hint Da uri) (function_bodies (doc_index Da))).
  generalize (map (lower_hint (lsp_line_ends a)) (flat_map (fun f => filter_map (incoming_hint b uri f) (basic_blocks f)) (function_bodies (doc_index Db)))), (map (lower_hint (lsp_line_ends a)) (filter_map (end_hint Db uri) (function_bodies (doc_index Db)))).
  intros L1 L2 L3 L4. etransitivity; [apply Permutation_app_swap_app|]. apply Permutation_app_head. etransitivity; [apply Permutation_app_head, Permutation_app_swap_app|]. apply Permutation_app_swap_app.
Qed.
