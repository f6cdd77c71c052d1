(** Editing one part of a document. *)
From Verif Require Import Text Rope Chumsky Tokenizer Parser Numbers Index SemTok Diag Rename Cfg Backtrace Server SpecText SpecLex SpecParse SpecIndex SpecDiag SpecBacktrace SpecCfg SpecView SpecSemTok SpecSum SpecSumView SpecAbove SpecEdit
  PText PRope PParse PParseProps PIndex PIndexDoc PIndexText PDiag PDiagDoc PHints PLexProps PExt PNav PSum PSumIndex PAbove PSumDoc PSumNav PSumOrder PSumView.

(** ** What is offered *)
Definition offered (ss : list statement) (k : symbol_kind) (d : bool) (n : text) : bool :=
  existsb (fun y => (if kind_dec (fst (fst y)) k then true else false) && Bool.eqb (snd (fst y)) d && text_eqb (snd y) n) (flat_map offer ss).
Lemma offered_in ss k d n : offered ss k d n = true <-> In (k, d, n) (flat_map offer ss).
Proof.
  unfold offered. rewrite existsb_exists. split.
  - intros ([[k' d'] n'] & H & E). cbn in E. apply andb_true_iff in E as [E E3]. apply andb_true_iff in E as [E1 E2]. destruct (kind_dec k' k) as [->|]; [|discriminate]. apply Bool.eqb_prop in E2 as ->. apply text_eqb_eq in E3 as ->. exact H.
  - intros H. exists (k, d, n). split; [exact H|]. cbn. destruct (kind_dec k k); [|congruence]. rewrite Bool.eqb_reflx, text_eqb_refl. reflexivity.
Qed.
Lemma same_offered ss ss' k d n : same_offer ss ss' -> offered ss k d n = offered ss' k d n.
Proof. intros H. apply Bool.eq_iff_eq_true. rewrite !offered_in. apply H. Qed.
Lemma supplies_offered ss o : supplies ss o =
  match o_kind o with
  | KGlobalVar | KFunction => offered ss KGlobalVar true (o_name o) || offered ss KFunction true (o_name o) || offered ss KFunction false (o_name o)
  | KDbgAnnotation => offered ss KDbgAnnotation true (o_name o)
  | KLocalVar | KLabel => false
  end.
Proof.
  assert (forall n, existsb (fun s => declares n s || defines_var n s) ss = offered ss KGlobalVar true n || offered ss KFunction true n || offered ss KFunction false n) as G.
  { intros n. unfold offered. induction ss as [|s ss IH]; [reflexivity|]. cbn [existsb flat_map]. rewrite !existsb_app, IH.
    destruct s; cbn; rewrite ?orb_false_r; try match goal with |- context [text_eqb ?z n] => destruct (text_eqb z n) end; cbn; rewrite ?orb_true_r; reflexivity. }
  assert (forall n, existsb (annotates n) ss = offered ss KDbgAnnotation true n) as A.
  { clear G. intros n. unfold offered. induction ss as [|s ss IH]; [reflexivity|]. cbn [existsb flat_map]. rewrite !existsb_app, IH. destruct s; cbn; rewrite ?orb_false_r; try match goal with |- context [text_eqb ?z n] => destruct (text_eqb z n) end; reflexivity. }
  unfold supplies. rewrite G, A. reflexivity.
Qed.
Lemma same_supplies ss ss' o : same_offer ss ss' -> supplies ss o = supplies ss' o.
Proof. intros H. rewrite !supplies_offered, !(same_offered _ _ _ _ _ H). reflexivity. Qed.
Lemma supplies_app a b o : supplies (a ++ b) o = supplies a o || supplies b o.
Proof. rewrite !provides_sym. apply provides_app. Qed.
Lemma supplies_moved d ss o : supplies (map (move_stmt d) ss) o = supplies ss o.
Proof. rewrite !provides_sym. apply provides_moved. Qed.
Lemma supplies_occ d k ss o : supplies ss (move_occ d k o) = supplies ss o.
Proof. reflexivity. Qed.
Lemma offer_moved d s : offer (move_stmt d s) = offer s.
Proof. destruct s; reflexivity. Qed.
Lemma offer_all d ss : flat_map offer (map (move_stmt d) ss) = flat_map offer ss.
Proof. rewrite flat_map_map. apply flat_map_ext. intros s. apply offer_moved. Qed.
Lemma offer_sum d d' sa sx sx' : same_offer sx sx' -> same_offer (sa ++ map (move_stmt d) sx) (sa ++ map (move_stmt d') sx').
Proof. intros H y. rewrite !flat_map_app, !in_app_iff, !offer_all, (H y). reflexivity. Qed.

(** ** Second definitions *)
Definition occ_dec (x y : occurrence) : {x = y} + {x <> y}.
Proof.
  destruct x as [[a b] c d e f], y as [[a' b'] c' d' e' f'].
  destruct (Nat.eq_dec a a') as [->|]; [|right; congruence]. destruct (Nat.eq_dec b b') as [->|]; [|right; congruence].
  assert ({c = c'} + {c <> c'}) as [->|] by decide equality; [|right; congruence]. destruct (kind_dec d d') as [->|]; [|right; congruence].
  destruct (body_dec f f') as [->|]; [|right; congruence]. destruct (list_eq_dec N.eq_dec e e') as [->|]; [|right; congruence]. left; reflexivity.
Defined.
Definition before (ss : list statement) (o : occurrence) : bool := match o_body o with None => offered ss (o_kind o) true (o_name o) | Some _ => false end.
Definition later (ss sb : list statement) (tb : list stoken) : list occurrence :=
  filter (fun x => is_definition x && (before ss x || existsb (fun y => if occ_dec x y then true else false) (map fst (redefinitions (recorded sb tb))))) (nodup occ_dec (tree_occs 0 sb)).
Lemma tree_global o : forall ss id, In o (tree_occs id ss) -> o_body o = None -> o_ud o = Def -> In (o_kind o, true, o_name o) (flat_map offer ss).
Proof.
  induction ss as [|s ss IH]; intros id H Hb Hd; [contradiction|]. cbn [tree_occs flat_map] in *. apply in_or_app. apply in_app_or in H as [H|H]; [left|right; eapply IH; eassumption].
  destruct s; cbn [stmt_occs] in H; try (destruct H as [<-|[]]; first [discriminate|left; reflexivity]); [|contradiction].
  destruct H as [<-|H]; [left; reflexivity|]. exfalso. apply in_app_or in H as [H|H].
  - unfold param_occs in H. apply in_map_iff in H as (x & <- & _). discriminate.
  - apply in_flat_map in H as (b & _ & H). unfold block_occs in H. apply in_app_or in H as [H|H]; [destruct (bb_label b); [destruct H as [<-|[]]; discriminate|contradiction]|].
    apply in_flat_map in H as (i & _ & H). unfold instr_occs in H. apply in_app_or in H as [H|H]; [destruct (i_target i); [destruct H as [<-|[]]; discriminate|contradiction]|]. try (destruct (is_branching i); [|contradiction]). apply in_map_iff in H as (x & <- & _). discriminate.
Qed.
Lemma offer_tree k n ss : forall id, In (k, true, n) (flat_map offer ss) -> exists o, In o (tree_occs id ss) /\ o_ud o = Def /\ o_kind o = k /\ o_name o = n /\ o_body o = None.
Proof.
  induction ss as [|s ss IH]; intros id H; [contradiction|]. cbn [tree_occs flat_map] in *. apply in_app_or in H as [H|H]; [|destruct (IH (id + is_def s) H) as (o & H1 & H2); exists o; split; [apply in_or_app; right; exact H1|exact H2]].
  destruct s; cbn [offer stmt_occs] in *; try contradiction; destruct H as [H|[]]; try discriminate; injection H as <- <-; eexists; (split; [apply in_or_app; left; left; reflexivity|]); repeat split; reflexivity.
Qed.
Lemma least_start (l : list occurrence) : l <> [] -> exists f, In f l /\ forall g, In g l -> sp_start (o_span f) <= sp_start (o_span g).
Proof.
  induction l as [|x l IH]; [congruence|]. intros _. destruct l as [|y l]; [exists x; split; [left; reflexivity|intros g [<-|[]]; lia]|].
  destruct IH as (f & H1 & H2); [discriminate|]. destruct (le_lt_dec (sp_start (o_span x)) (sp_start (o_span f))).
  - exists x. split; [left; reflexivity|]. intros g [<-|Hg]; [lia|]. specialize (H2 g Hg). lia.
  - exists f. split; [right; exact H1|]. intros g [<-|Hg]; [lia|]. exact (H2 g Hg).
Qed.
Lemma first_before ss o : o_body o = None -> ((exists f, first_defined ss o f) <-> before ss o = true).
Proof.
  intros Hb. unfold before. rewrite Hb, offered_in. split.
  - intros (f & H1 & H2 & (K1 & K2 & K3) & _). rewrite K1, K3. eapply tree_global; [exact H1|congruence|exact H2].
  - intros H. apply (offer_tree _ _ _ 0) in H as (g & G1 & G2 & G3 & G4 & G5).
    destruct (least_start (filter (fun x => is_definition x && same_symbolb x o) (tree_occs 0 ss))) as (f & F1 & F2).
    { intros E. assert (In g []) as []. rewrite <- E. apply filter_In. split; [exact G1|]. unfold is_definition. rewrite G2. cbn [andb]. apply same_symbolb_spec. repeat split; congruence. }
    apply filter_In in F1 as [F1 F3]. apply andb_true_iff in F3 as [F3 F4]. apply same_symbolb_spec in F4 as (S1 & S2 & S3). exists f. split; [exact F1|].
    split; [unfold is_definition in F3; destruct (o_ud f); congruence|]. split; [repeat split; congruence|]. intros h H1 H2 H3. apply F2. apply filter_In. split; [exact H1|]. unfold is_definition. rewrite H2. cbn [andb]. apply same_symbolb_spec. exact H3.
Qed.
Section Two.
Variables (u : uclass) (a b : text) (ta tb : list stoken) (sa sb : list statement) (eb es : list (simple text)).
Hypothesis Hfl : full_lines a.
Hypothesis Ha : parse_from_str u a = Val (mkPR ta sa []).
Hypothesis Hb : parse_from_str u b = Val (mkPR tb sb eb).
Notation d := (length a).
Notation k := (length (function_defs sa)).
Notation ss := (sa ++ map (move_stmt d) sb).
Notation toks := (ta ++ map (shift_tok d) tb).
Hypothesis Hs : parse_from_str u (a ++ b) = Val (mkPR toks ss es).
Lemma in_later x : In x (later sa sb tb) <-> In x (tree_occs 0 sb) /\ o_ud x = Def /\ (before sa x = true \/ exists y, In (x, y) (redefinitions (recorded sb tb))).
Proof.
  unfold later. rewrite filter_In, nodup_In, andb_true_iff, orb_true_iff, existsb_exists. unfold is_definition. split.
  - intros (H1 & H2 & H3). split; [exact H1|]. split; [destruct (o_ud x); congruence|]. destruct H3 as [H3|(y & H3 & H4)]; [left; exact H3|right]. destruct (occ_dec x y) as [->|]; [|discriminate]. apply in_map_iff in H3 as ([p q] & <- & H3). exists q. exact H3.
  - intros (H1 & H2 & H3). split; [exact H1|]. split; [rewrite H2; reflexivity|]. destruct H3 as [H3|(y & H3)]; [left; exact H3|right]. exists x. split; [apply in_map_iff; exists (x, y); auto|]. destruct (occ_dec x x); congruence.
Qed.
Lemma later_sum_at : Permutation (map fst (redefinitions (recorded ss toks))) (map fst (redefinitions (recorded sa ta)) ++ map (move_occ d k) (later sa sb tb)).
Proof.
  apply NoDup_Permutation.
  - exact (redefinitions_once _ _ _ Hs).
  - apply nodup_app; [exact (redefinitions_once _ _ _ Ha)| |].
    + apply FinFun.Injective_map_NoDup; [intros x y; apply move_inj|]. apply NoDup_filter, NoDup_nodup.
    + intros o H1 H2. apply in_map_iff in H1 as ([p q] & <- & H1). apply in_redefs_recorded in H1 as [H1 _]. apply (recorded_low _ _ _ _ Ha) in H1. apply in_map_iff in H2 as (x & E & _). cbn [fst] in E. rewrite <- E in H1. cbn in H1. lia.
  - intros o. rewrite in_app_iff. split.
    + intros H. apply in_map_iff in H as ([p f] & <- & H). cbn [fst]. apply (redefinitions_sum_at _ _ _ _ _ _ _ _ _ Ha Hb Hs) in H as [H|(x & -> & H)].
      * left. apply in_map_iff. exists (p, f). auto.
      * right. apply in_map. apply in_later. destruct H as [(H1 & H2 & H3 & H4)|(_ & y & H & _)].
        -- split; [exact H1|]. split; [exact H2|]. left. apply first_before; [exact H3|]. exists f. exact H4.
        -- pose proof (proj1 (redefinitions_defined _ _ _ _ x y Hb) H) as (K1 & K2 & _). split; [exact K1|]. split; [exact K2|]. right. exists y. exact H.
    + intros [H|H].
      * apply in_map_iff in H as ([p f] & <- & H). apply in_map_iff. exists (p, f). split; [reflexivity|]. apply (redefinitions_sum_at _ _ _ _ _ _ _ _ _ Ha Hb Hs). left. exact H.
      * apply in_map_iff in H as (x & <- & H). apply in_later in H as (H1 & H2 & H3).
        assert (before sa x = true -> In (move_occ d k x) (map fst (redefinitions (recorded ss toks)))) as K.
        { intros Hx. assert (o_body x = None) as Hn by (unfold before in Hx; destruct (o_body x); congruence). apply (first_before _ _ Hn) in Hx as (f & Hf). apply in_map_iff. exists (move_occ d k x, f). split; [reflexivity|].
          apply (redefinitions_sum_at _ _ _ _ _ _ _ _ _ Ha Hb Hs). right. exists x. split; [reflexivity|]. left. auto. }
        destruct (before sa x) eqn:Eb; [apply K; reflexivity|]. destruct H3 as [H3|(y & H3)]; [discriminate|]. apply in_map_iff. exists (move_occ d k x, move_occ d k y). split; [reflexivity|].
        apply (redefinitions_sum_at _ _ _ _ _ _ _ _ _ Ha Hb Hs). right. exists x. split; [reflexivity|]. right. split; [|exists y; auto]. intros (Hn & Hf). apply (first_before _ _ Hn) in Hf. congruence.
Qed.
End Two.

(** ** Places *)
Lemma line_low a p : full_lines a -> p < length a -> forall l c, p_line (lsp_scan a p l c) < l + lsp_line_ends a.
Proof.
  revert p. induction a as [|x a IH]; intros p Hf Hp l c; [cbn in Hp; lia|]. pose proof (full_tail _ _ Hf) as [[-> ->]|[Hn Hf']].
  - destruct p; [cbn; lia|cbn in Hp; lia].
  - destruct p as [|p].
    + cbn [lsp_scan p_line lsp_line_ends]. destruct (lsp_eol x a); [lia|]. cbn [Nat.add]. destruct a as [|y a]; [congruence|]. specialize (IH 0 Hf'). cbn [length lsp_scan p_line] in IH. apply (IH (Nat.lt_0_succ _) l 0).
    + cbn [lsp_scan lsp_line_ends]. cbn in Hp. destruct (lsp_eol x a).
      * specialize (IH p Hf' ltac:(lia) (S l) 0). lia.
      * apply (IH p Hf'). lia.
Qed.
Lemma range_line a sp : full_lines a -> sp_start sp < length a -> p_line (r_start (lsp_range a sp)) < lsp_line_ends a.
Proof. intros Hf H. unfold lsp_range. cbn [r_start]. apply (line_low _ _ Hf H 0 0). Qed.
Lemma line_ends_app a b : full_lines a -> lsp_line_ends (a ++ b) = lsp_line_ends a + lsp_line_ends b.
Proof.
  induction a as [|x a IH]; intros Hf; [reflexivity|]. cbn [app lsp_line_ends]. rewrite (eol_app _ _ _ Hf). pose proof (full_tail _ _ Hf) as [[-> ->]|[Hn Hf']]; [reflexivity|]. rewrite (IH Hf'). lia.
Qed.
Lemma full_app a b : full_lines a -> full_lines b -> full_lines (a ++ b).
Proof. intros Ha [->|(p & ->)]; [rewrite app_nil_r; exact Ha|]. right. exists (a ++ p). apply app_assoc. Qed.
Lemma lower_twice n m r : lower_bare n (lower_bare m r) = lower_bare (n + m) r.
Proof. destruct r as [[[l c] [l' c']] t]. unfold lower_bare, lower_range, lower. cbn. rewrite !Nat.add_assoc. reflexivity. Qed.

(** ** Diagnostics *)
Definition show_m (src : text) (i : instruction) := bare (missing_diagnostic src i).
Definition show_u (src : text) (o : occurrence) := bare (undefined_diagnostic src o).
Definition show_r (src : text) (o : occurrence) := bare (redefinition_diagnostic src [] (o, o)).
Definition shown (src : text) (mis : list instruction) (und red : list occurrence) := map (show_m src) mis ++ map (show_u src) und ++ map (show_r src) red.
Definition mistakes (src : text) (ts : list stoken) (sts : list statement) (q : occurrence -> bool) :=
  shown src (filter missing_refs (instructions sts)) (filter q (undefined_uses (recorded sts ts))) (map fst (redefinitions (recorded sts ts))).
Definition mistakes_below (src : text) (ts : list stoken) (sts pre : list statement) (q : occurrence -> bool) :=
  shown src (filter missing_refs (instructions sts)) (filter (fun o => q o && negb (supplies pre o)) (undefined_uses (recorded sts ts))) (later pre sts ts).
Lemma filter_twice {A} (p q : A -> bool) l : filter p (filter q l) = filter (fun x => p x && q x) l.
Proof. induction l as [|x l IH]; [reflexivity|]. cbn [filter]. destruct (q x) eqn:E; cbn [filter]; rewrite IH; destruct (p x); reflexivity. Qed.
Lemma perm_filter' {A} (p : A -> bool) l m : Permutation l m -> Permutation (filter p l) (filter p m).
Proof.
  induction 1 as [|x l m _ IH|x y l|l m n _ IH1 _ IH2]; cbn [filter]; [constructor|destruct (p x); [constructor; exact IH|exact IH]|destruct (p x), (p y); first [apply perm_swap|reflexivity]|etransitivity; eassumption].
Qed.
Definition show_s (e : env) (src : text) (es : list (simple text)) := map bare (map (syntax_diagnostic (e_xord e) src) (filter (fun x => negb (at_end src x)) es)).
Lemma mistakes_whole_at e uri src d l ts sts es : plain_document src -> visits_all (e_ord e) -> parse_from_str (e_u e) src = Val (mkPR ts sts es) -> analyze e uri src = Val (d, l) ->
  Permutation (map bare l) (show_s e src es ++ mistakes src ts sts (fun _ => true)).
Proof.
  intros Hp Hv P E. destruct (document_diagnostics _ _ _ _ _ Hp Hv E) as (pr & Hpr & H). rewrite P in Hpr. injection Hpr as <-. cbn [pr_errors pr_stmts pr_tokens] in H.
  apply (Permutation_map bare) in H. rewrite !map_app in H. rewrite H. unfold show_s, mistakes, shown. rewrite (filter_all (fun _ => true)) by reflexivity. rewrite !map_map. reflexivity.
Qed.
Lemma mistakes_whole e uri src d l ts sts : plain_document src -> visits_all (e_ord e) -> parse_from_str (e_u e) src = Val (mkPR ts sts []) -> analyze e uri src = Val (d, l) ->
  Permutation (map bare l) (mistakes src ts sts (fun _ => true)).
Proof. exact (mistakes_whole_at e uri src d l ts sts []). Qed.
Section Mistakes.
Variables (u : uclass) (a b : text) (ta tb : list stoken) (sa sb : list statement) (eb es : list (simple text)).
Hypothesis Hfl : full_lines a.
Hypothesis Ha : parse_from_str u a = Val (mkPR ta sa []).
Hypothesis Hb : parse_from_str u b = Val (mkPR tb sb eb).
Notation d := (length a).
Notation k := (length (function_defs sa)).
Notation ss := (sa ++ map (move_stmt d) sb).
Notation toks := (ta ++ map (shift_tok d) tb).
Hypothesis Hs : parse_from_str u (a ++ b) = Val (mkPR toks ss es).
Lemma perm_parts {A} (x1 x2 y1 y2 z1 z2 : list A) : Permutation ((x1 ++ x2) ++ (y1 ++ y2) ++ (z1 ++ z2)) ((x1 ++ y1 ++ z1) ++ (x2 ++ y2 ++ z2)).
Proof.
  rewrite <- !app_assoc. apply Permutation_app_head. etransitivity; [apply Permutation_app_swap_app|]. apply Permutation_app_head.
  etransitivity; [apply Permutation_app_head, Permutation_app_swap_app|]. apply Permutation_app_swap_app.
Qed.
Lemma mistakes_sum_at (q : occurrence -> bool) : (forall x, q (move_occ d k x) = q x) ->
  Permutation (mistakes (a ++ b) toks ss q) (mistakes a ta sa (fun o => q o && negb (supplies sb o)) ++ map (lower_bare (lsp_line_ends a)) (mistakes_below b tb sb sa q)).
Proof.
  intros Hq. unfold mistakes, mistakes_below, shown. rewrite filter_missing_sum.
  pose proof (perm_filter' q _ _ (undefined_sum_perm_at _ _ _ _ _ _ _ _ _ Ha Hb Hs)) as U. pose proof (later_sum_at _ _ _ _ _ _ _ _ _ Ha Hb Hs) as R.
  apply (Permutation_map (show_u (a ++ b))) in U. apply (Permutation_map (show_r (a ++ b))) in R. rewrite U, R. rewrite filter_app, filter_twice, filter_map_comm, filter_twice, !map_app.
  rewrite (filter_ext _ (fun x => q x && negb (supplies sa x)) (fun x => f_equal (fun z => z && negb (supplies sa x)) (Hq x)) (undefined_uses (recorded sb tb))).
  assert (map (show_m (a ++ b)) (filter missing_refs (instructions sa)) = map (show_m a) (filter missing_refs (instructions sa))) as ->.
  { apply map_ext_in. intros i Hi. apply filter_In in Hi as [Hi _]. apply (mnemonic_low _ _ _ _ _ Ha) in Hi. unfold show_m, missing_diagnostic. rewrite range_left by (assumption || lia). reflexivity. }
  assert (map (show_m (a ++ b)) (map (move_instr d) (filter missing_refs (instructions sb))) = map (lower_bare (lsp_line_ends a)) (map (show_m b) (filter missing_refs (instructions sb)))) as ->.
  { rewrite !map_map. apply map_ext. intros i. unfold show_m, missing_diagnostic, lower_bare, bare. cbn. rewrite range_right by exact Hfl. reflexivity. }
  assert (forall p, map (show_u (a ++ b)) (filter p (undefined_uses (recorded sa ta))) = map (show_u a) (filter p (undefined_uses (recorded sa ta)))) as ->.
  { intros p. apply map_ext_in. intros o Ho. apply filter_In in Ho as [Ho _]. apply filter_In in Ho as [Ho _]. apply (recorded_low _ _ _ _ Ha) in Ho. unfold show_u, undefined_diagnostic. rewrite range_left by (assumption || lia). reflexivity. }
  assert (forall l, map (show_u (a ++ b)) (map (move_occ d k) l) = map (lower_bare (lsp_line_ends a)) (map (show_u b) l)) as ->.
  { intros l. rewrite !map_map. apply map_ext. intros o. unfold show_u, undefined_diagnostic, lower_bare, bare. cbn [move_occ o_span o_name d_range d_message fst snd]. rewrite range_right by exact Hfl. reflexivity. }
  assert (map (show_r (a ++ b)) (map fst (redefinitions (recorded sa ta))) = map (show_r a) (map fst (redefinitions (recorded sa ta)))) as ->.
  { apply map_ext_in. intros o Ho. apply in_map_iff in Ho as ([x y] & <- & Ho). apply in_redefs_recorded in Ho as [Ho _]. apply (recorded_low _ _ _ _ Ha) in Ho. unfold show_r, redefinition_diagnostic, bare. cbn [fst snd d_range d_message]. rewrite range_left by (assumption || lia). reflexivity. }
  assert (map (show_r (a ++ b)) (map (move_occ d k) (later sa sb tb)) = map (lower_bare (lsp_line_ends a)) (map (show_r b) (later sa sb tb))) as ->.
  { rewrite !map_map. apply map_ext. intros o. unfold show_r, redefinition_diagnostic, lower_bare, bare. cbn [move_occ o_span o_name d_range d_message fst snd]. rewrite range_right by exact Hfl. reflexivity. }
  apply perm_parts.
Qed.
Lemma mistakes_lines q : Forall (in_lines 0 (lsp_line_ends a)) (mistakes a ta sa q).
Proof.
  assert (forall sp t, sp_start sp < length a -> in_lines 0 (lsp_line_ends a) (lsp_range a sp, t)) as K by (intros sp t H; split; [lia|apply range_line; assumption]).
  unfold mistakes, shown. rewrite !Forall_app, !Forall_map. split; [|split]; apply Forall_forall; intros x Hx.
  - apply filter_In in Hx as [Hx _]. apply (mnemonic_low _ _ _ _ _ Ha) in Hx. apply K. apply Hx.
  - apply filter_In in Hx as [Hx _]. apply filter_In in Hx as [Hx _]. apply (recorded_low _ _ _ _ Ha) in Hx. apply K. apply Hx.
  - destruct x as [x y]. apply in_redefs_recorded in Hx as [Hx _]. apply (recorded_low _ _ _ _ Ha) in Hx. apply K. apply Hx.
Qed.
Lemma below_lines pre q : Forall (in_lines 0 (lsp_line_ends a)) (mistakes_below a ta sa pre q).
Proof.
  assert (forall sp t, sp_start sp < length a -> in_lines 0 (lsp_line_ends a) (lsp_range a sp, t)) as K by (intros sp t H; split; [lia|apply range_line; assumption]).
  unfold mistakes_below, shown. rewrite !Forall_app, !Forall_map. split; [|split]; apply Forall_forall; intros x Hx.
  - apply filter_In in Hx as [Hx _]. apply (mnemonic_low _ _ _ _ _ Ha) in Hx. apply K. apply Hx.
  - apply filter_In in Hx as [Hx _]. apply filter_In in Hx as [Hx _]. apply (recorded_low _ _ _ _ Ha) in Hx. apply K. apply Hx.
  - unfold later in Hx. apply filter_In in Hx as [Hx Hd]. apply nodup_In in Hx. apply andb_true_iff in Hd as [Hd _].
    assert (In x (recorded sa ta)) as Hr by (apply (recorded_nonuse _ _ _ (sum_spans_a _ _ _ _ Ha) (sum_sub_a _ _ _ _ Ha)); [unfold is_definition in Hd; destruct (o_ud x); discriminate || congruence|exact Hx]).
    apply (recorded_low _ _ _ _ Ha) in Hr. apply K. apply Hr.
Qed.
End Mistakes.
Definition mistakes_sum u a b ta tb sa sb Hfl Ha Hb := mistakes_sum_at u a b ta tb sa sb [] [] Hfl Ha Hb (sum_parsed u a b ta tb sa sb Hfl Ha Hb).

Lemma filter_ext' {A} (p q : A -> bool) l : (forall x, p x = q x) -> filter p l = filter q l.
Proof. intros H. apply filter_ext. exact H. Qed.
Lemma lines_lowered n m l : Forall (in_lines 0 m) l -> Forall (in_lines n (n + m)) (map (lower_bare n) l).
Proof. intros H. apply Forall_map. eapply Forall_impl; [|exact H]. intros [[[p q] r] t] [_ K]. unfold in_lines in *. cbn in *. lia. Qed.
Lemma later_ext pre pre' sb tb : same_offer pre pre' -> later pre sb tb = later pre' sb tb.
Proof. intros H. unfold later. apply filter_ext'. intros x. unfold before. rewrite (same_offered _ _ _ _ _ H). reflexivity. Qed.
Lemma syntax_lowered e a b eb : full_lines a -> show_s e (a ++ b) (map (move_error (length a)) eb) = map (lower_bare (lsp_line_ends a)) (show_s e b eb).
Proof.
  intros Hfl. unfold show_s. rewrite (syntax_moved _ _ _ _ Hfl), !map_map. reflexivity.
Qed.
(** The mistakes of three parts *)
Lemma mistakes_three e uri a x b pa px pb : plain_document ((a ++ x) ++ b) -> visits_all (e_ord e) -> part (e_u e) a pa -> part (e_u e) x px -> parse_from_str (e_u e) b = Val pb -> read pb ->
  exists d l X, analyze e uri ((a ++ x) ++ b) = Val (d, l) /\
    Permutation (map bare l) ((mistakes a (pr_tokens pa) (pr_stmts pa) (fun o => negb (supplies (pr_stmts pb) o) && negb (supplies (pr_stmts px) o)) ++ X) ++
      map (lower_bare (lsp_line_ends (a ++ x))) (show_s e b (pr_errors pb) ++ mistakes_below b (pr_tokens pb) (pr_stmts pb) (pr_stmts pa ++ map (move_stmt (length a)) (pr_stmts px)) (fun _ => true))) /\
    Forall (in_lines (lsp_line_ends a) (lsp_line_ends (a ++ x))) X.
Proof.
  intros Hp Hv (La & Pa & Ea) (Lx & Px & Ex) Pb Eb. destruct pa as [ta sa ea], px as [tx sx ex], pb as [tb sb eb]. cbn in Ea, Ex. subst. cbn [pr_tokens pr_stmts pr_errors].
  destruct (analyze_ascii e uri ((a ++ x) ++ b)) as (d & l & E); [apply Hp|]. exists d, l, (map (lower_bare (lsp_line_ends a)) (mistakes_below x tx sx sa (fun o => negb (supplies sb o)))). split; [exact E|].
  pose proof (sum_parsed _ _ _ _ _ _ _ La Pa Px) as Pax. pose proof (full_app _ _ La Lx) as Lax.
  destruct (parse_above _ _ _ _ _ _ _ _ Lax Pax Pb Eb) as (es & Pw & Hes). apply further_plain in Hes; [|apply byte_len_ascii; apply (plain_parts _ _ Hp)]. split.
  - rewrite (mistakes_whole_at _ _ _ _ _ _ _ _ Hp Hv Pw E). rewrite (mistakes_sum_at _ _ _ _ _ _ _ _ _ Lax Pax Pb Pw (fun _ => true)) by reflexivity. rewrite Hes, (syntax_lowered _ _ _ _ Lax), map_app.
    rewrite Permutation_app_swap_app. apply Permutation_app; [|reflexivity].
    rewrite <- (mistakes_sum _ _ _ _ _ _ _ La Pa Px (fun o => negb (supplies sb o))) by reflexivity. apply Permutation_refl'. unfold mistakes. f_equal.
  - rewrite (line_ends_app _ _ La). apply lines_lowered. eapply below_lines; eassumption.
Qed.
Lemma edit_diagnostics e uri a x x' b pa px px' pb : plain_document (a ++ x ++ b) -> plain_document (a ++ x' ++ b) -> visits_all (e_ord e) ->
  part (e_u e) a pa -> part (e_u e) x px -> part (e_u e) x' px' -> parse_from_str (e_u e) b = Val pb -> read pb -> same_offer (pr_stmts px) (pr_stmts px') ->
  exists d l d' l' A X X' B, analyze e uri (a ++ x ++ b) = Val (d, l) /\ analyze e uri (a ++ x' ++ b) = Val (d', l') /\
    Permutation (map bare l) (A ++ X ++ map (lower_bare (lsp_line_ends (a ++ x))) B) /\ Permutation (map bare l') (A ++ X' ++ map (lower_bare (lsp_line_ends (a ++ x'))) B) /\
    Forall (in_lines 0 (lsp_line_ends a)) A /\ Forall (in_lines (lsp_line_ends a) (lsp_line_ends (a ++ x))) X /\ Forall (in_lines (lsp_line_ends a) (lsp_line_ends (a ++ x'))) X'.
Proof.
  intros Hp Hp' Hv Pa Px Px' Pb Eb Hs. rewrite app_assoc in Hp. rewrite app_assoc in Hp'.
  destruct (mistakes_three e uri a x b pa px pb Hp Hv Pa Px Pb Eb) as (d & l & X & E & H & HX). destruct (mistakes_three e uri a x' b pa px' pb Hp' Hv Pa Px' Pb Eb) as (d' & l' & X' & E' & H' & HX').
  exists d, l, d', l', (mistakes a (pr_tokens pa) (pr_stmts pa) (fun o => negb (supplies (pr_stmts pb) o) && negb (supplies (pr_stmts px) o))), X, X',
    (show_s e b (pr_errors pb) ++ mistakes_below b (pr_tokens pb) (pr_stmts pb) (pr_stmts pa ++ map (move_stmt (length a)) (pr_stmts px)) (fun _ => true)).
  rewrite !app_assoc. split; [exact E|]. split; [exact E'|]. split; [exact H|]. split; [|split; [|split; assumption]].
  - rewrite H'. apply Permutation_refl'. f_equal; [f_equal|f_equal; f_equal].
    + unfold mistakes. f_equal. apply filter_ext'. intros o. rewrite (same_supplies _ _ o Hs). reflexivity.
    + unfold mistakes_below. pose proof (offer_sum (length a) (length a) (pr_stmts pa) _ _ Hs) as Hs2. rewrite (later_ext _ _ _ _ Hs2). f_equal. apply filter_ext'. intros o. rewrite (same_supplies _ _ o Hs2). reflexivity.
  - destruct Pa as (La & Pa & Ea). destruct pa as [ta sa ea]. cbn in Ea. subst. eapply mistakes_lines; eassumption.
Qed.
