(** Any number of documents put one behind the other, in any order. *)
From Verif Require Import Text Rope Chumsky Tokenizer Parser Numbers Index SemTok Diag Rename Cfg Backtrace Server SpecText SpecLex SpecParse SpecIndex SpecDiag SpecSum
  PText PRope PParse PParseProps PIndex PIndexDoc PIndexText PDiag PDiagDoc PLexProps PSum PSumIndex PSumDoc PSumNav.

Definition sym (o : occurrence) : symbol_kind * text := (o_kind o, o_name o).
Definition provides (ss : list statement) (x : symbol_kind * text) : bool := supplies ss (mkOcc (mkSpan 0 0) Use (fst x) (snd x) None).
Lemma provides_sym ss o : supplies ss o = provides ss (sym o).
Proof. unfold provides, supplies, sym. cbn. destruct (o_kind o); reflexivity. Qed.
Lemma provides_app a b x : provides (a ++ b) x = provides a x || provides b x.
Proof. unfold provides, supplies. cbn. destruct (fst x); rewrite ?existsb_app; reflexivity. Qed.
Lemma provides_moved d ss x : provides (map (move_stmt d) ss) x = provides ss x.
Proof.
  unfold provides, supplies. cbn. destruct (fst x); try reflexivity; rewrite existsb_map; apply existsb_ext'; intros s; rewrite ?declares_moved, ?defines_moved, ?annotates_moved; reflexivity.
Qed.
Lemma map_filter_sym (g : symbol_kind * text -> bool) l : map sym (filter (fun o => g (sym o)) l) = filter g (map sym l).
Proof. symmetry. apply filter_map_comm. Qed.
Lemma perm_filter {A} (f : A -> bool) l m : Permutation l m -> Permutation (filter f l) (filter f m).
Proof.
  induction 1; cbn; [reflexivity| | |etransitivity; eassumption].
  - destruct (f x); [constructor|]; assumption.
  - destruct (f x), (f y); try reflexivity. constructor.
Qed.
Lemma filter_filter {A} (f g : A -> bool) l : filter f (filter g l) = filter (fun x => g x && f x) l.
Proof. induction l as [|x l IH]; [reflexivity|]. cbn. destruct (g x); cbn; rewrite IH; reflexivity. Qed.

(** ** Redefinitions by name *)
Definition sym_dec (x y : symbol_kind * text) : {x = y} + {x <> y}.
Proof. decide equality; [apply (list_eq_dec N.eq_dec)|apply kind_dec]. Defined.
Definition global_def (o : occurrence) : bool := is_definition o && (if body_dec (o_body o) None then true else false).
Lemma global_def_spec o : global_def o = true <-> o_ud o = Def /\ o_body o = None.
Proof. unfold global_def, is_definition. destruct (o_ud o), (body_dec (o_body o) None); cbn; split; intros; try tauto; try (destruct H; congruence); try discriminate. Qed.
Definition in_scope_of_all (x : occurrence * occurrence) : bool := if body_dec (o_body (fst x)) None then true else false.
Lemma of_all_spec x : in_scope_of_all x = true <-> o_body (fst x) = None.
Proof. unfold in_scope_of_all. destruct (body_dec _ _); split; congruence. Qed.
Lemma of_all_false x : in_scope_of_all x = false <-> o_body (fst x) <> None.
Proof. unfold in_scope_of_all. destruct (body_dec _ _); split; congruence. Qed.
Definition global_syms (ss : list statement) : list (symbol_kind * text) := map sym (filter global_def (tree_occs 0 ss)).
Lemma same_global x y : o_body x = None -> o_body y = None -> (same_symbol x y <-> sym x = sym y).
Proof. intros H1 H2. unfold same_symbol, sym. rewrite H1, H2. split; [intros (H & _ & H'); congruence|intros H; injection H as -> ->; auto]. Qed.

Lemma perm_split {A} (f : A -> bool) l : Permutation l (filter f l ++ filter (fun x => negb (f x)) l).
Proof.
  induction l as [|x l IH]; [reflexivity|]. cbn. destruct (f x); cbn; [constructor; exact IH|]. rewrite <- Permutation_middle. constructor. exact IH.
Qed.
Section Doc.
Variables (u : uclass) (src : text) (ts : list stoken) (ss : list statement).
Hypothesis Hp : parse_from_str u src = Val (mkPR ts ss []).
Notation R := (redefinitions (recorded ss ts)).
Lemma tree_nodup_doc : NoDup (map o_span (tree_occs 0 ss)).
Proof. pose proof (provenance _ _ _ Hp) as P. apply parse_from_str_module in Hp as [H _]. exact (tree_nodup _ _ _ H P). Qed.
Lemma tree_start x y : In x (tree_occs 0 ss) -> In y (tree_occs 0 ss) -> sp_start (o_span x) = sp_start (o_span y) -> x = y.
Proof.
  intros Hx Hy E. pose proof (provenance _ _ _ Hp) as P. pose proof Hp as Hm. apply parse_from_str_module in Hm as [H _]. cbn in P, H.
  pose proof (tree_token _ _ _ H P _ Hx) as T1. pose proof (tree_token _ _ _ H P _ Hy) as T2. pose proof (spans_in_each _ _ _ _ H T1) as S1. pose proof (spans_in_each _ _ _ _ H T2) as S2. cbn in S1, S2.
  destruct (spans_in_disjoint _ _ _ _ _ H T1 T2) as [G|G]; [|cbn in G; lia]. eapply (nodup_map_inj o_span _ _ _ tree_nodup_doc); [exact Hx|exact Hy|]. exact (f_equal snd G).
Qed.
Definition occ_dec (x y : occurrence) : {x = y} + {x <> y}.
Proof.
  decide equality; [apply body_dec|apply (list_eq_dec N.eq_dec)|apply kind_dec|decide equality|]. destruct o_span, o_span0. destruct (Nat.eq_dec sp_start sp_start0), (Nat.eq_dec sp_end sp_end0); [left; congruence|right; congruence..].
Defined.
Definition again (o : occurrence) : bool := if in_dec occ_dec o (map fst R) then true else false.
Lemma again_spec o : again o = true <-> exists f, In (o, f) R.
Proof.
  unfold again. destruct (in_dec _ _ _) as [H|H].
  - split; [intros _|reflexivity]. apply in_map_iff in H as ([x f] & <- & H). eauto.
  - split; [discriminate|]. intros (f & Hf). exfalso. apply H. apply in_map_iff. exists (o, f). auto.
Qed.
Lemma nodup_map_filter {A B} (f : A -> B) g l : NoDup (map f l) -> NoDup (map f (filter g l)).
Proof.
  induction l as [|x l IH]; intros H; [constructor|]. cbn in *. inversion_clear H as [|? ? H1 H2]. destruct (g x); [|auto]. cbn. constructor; [|auto].
  intros H. apply H1. apply in_map_iff in H as (y & <- & H). apply filter_In in H as [H _]. apply in_map. exact H.
Qed.
Lemma nodup_of_map {A B} (f : A -> B) l : NoDup (map f l) -> NoDup l.
Proof. exact (NoDup_map_inv f l). Qed.
Lemma global_again : Permutation (map fst (filter in_scope_of_all R)) (filter again (filter global_def (tree_occs 0 ss))).
Proof.
  apply NoDup_Permutation.
  - apply nodup_map_filter. exact (redefinitions_once _ _ _ Hp).
  - do 2 apply NoDup_filter. exact (nodup_of_map _ _ tree_nodup_doc).
  - intros o. rewrite in_map_iff, !filter_In, again_spec, global_def_spec. split.
    + intros ([x f] & <- & H). apply filter_In in H as [H1 H2]. apply of_all_spec in H2. cbn in *. pose proof H1 as H3. apply (redefinitions_defined _ _ _ _ _ _ Hp) in H3 as (H3 & H4 & _). split; [auto|eauto].
    + intros [[H1 [H2 H3]] (f & H4)]. exists (o, f). split; [reflexivity|]. apply filter_In. rewrite of_all_spec. auto.
Qed.
Lemma first_syms : Permutation (map sym (filter (fun o => negb (again o)) (filter global_def (tree_occs 0 ss)))) (nodup sym_dec (global_syms ss)).
Proof.
  assert (forall o, In o (tree_occs 0 ss) -> o_ud o = Def -> exists f, first_defined ss o f) as Hf.
  { intros o H1 H2. destruct (find_min (fun x => is_definition x && same_symbolb x o) (tree_occs 0 ss)) as (f & F1 & F2 & F3).
    - exists o. split; [exact H1|]. apply andb_true_iff. split; [unfold is_definition; rewrite H2; reflexivity|]. apply same_symbolb_spec. repeat split.
    - apply andb_true_iff in F2 as [F2 F4]. apply same_symbolb_spec in F4. exists f. split; [exact F1|]. split; [unfold is_definition in F2; destruct (o_ud f); congruence|]. split; [apply same_sym; exact F4|].
      intros g G1 G2 G3. apply F3; [exact G1|]. apply andb_true_iff. split; [unfold is_definition; rewrite G2; reflexivity|apply same_symbolb_spec; exact G3]. }
  assert (forall o f, In o (tree_occs 0 ss) -> o_ud o = Def -> again o = false -> first_defined ss o f -> o = f) as Hn.
  { intros o f H1 H2 H3 H4. destruct (occ_dec o f) as [E|E]; [exact E|]. exfalso. assert (again o = true); [|congruence]. apply again_spec. exists f. apply (redefinitions_defined _ _ _ _ _ _ Hp). auto. }
  apply NoDup_Permutation.
  - apply nodup_map_injective; [|do 2 apply NoDup_filter; exact (nodup_of_map _ _ tree_nodup_doc)].
    intros x y Hx Hy E. apply filter_In in Hx as [Hx Ax], Hy as [Hy Ay]. apply filter_In in Hx as [Hx Gx], Hy as [Hy Gy]. apply global_def_spec in Gx as [Dx Bx], Gy as [Dy By].
    apply negb_true_iff in Ax, Ay. apply (same_global _ _ Bx By) in E. destruct (Hf x Hx Dx) as (f & F). pose proof (Hn _ _ Hx Dx Ax F) as Ef. subst f.
    destruct (Hf y Hy Dy) as (g & G). pose proof (Hn _ _ Hy Dy Ay G) as Eg. subst g. apply tree_start; [exact Hx|exact Hy|].
    destruct F as (_ & _ & _ & F), G as (_ & _ & _ & G). specialize (F y Hy Dy (same_sym _ _ E)). specialize (G x Hx Dx E). lia.
  - apply NoDup_nodup.
  - intros x. rewrite nodup_In. unfold global_syms. rewrite !in_map_iff. split.
    + intros (o & <- & H). apply filter_In in H as [H _]. eauto.
    + intros (o & <- & H). apply filter_In in H as [H G]. apply global_def_spec in G as [G1 G2]. destruct (Hf o H G1) as (f & F). exists f. pose proof F as (F1 & F2 & F3 & F4).
      assert (o_body f = None) as Bf by (destruct F3 as (_ & F3 & _); congruence). split; [symmetry; apply same_global; assumption|]. apply filter_In. rewrite filter_In, global_def_spec, negb_true_iff. split; [auto|].
      destruct (again f) eqn:E; [|reflexivity]. exfalso. apply again_spec in E as (g & E). apply (redefinitions_defined _ _ _ _ _ _ Hp) in E as (_ & _ & (E1 & E2 & E3 & E4) & E5).
      apply E5. apply tree_start; [exact F1|exact E1|]. specialize (E4 f F1 F2 ltac:(repeat split)). assert (same_symbol g o) as Hg. { unfold same_symbol in *. intuition congruence. } specialize (F4 g E1 E2 Hg). lia.
Qed.
Lemma global_count : Permutation (global_syms ss) (map sym (map fst (filter in_scope_of_all R)) ++ nodup sym_dec (global_syms ss)).
Proof.
  unfold global_syms at 1. rewrite (perm_split again), map_app. apply Permutation_app; [|apply first_syms]. apply Permutation_map. symmetry. apply global_again.
Qed.
End Doc.

(** ** All parts *)
Definition stmts_of (p : piece) : list statement := pr_stmts (pc_result p).
Definition uses_of (p : piece) : list (symbol_kind * text) := map sym (undefined_uses (recorded (stmts_of p) (pr_tokens (pc_result p)))).
Definition again_local (ss : list statement) (ts : list stoken) : list text :=
  map (fun x => o_name (fst x)) (filter (fun x => negb (in_scope_of_all x)) (redefinitions (recorded ss ts))).
Definition nobody (ps : list piece) (x : symbol_kind * text) : bool := forallb (fun q => negb (provides (stmts_of q) x)) ps.
Definition mnemonics (ss : list statement) : list text := map mnemonic (filter missing_refs (instructions ss)).

Lemma full_lines_sum a b : full_lines a -> full_lines b -> full_lines (a ++ b).
Proof.
  intros Ha [->|(p & ->)]; [rewrite app_nil_r; exact Ha|]. right. exists (a ++ p). apply app_assoc.
Qed.
Lemma local_again_sum u a b ta tb sa sb : full_lines a -> parse_from_str u a = Val (mkPR ta sa []) -> parse_from_str u b = Val (mkPR tb sb []) ->
  Permutation (again_local (sa ++ map (move_stmt (length a)) sb) (ta ++ map (shift_tok (length a)) tb)) (again_local sa ta ++ again_local sb tb).
Proof.
  intros Hfl Ha Hb. set (k := length (function_defs sa)).
  assert (Permutation (filter (fun x => negb (in_scope_of_all x)) (redefinitions (recorded (sa ++ map (move_stmt (length a)) sb) (ta ++ map (shift_tok (length a)) tb))))
    (filter (fun x => negb (in_scope_of_all x)) (redefinitions (recorded sa ta)) ++
     map (fun x => (move_occ (length a) k (fst x), move_occ (length a) k (snd x))) (filter (fun x => negb (in_scope_of_all x)) (redefinitions (recorded sb tb))))) as P.
  { apply NoDup_Permutation.
    - apply NoDup_filter. exact (redefinitions_nodup_doc _ _ _ _ (sum_parsed _ _ _ _ _ _ _ Hfl Ha Hb)).
    - apply nodup_app; [apply NoDup_filter; exact (redefinitions_nodup_doc _ _ _ _ Ha)| |].
      + apply FinFun.Injective_map_NoDup; [|apply NoDup_filter; exact (redefinitions_nodup_doc _ _ _ _ Hb)]. intros [x y] [x' y'] E. cbn [fst snd] in E.
        assert (move_occ (length a) k x = move_occ (length a) k x' /\ move_occ (length a) k y = move_occ (length a) k y') as [E1 E2] by (split; [exact (f_equal fst E)|exact (f_equal snd E)]). apply move_inj in E1, E2. congruence.
      + intros [o f] H1 H2. apply filter_In in H1 as [H1 _]. apply in_redefs_recorded in H1 as [H1 _]. apply (recorded_low _ _ _ _ Ha) in H1. apply in_map_iff in H2 as ([x y] & E & _).
        apply (f_equal fst) in E. cbn in E. rewrite <- E in H1. unfold move_occ, shift_span in H1. cbn in H1. lia.
    - intros [o f]. rewrite in_app_iff, in_map_iff, !filter_In, (redefinitions_sum _ _ _ _ _ _ _ Hfl Ha Hb), !negb_true_iff, !of_all_false. cbn [fst]. split.
      + intros [[H|(x & -> & [(H1 & H2 & H3 & H4)|(_ & y & H & ->)])] Hn]; [auto| |].
        * exfalso. apply Hn. unfold move_occ. cbn. rewrite H3. reflexivity.
        * right. exists (x, y). split; [reflexivity|]. apply filter_In. rewrite negb_true_iff, of_all_false. split; [exact H|]. cbn. intros E. apply Hn. unfold move_occ. cbn. rewrite E. reflexivity.
      + intros [[H Hn]|([x y] & E & H)]; [auto|]. apply filter_In in H as [H Hn]. rewrite negb_true_iff, of_all_false in Hn. cbn [fst snd] in *. injection E as <- <-. split.
        * right. exists x. split; [reflexivity|]. right. split; [tauto|]. eauto.
        * unfold move_occ. cbn. destruct (o_body x); [discriminate|congruence]. }
  unfold again_local. rewrite P, map_app, map_map. reflexivity.
Qed.
Lemma moved_syms d k l : map sym (map (move_occ d k) l) = map sym l.
Proof. rewrite map_map. reflexivity. Qed.
Lemma moved_global d k o : global_def (move_occ d k o) = global_def o.
Proof. unfold global_def, is_definition, move_occ. cbn. destruct (o_body o); reflexivity. Qed.
Lemma global_syms_sum d sa sb : global_syms (sa ++ map (move_stmt d) sb) = global_syms sa ++ global_syms sb.
Proof.
  unfold global_syms. rewrite tree_sum, filter_app, map_app, filter_map_comm, moved_syms. do 2 f_equal. apply filter_ext. intros o. apply moved_global.
Qed.
Lemma mnemonics_sum (a : text) sa sb : mnemonics (sa ++ map (move_stmt (length a)) sb) = mnemonics sa ++ mnemonics sb.
Proof. unfold mnemonics. rewrite filter_missing_sum, map_app, map_map. reflexivity. Qed.
Lemma flat_filter {A B} (f : B -> bool) (g : A -> list B) l : filter f (flat_map g l) = flat_map (fun x => filter f (g x)) l.
Proof. apply filter_flat. Qed.
Lemma empty_document u : parse_from_str u [] = Val (mkPR [] [] []).
Proof. reflexivity. Qed.

Lemma all_parts u ps : Forall (good_piece u) ps ->
  exists ts st, parse_from_str u (whole ps) = Val (mkPR ts st []) /\ full_lines (whole ps) /\
    (forall x, provides st x = existsb (fun q => provides (stmts_of q) x) ps) /\
    Permutation (map sym (undefined_uses (recorded st ts))) (flat_map (fun p => filter (nobody ps) (uses_of p)) ps) /\
    Permutation (global_syms st) (flat_map (fun p => global_syms (stmts_of p)) ps) /\
    Permutation (again_local st ts) (flat_map (fun p => again_local (stmts_of p) (pr_tokens (pc_result p))) ps) /\
    mnemonics st = flat_map (fun p => mnemonics (stmts_of p)) ps.
Proof.
  induction 1 as [|p ps (Hfl & Hp & He) _ (ts & st & I1 & I2 & I3 & I4 & I5 & I6 & I7)].
  - exists [], []. split; [apply empty_document|]. split; [left; reflexivity|]. split; [intros x; unfold provides, supplies; cbn; destruct (fst x); reflexivity|]. cbn. repeat split; reflexivity.
  - destruct p as [a [ta sa ea]]. cbn in Hfl, Hp, He. subst ea. pose proof (sum_parsed _ _ _ _ _ _ _ Hfl Hp I1) as Hs. exists (ta ++ map (shift_tok (length a)) ts), (sa ++ map (move_stmt (length a)) st).
    split; [exact Hs|]. split; [apply full_lines_sum; assumption|]. cbn [flat_map existsb]. change (stmts_of (mkPiece a (mkPR ta sa []))) with sa.
    change (pr_tokens (pc_result (mkPiece a (mkPR ta sa [])))) with ta. change (uses_of (mkPiece a (mkPR ta sa []))) with (map sym (undefined_uses (recorded sa ta))).
    split; [intros x; rewrite provides_app, provides_moved, I3; reflexivity|]. split; [|split; [|split]].
    + rewrite (undefined_sum_perm _ _ _ _ _ _ _ Hfl Hp I1), map_app, moved_syms.
      assert (forall s0 l, map sym (filter (fun o => negb (supplies s0 o)) l) = filter (fun x => negb (provides s0 x)) (map sym l)) as Es.
      { intros s0 l. rewrite <- map_filter_sym. f_equal. }
      rewrite !Es.
      apply Permutation_app.
      * unfold nobody. cbn [forallb stmts_of pc_result pr_stmts]. rewrite (filter_ext_in (fun x => negb (provides sa x) && _) (fun x => negb (provides st x))); [reflexivity|].
        intros x Hx. apply in_map_iff in Hx as (o & <- & Ho). rewrite <- provides_sym, (undefined_own _ _ _ _ _ Hp Ho). cbn [negb andb]. rewrite I3. clear. induction ps as [|q ps IH]; [reflexivity|]. cbn. rewrite IH, negb_orb. reflexivity.
      * apply (perm_filter (fun x => negb (provides sa x))) in I4. rewrite I4, flat_filter. apply Permutation_refl'. apply flat_map_ext. intros q. rewrite filter_filter. apply filter_ext. intros x.
        unfold nobody. cbn [forallb stmts_of pc_result pr_stmts]. apply andb_comm.
    + rewrite global_syms_sum. apply Permutation_app_head. exact I5.
    + rewrite (local_again_sum _ _ _ _ _ _ _ Hfl Hp I1). apply Permutation_app_head. exact I6.
    + rewrite mnemonics_sum, I7. reflexivity.
Qed.
Lemma nobody_perm ps qs x : Permutation ps qs -> nobody ps x = nobody qs x.
Proof.
  unfold nobody. induction 1; cbn; [reflexivity|congruence| |congruence]. rewrite !andb_assoc, (andb_comm (negb _)). reflexivity.
Qed.
Lemma whole_plain ps qs : Permutation ps qs -> plain_document (whole ps) -> plain_document (whole qs).
Proof.
  intros HP (H1 & H2 & H3). assert (Permutation (whole ps) (whole qs)) as Hw by (unfold whole; rewrite HP; reflexivity).
  unfold plain_document, ascii_text, lsp_plain, small in *. rewrite !forallb_forall in *. split; [|split].
  - intros c Hc. apply H1. rewrite Hw. exact Hc.
  - intros c Hc. apply H2. rewrite Hw. exact Hc.
  - rewrite <- (Permutation_length Hw). exact H3.
Qed.
Definition undefined_message (n : text) : text := str "Use of undefined symbol `" ++ n ++ str "`".
Definition again_message (n : text) : text := str "Symbol `" ++ n ++ str "` already defined previously".
Definition missing_message (n : text) : text := str "Failed to extract basic block references from `" ++ n ++ str "` instruction".
Lemma messages e uri src d l ts st : plain_document src -> visits_all (e_ord e) -> parse_from_str (e_u e) src = Val (mkPR ts st []) -> analyze e uri src = Val (d, l) ->
  Permutation (map d_message l) (map missing_message (mnemonics st) ++ map undefined_message (map snd (map sym (undefined_uses (recorded st ts)))) ++
    map again_message (map snd (map sym (map fst (filter in_scope_of_all (redefinitions (recorded st ts))))) ++ again_local st ts)).
Proof.
  intros Hp Hv Hpr Han. destruct (document_diagnostics _ _ _ _ _ Hp Hv Han) as (pr & E & P). rewrite Hpr in E. injection E as <-. cbn [pr_errors pr_stmts pr_tokens filter map app] in P.
  rewrite P, !map_app, !map_map. unfold mnemonics. rewrite map_map. apply Permutation_app_head. apply Permutation_app_head.
  unfold again_local. rewrite ?map_app, !map_map. etransitivity; [apply Permutation_map; apply (perm_split in_scope_of_all)|]. rewrite map_app. reflexivity.
Qed.
Lemma any_order e uri ps qs : Forall (good_piece (e_u e)) ps -> Permutation ps qs -> plain_document (whole ps) -> visits_all (e_ord e) ->
  exists d l d' l', analyze e uri (whole ps) = Val (d, l) /\ analyze e uri (whole qs) = Val (d', l') /\
    Permutation (map d_message l) (map d_message l').
Proof.
  intros Hg HP Hp Hv. pose proof (whole_plain _ _ HP Hp) as Hq. assert (Forall (good_piece (e_u e)) qs) as Hg' by (rewrite <- HP; exact Hg).
  destruct (analyze_ascii e uri (whole ps) (proj1 Hp)) as (d & l & E). destruct (analyze_ascii e uri (whole qs) (proj1 Hq)) as (d' & l' & E'). exists d, l, d', l'. split; [exact E|]. split; [exact E'|].
  destruct (all_parts _ _ Hg) as (ts & st & I1 & _ & _ & I4 & I5 & I6 & I7). destruct (all_parts _ _ Hg') as (ts' & st' & J1 & _ & _ & J4 & J5 & J6 & J7).
  rewrite (messages _ _ _ _ _ _ _ Hp Hv I1 E), (messages _ _ _ _ _ _ _ Hq Hv J1 E').
  apply Permutation_app; [|apply Permutation_app].
  - apply Permutation_map. rewrite I7, J7, HP. reflexivity.
  - do 2 apply Permutation_map. rewrite I4, J4, HP. apply Permutation_refl'. apply flat_map_ext. intros q. apply filter_ext. intros x. apply nobody_perm. exact HP.
  - apply Permutation_map. apply Permutation_app; [|rewrite I6, J6, HP; reflexivity]. apply Permutation_map.
    assert (Permutation (global_syms st) (global_syms st')) as G by (rewrite I5, J5, HP; reflexivity).
    assert (Permutation (nodup sym_dec (global_syms st)) (nodup sym_dec (global_syms st'))) as N.
    { apply NoDup_Permutation; [apply NoDup_nodup..|]. intros x. rewrite !nodup_In, G. reflexivity. }
    pose proof (global_count _ _ _ _ I1) as C. pose proof (global_count _ _ _ _ J1) as C'. rewrite C, C', N in G. apply Permutation_app_inv_r in G. exact G.
Qed.
