(** Parts of a document are deleted: what is shown about the others stays. *)
From Verif Require Import Text Rope Chumsky Tokenizer Parser Numbers Index SemTok Diag Rename Cfg Backtrace Server SpecText SpecLex SpecParse SpecIndex SpecDiag SpecBacktrace SpecNumbers SpecCfg SpecView SpecSemTok SpecSum SpecSumView SpecMove SpecDelete
  PText PRope PSemTok PSemDoc PLexSpec PLexProps PTokens PParse PParseProps PIndex PIndexDoc PIndexText PDiag PDiagDoc PCfg PBacktrace PNumbers PHints PView PFold PFoldText PExt PNav PSum PSumIndex PAbove PSumDoc PSumNav PSumOrder PSumView PMove PMoveHints.

Lemma parted keep ps : Permutation ps (staying keep ps ++ going keep ps). Proof. apply perm_split. Qed.
Lemma stay_plain keep ps : plain_document (whole ps) -> plain_document (whole (staying keep ps)).
Proof.
  intros H. pose proof (whole_plain _ _ (parted keep ps) H) as P. unfold whole in P. rewrite flat_map_app in P. exact (proj1 (plain_parts _ _ P)).
Qed.
Lemma stay_good u keep ps : Forall (good_piece u) ps -> Forall (good_piece u) (staying keep ps).
Proof. intros H. rewrite Forall_forall in *. intros p Hp. apply filter_In in Hp as [Hp _]. auto. Qed.
Lemma stay_apart keep ps : all_apart ps -> all_apart (staying keep ps).
Proof.
  unfold all_apart, staying. induction 1 as [|p r H1 H2 IH]; [constructor|]. cbn [filter]. destruct (keep p); [|exact IH]. constructor; [|exact IH].
  rewrite Forall_forall in *. intros q Hq. apply filter_In in Hq as [Hq _]. auto.
Qed.
Lemma apart_in keep ps p q : all_apart ps -> In p (staying keep ps) -> In q (going keep ps) -> defines_apart p q.
Proof.
  intros Ha Hp Hq. apply filter_In in Hp as [P1 P2]. apply filter_In in Hq as [Q1 Q2]. destruct (ForallOrdPairs_In Ha p q P1 Q1) as [E|[H|H]]; [|exact H|apply apart_sym; exact H].
  subst q. rewrite P2 in Q2. discriminate.
Qed.
(** ** Diagnostics *)
Lemma nobody_stays keep ps o : nobody (staying keep ps) (sym o) = nobody ps (sym o) || orphan keep ps o.
Proof.
  unfold orphan. rewrite (nobody_perm _ _ _ (parted keep ps)). unfold nobody. rewrite forallb_app, <- !none_of.
  assert (E : forall l, existsb (fun q => supplies (pr_stmts (pc_result q)) o) l = existsb (fun q => provides (stmts_of q) (sym o)) l).
  { induction l as [|q l IH]; [reflexivity|]. cbn [existsb]. rewrite IH, provides_sym. reflexivity. }
  rewrite (E (staying keep ps)), (E (going keep ps)). destruct (existsb _ (staying keep ps)), (existsb _ (going keep ps)); reflexivity.
Qed.
Lemma orphan_somebody keep ps o : orphan keep ps o = true -> nobody ps (sym o) = false.
Proof.
  unfold orphan. rewrite (nobody_perm _ _ _ (parted keep ps)). unfold nobody. rewrite forallb_app, <- !none_of. intros H. apply andb_true_iff in H as [H _].
  assert (E : forall l, existsb (fun q => supplies (pr_stmts (pc_result q)) o) l = existsb (fun q => provides (stmts_of q) (sym o)) l).
  { induction l as [|q l IH]; [reflexivity|]. cbn [existsb]. rewrite IH, provides_sym. reflexivity. }
  rewrite E in H. rewrite H. apply andb_false_r.
Qed.
Lemma filter_or {A} (f g : A -> bool) l : (forall x, g x = true -> f x = false) -> Permutation (filter (fun x => f x || g x) l) (filter f l ++ filter g l).
Proof.
  intros H. induction l as [|x l IH]; [constructor|]. cbn [filter]. destruct (f x) eqn:Ef; cbn [orb].
  - destruct (g x) eqn:Eg; [rewrite (H _ Eg) in Ef; discriminate|]. cbn [app]. constructor. exact IH.
  - destruct (g x); [|exact IH]. rewrite <- Permutation_middle. constructor. exact IH.
Qed.
Lemma about_stays uri keep ps p : Permutation (about uri (nobody (staying keep ps)) p) (about uri (nobody ps) p ++ orphans keep ps p).
Proof.
  unfold about, reports, orphans. rewrite <- !app_assoc. apply Permutation_app_head. rewrite (filter_ext _ (fun o => nobody ps (sym o) || orphan keep ps o)) by (intros o; apply nobody_stays).
  rewrite (filter_or (fun o => nobody ps (sym o)) (orphan keep ps)) by (intros o; apply orphan_somebody). rewrite map_app, <- app_assoc. apply Permutation_app_head. apply Permutation_app_comm.
Qed.
Lemma stacked_perm {A} (lower : nat -> A -> A) f g ps : (forall p, In p ps -> Permutation (f p) (g p)) -> forall n, Permutation (stacked lower f n ps) (stacked lower g n ps).
Proof.
  induction ps as [|p r IH]; intros H n; [constructor|]. cbn [stacked]. apply Permutation_app; [apply Permutation_map, H; left; reflexivity|]. apply IH. intros q Hq. apply H. right. exact Hq.
Qed.
Lemma deleted_diagnostics e uri keep ps : Forall (good_piece (e_u e)) ps -> all_apart ps -> plain_document (whole ps) -> visits_all (e_ord e) ->
  exists f, (forall p, In p ps -> exists d l settled, analyze e uri (pc_text p) = Val (d, l) /\ Permutation l (f p ++ settled) /\ Forall (settled_by ps p) settled) /\
    (exists d l, analyze e uri (whole ps) = Val (d, l) /\ Permutation l (stacked lower_diagnostic f 0 ps)) /\
    exists d l, analyze e uri (whole (staying keep ps)) = Val (d, l) /\ Permutation l (stacked lower_diagnostic (fun p => f p ++ orphans keep ps p) 0 (staying keep ps)).
Proof.
  intros Hg Ha Hp Hv. exists (about uri (nobody ps)). split; [|split].
  - intros p Hi. apply about_alone; [exact Hv|exact (whole_parts_plain _ Hp _ Hi)| |exact Hi]. rewrite Forall_forall in Hg. exact (Hg _ Hi).
  - exact (whole_diagnostics e uri ps Hg Ha Hp Hv).
  - destruct (whole_diagnostics e uri (staying keep ps) (stay_good _ _ _ Hg) (stay_apart _ _ Ha) (stay_plain _ _ Hp) Hv) as (d & l & E & P). exists d, l. split; [exact E|].
    rewrite P. apply stacked_perm. intros p _. apply about_stays.
Qed.
Lemma no_orphans keep ps p : In p (staying keep ps) -> unused keep ps -> orphans keep ps p = [].
Proof.
  intros Hi U. unfold orphans. rewrite filter_none; [reflexivity|]. intros o Ho. unfold orphan. destruct (existsb _ (going keep ps)) eqn:E; [|reflexivity]. exfalso.
  apply existsb_exists in E as (q & Q1 & Q2). apply filter_In in Ho as [O1 O2]. apply andb_true_iff in O2 as [O2 _].
  rewrite (U p q o Hi Q1 O1) in Q2; [discriminate|]. unfold is_use in O2. destruct (o_ud o); first [reflexivity|discriminate].
Qed.
Lemma deleted_unused e uri keep ps : Forall (good_piece (e_u e)) ps -> all_apart ps -> plain_document (whole ps) -> visits_all (e_ord e) -> unused keep ps ->
  exists f, (forall p, In p ps -> exists d l settled, analyze e uri (pc_text p) = Val (d, l) /\ Permutation l (f p ++ settled) /\ Forall (settled_by ps p) settled) /\
    (exists d l, analyze e uri (whole ps) = Val (d, l) /\ Permutation l (stacked lower_diagnostic f 0 ps)) /\
    exists d l, analyze e uri (whole (staying keep ps)) = Val (d, l) /\ Permutation l (stacked lower_diagnostic f 0 (staying keep ps)).
Proof.
  intros Hg Ha Hp Hv U. destruct (deleted_diagnostics e uri keep ps Hg Ha Hp Hv) as (f & F1 & F2 & d & l & F3 & F4). exists f. split; [exact F1|]. split; [exact F2|]. exists d, l. split; [exact F3|].
  rewrite F4. apply Permutation_refl'. apply stacked_ext. intros p Hi. rewrite (no_orphans _ _ _ Hi U). apply app_nil_r.
Qed.
(** ** What does not depend on other parts *)
Section Same.
Context {A : Type}.
Variables (e : env) (uri : text) (keep : piece -> bool) (ps : list piece) (lower1 : nat -> A -> A) (ask : server -> option (list A)) (same : list A -> list A -> Prop).
Hypothesis Hp : plain_document (whole ps).
Hypothesis H1 : forall s d, opened e s uri (whole ps) d -> exists f, (forall p s' d', In p ps -> opened e s' uri (pc_text p) d' -> ask s' = Some (f p)) /\ exists l, ask s = Some l /\ same l (stacked lower1 f 0 ps).
Hypothesis H2 : forall s d, opened e s uri (whole (staying keep ps)) d -> exists f, (forall p s' d', In p (staying keep ps) -> opened e s' uri (pc_text p) d' -> ask s' = Some (f p)) /\ exists l, ask s = Some l /\ same l (stacked lower1 f 0 (staying keep ps)).
Lemma deleted_same s s' d d' : opened e s uri (whole ps) d -> opened e s' uri (whole (staying keep ps)) d' ->
  exists f, (forall p s0 d0, In p ps -> opened e s0 uri (pc_text p) d0 -> ask s0 = Some (f p)) /\
    (exists l, ask s = Some l /\ same l (stacked lower1 f 0 ps)) /\ exists l, ask s' = Some l /\ same l (stacked lower1 f 0 (staying keep ps)).
Proof.
  intros O O'. destruct (H1 _ _ O) as (f & F1 & F2). destruct (H2 _ _ O') as (g & G1 & l & G2 & G3). exists f. split; [exact F1|]. split; [exact F2|]. exists l. split; [exact G2|].
  rewrite (stacked_ext lower1 f g); [exact G3|]. intros p Hi. pose proof Hi as Hi'. apply filter_In in Hi' as [Hi' _]. pose proof (srv_opened e uri (pc_text p) (proj1 (whole_parts_plain _ Hp _ Hi'))) as O1.
  pose proof (F1 _ _ _ Hi' O1) as E1. pose proof (G1 _ _ _ Hi O1) as E2. congruence.
Qed.
End Same.
Lemma deleted_folds e s s' uri keep ps d d' : Forall (good_piece (e_u e)) ps -> plain_document (whole ps) -> opened e s uri (whole ps) d -> opened e s' uri (whole (staying keep ps)) d' ->
  exists f, (forall p s0 d0, In p ps -> opened e s0 uri (pc_text p) d0 -> folding_range s0 uri = Some (f p)) /\
    (exists l, folding_range s uri = Some l /\ Permutation l (stacked lower_fold f 0 ps)) /\ exists l, folding_range s' uri = Some l /\ Permutation l (stacked lower_fold f 0 (staying keep ps)).
Proof.
  intros Hg Hp. apply (deleted_same e uri keep ps lower_fold (fun s => folding_range s uri) (@Permutation _) Hp).
  - intros s0 d0 O. exact (moved_folds _ _ _ _ _ Hg Hp O).
  - intros s0 d0 O. exact (moved_folds _ _ _ _ _ (stay_good _ _ _ Hg) (stay_plain _ _ Hp) O).
Qed.
Lemma deleted_outline e s s' uri keep ps d d' : Forall (good_piece (e_u e)) ps -> plain_document (whole ps) -> visits_all (e_ord e) -> opened e s uri (whole ps) d -> opened e s' uri (whole (staying keep ps)) d' ->
  exists f, (forall p s0 d0, In p ps -> opened e s0 uri (pc_text p) d0 -> document_symbol e s0 uri = Some (f p)) /\
    (exists l, document_symbol e s uri = Some l /\ Permutation l (stacked lower_symbol f 0 ps)) /\ exists l, document_symbol e s' uri = Some l /\ Permutation l (stacked lower_symbol f 0 (staying keep ps)).
Proof.
  intros Hg Hp Hv. apply (deleted_same e uri keep ps lower_symbol (fun s => document_symbol e s uri) (@Permutation _) Hp).
  - intros s0 d0 O. exact (moved_outline _ _ _ _ _ Hg Hp Hv O).
  - intros s0 d0 O. exact (moved_outline _ _ _ _ _ (stay_good _ _ _ Hg) (stay_plain _ _ Hp) Hv O).
Qed.
Lemma deleted_lenses e s s' uri keep ps d d' : Forall (good_piece (e_u e)) ps -> all_apart ps -> plain_document (whole ps) -> visits_all (e_ord e) -> opened e s uri (whole ps) d -> opened e s' uri (whole (staying keep ps)) d' ->
  exists f, (forall p s0 d0, In p ps -> opened e s0 uri (pc_text p) d0 -> code_lens e s0 uri = Some (f p)) /\
    (exists l, code_lens e s uri = Some l /\ Permutation l (stacked lower_lens f 0 ps)) /\ exists l, code_lens e s' uri = Some l /\ Permutation l (stacked lower_lens f 0 (staying keep ps)).
Proof.
  intros Hg Ha Hp Hv. apply (deleted_same e uri keep ps lower_lens (fun s => code_lens e s uri) (@Permutation _) Hp).
  - intros s0 d0 O. exact (moved_lenses _ _ _ _ _ Hg Ha Hp Hv O).
  - intros s0 d0 O. exact (moved_lenses _ _ _ _ _ (stay_good _ _ _ Hg) (stay_apart _ _ Ha) (stay_plain _ _ Hp) Hv O).
Qed.
Lemma deleted_tokens e s s' uri keep ps d d' : Forall (good_piece (e_u e)) ps -> plain_document (whole ps) -> opened e s uri (whole ps) d -> opened e s' uri (whole (staying keep ps)) d' ->
  exists f, (forall p s0 d0, In p ps -> opened e s0 uri (pc_text p) d0 -> exists l, semantic_tokens_full s0 uri = Val (Some l) /\ decode l = f p) /\
    (exists l, semantic_tokens_full s uri = Val (Some l) /\ decode l = stacked lower_token f 0 ps) /\ exists l, semantic_tokens_full s' uri = Val (Some l) /\ decode l = stacked lower_token f 0 (staying keep ps).
Proof.
  intros Hg Hp O O'. destruct (moved_tokens _ _ _ _ _ Hg Hp O) as (f & F1 & F2). destruct (moved_tokens _ _ _ _ _ (stay_good _ keep _ Hg) (stay_plain _ _ Hp) O') as (g & G1 & l & G2 & G3).
  exists f. split; [exact F1|]. split; [exact F2|]. exists l. split; [exact G2|]. rewrite (stacked_ext _ f g); [exact G3|]. intros p Hi. pose proof Hi as Hi'. apply filter_In in Hi' as [Hi' _].
  pose proof (srv_opened e uri (pc_text p) (proj1 (whole_parts_plain _ Hp _ Hi'))) as O1. destruct (F1 _ _ _ Hi' O1) as (x & X1 & X2). destruct (G1 _ _ _ Hi O1) as (y & Y1 & Y2). congruence.
Qed.
(** ** Graphs *)
Lemma first_stays e uri f keep ps : Forall (fun q => keep q = false -> exists m, ask_graph uri f (srv e uri (pc_text q)) = RpcError m) ps -> first_graph e uri f (staying keep ps) = first_graph e uri f ps.
Proof.
  induction 1 as [|p r H1 H2 IH]; [reflexivity|]. unfold staying in *. cbn [filter first_graph]. destruct (keep p); cbn [first_graph]; rewrite IH; [reflexivity|]. destruct (H1 eq_refl) as (m & ->). reflexivity.
Qed.
Lemma first_none e uri f ps : Forall (fun q => exists m, ask_graph uri f (srv e uri (pc_text q)) = RpcError m) ps -> first_graph e uri f ps = no_graph f.
Proof. induction 1 as [|p r (m & H1) H2 IH]; [reflexivity|]. cbn [first_graph]. rewrite H1. exact IH. Qed.
Lemma no_function e uri f p : good_piece (e_u e) p -> ascii_text (pc_text p) = true -> ~ has_function p f -> exists m, ask_graph uri f (srv e uri (pc_text p)) = RpcError m.
Proof. intros G A N. destruct (ask_graph uri f (srv e uri (pc_text p))) as [g|m] eqn:E; [|exists m; reflexivity]. destruct (N (graph_defined _ _ _ _ _ G A E)). Qed.
Lemma deleted_graphs e uri keep ps s s' d d' f : Forall (good_piece (e_u e)) ps -> plain_document (whole ps) ->
  opened e s uri (whole ps) d -> opened e s' uri (whole (staying keep ps)) d' -> (forall q, In q (going keep ps) -> ~ has_function q f) ->
  execute_command s' (str "visualize-cfg") [JStr uri; JStr f] = execute_command s (str "visualize-cfg") [JStr uri; JStr f].
Proof.
  intros Hg Hp Ho Ho' N. pose proof (graphs_stack e uri f ps s d Hg (proj1 Hp) Ho) as E. pose proof (graphs_stack e uri f _ s' d' (stay_good _ keep _ Hg) (proj1 (stay_plain _ _ Hp)) Ho') as E'. unfold ask_graph in E, E'. rewrite E, E'.
  apply first_stays. rewrite Forall_forall in *. intros q Hq K. apply no_function; [exact (Hg _ Hq)|exact (proj1 (whole_parts_plain _ Hp _ Hq))|]. apply N. apply filter_In. rewrite K. auto.
Qed.
Lemma deleted_functions e uri keep ps s' d' f q : Forall (good_piece (e_u e)) ps -> all_apart ps -> plain_document (whole ps) ->
  opened e s' uri (whole (staying keep ps)) d' -> In q (going keep ps) -> has_function q f ->
  execute_command s' (str "visualize-cfg") [JStr uri; JStr f] = RpcError (str "function `" ++ f ++ str "` not found").
Proof.
  intros Hg Ha Hp Ho' Hq (y & Y1 & Y2). pose proof (graphs_stack e uri f _ s' d' (stay_good _ keep _ Hg) (proj1 (stay_plain _ _ Hp)) Ho') as E'. unfold ask_graph in E'. rewrite E'.
  apply first_none. pose proof (stay_good _ keep _ Hg) as Hg'. rewrite Forall_forall in *. intros p Hi. apply no_function; [exact (Hg' _ Hi)|exact (proj1 (whole_parts_plain _ (stay_plain keep _ Hp) _ Hi))|].
  intros (x & X1 & X2). pose proof (apart_in _ _ _ _ Ha Hi Hq) as D.
  destruct (defined_name _ 0 _ X1) as (v & V1 & V2 & V3 & V4 & V5). destruct (defined_name _ 0 _ Y1) as (w & W1 & W2 & W3 & W4 & W5). apply (D v w V1 W1 V2 W2 V3 W3). repeat split; congruence.
Qed.
(** ** Hints *)
Lemma lookup_stays keep ps n : (forall q, In q (going keep ps) -> existsb (annotates n) (stmts_of q) = false) -> lookup (staying keep ps) n = lookup ps n.
Proof.
  unfold staying, going. induction ps as [|p r IH]; intros H; [reflexivity|]. cbn [filter lookup] in *. destruct (keep p); cbn [lookup negb] in *.
  - rewrite IH by exact H. reflexivity.
  - rewrite (H p) by (left; reflexivity). apply IH. intros q Hq. apply H. right. exact Hq.
Qed.
Lemma lookup_gone ps n : (forall q, In q ps -> existsb (annotates n) (stmts_of q) = false) -> lookup ps n = None.
Proof. induction ps as [|p r IH]; intros H; [reflexivity|]. cbn [lookup]. rewrite (H p) by (left; reflexivity). apply IH. intros q Hq. apply H. right. exact Hq. Qed.
Definition part_hints e rs uri ps p := plain_hints (doc_at e uri (pc_text p)) uri ++ shown_traces e rs (lookup ps) p.
Lemma whole_hints e uri ps s d : Forall (good_piece (e_u e)) ps -> all_apart ps -> plain_document (whole ps) -> opened e s uri (whole ps) d ->
  if all_traced e (roots s) (lookup ps) ps then exists l, inlay_hint_handler e s uri = Val (Some l) /\ Permutation l (stacked lower_hint (part_hints e (roots s) uri ps) 0 ps) else inlay_hint_handler e s uri = Panic.
Proof.
  intros Hg Ha Hp Ho. set (v := lookup ps). set (f0 := fun p => plain_hints (doc_at e uri (pc_text p)) uri).
  assert (Permutation (plain_hints d uri) (stacked lower_hint f0 0 ps)) as Hplain.
  { destruct (stack_show e uri lower_hint (fun s => option_map (fun d => plain_hints d uri) (get_doc s uri)) (fun _ => True) (@Permutation _)) with (s := s) (d := d) (ps := ps) as (f & F1 & l & F2 & F3); auto using hint_twice, hint_zero, Permutation_refl, perm_app.
    - apply Permutation_trans.
    - intros s0 s' E. rewrite E. reflexivity.
    - intros s0 d0 H0. rewrite (empty_doc _ _ _ _ H0). reflexivity.
    - intros p r pr s0 s1 s2 D Da Db H1 _ H2 H3 H4 _ O O1 O2. inversion_clear H2 as [|? ? (Hfl & Hpp & He) _]. exists (plain_hints D uri), (plain_hints Da uri), (plain_hints Db uri). rewrite (proj1 O), (proj1 O1), (proj1 O2). repeat split; auto.
      eapply plain_sum; try eassumption. right. exact H4.
    - rewrite (proj1 Ho) in F2. cbn [option_map] in F2. injection F2 as <-. rewrite F3. apply eq_ind with (x := stacked lower_hint f 0 ps); [reflexivity|]. apply stacked_ext. intros p Hi.
      pose proof (whole_parts_plain _ Hp _ Hi) as Pp. pose proof (srv_opened e uri (pc_text p) (proj1 Pp)) as O. specialize (F1 _ _ _ Hi O). rewrite (proj1 O) in F1. cbn [option_map] in F1. injection F1 as <-. reflexivity. }
  destruct (all_parts _ _ Hg) as (tr & sr & Hs & _). rewrite (handler_with _ _ _ _ _ _ _ Ho Hs), (whole_traces e (roots s) _ _ Hg Hp _ _ Hs).
  assert (forall n, ann_value (whole ps) sr n = v n) as Ev by (intros n; apply (whole_value _ _ Hg Ha Hp _ _ Hs)).
  destruct (traced_ext e (roots s) _ _ ps Ev) as [-> Ex]. destruct (all_traced e (roots s) v ps); [|reflexivity]. cbn [rbind]. eexists. split; [reflexivity|].
  change (part_hints e (roots s) uri ps) with (fun p => f0 p ++ shown_traces e (roots s) v p). rewrite stacked_app, <- Hplain. unfold plain_hints. rewrite <- !app_assoc. apply Permutation_app_head. rewrite Permutation_app_comm. apply Permutation_app_head.
  apply eq_ind with (x := stacked lower_hint (shown_traces e (roots s) (ann_value (whole ps) sr)) 0 ps); [reflexivity|]. apply stacked_ext. intros p _. unfold shown_traces. rewrite Ex. reflexivity.
Qed.
Lemma traces_stay e rs keep ps p l : all_apart ps -> In p (staying keep ps) -> plain_document (pc_text p) -> good_piece (e_u e) p -> traces e rs (lookup ps) p = Val l ->
  exists z m, traces e rs (lookup (staying keep ps)) p = Val z /\ Permutation l (z ++ m) /\ Forall (supplied_by (going keep ps) p) m.
Proof.
  intros Ha Hi Hp (_ & Hpp & He). apply rflat_more. intros i y Hin. destruct p as [a [ta sa ea]]. cbn [pc_text pc_result pr_errors] in *. subst ea. unfold stmts_of in Hin. cbn [pc_result pr_stmts] in Hin.
  unfold hint_with. destruct (i_dbg i) as [r|] eqn:Er; cbn [obind]; [|intros E; exists [], []; injection E as <-; repeat split; constructor].
  destruct (existsb (fun q => existsb (annotates (fst r)) (stmts_of q)) (going keep ps)) eqn:En.
  - apply existsb_exists in En as (q & Q1 & Q2). rewrite (lookup_gone (staying keep ps)).
    2:{ intros p Pi. destruct (existsb (annotates (fst r)) (stmts_of p)) eqn:Ep; [|reflexivity]. destruct (annotated_apart _ _ _ (apart_in _ _ _ _ Ha Pi Q1) Ep Q2). }
    cbn [obind]. intros E. exists [], y. split; [reflexivity|]. split; [reflexivity|]. destruct (lookup ps (fst r)) as [t|] eqn:El; cbn [obind] in E; [|injection E as <-; constructor].
    destruct (e_json_parse e t) as [j|]; cbn [obind] in E; [|injection E as <-; constructor].
    destruct (parse_backtrace_from_json _ _ j) as [[fr|]|]; cbn [rbind] in E; [|injection E as <-; constructor|discriminate].
    destruct (dbg_inside _ _ _ _ _ _ Hpp Hin Er) as [_ K]. rewrite (plain_pos _ _ Hp K) in E. destruct (inlay_hint_for_backtrace _ _ _ fr) as [h|] eqn:Eh; [|discriminate]. injection E as <-. constructor; [|constructor].
    exists i, r, q. split; [exact Hin|]. split; [exact Er|]. split; [exact Q1|]. split.
    { cbn [pc_result pr_stmts]. destruct (existsb (annotates (fst r)) sa) eqn:Ep; [|reflexivity]. destruct (annotated_apart _ _ _ (apart_in _ _ _ _ Ha Hi Q1) Ep Q2). }
    split; [exact Q2|]. cbn [pc_text].
    unfold inlay_hint_for_backtrace in Eh. destruct (identify_relevant_frames fr) as [k|].
    + destruct (nth_error fr k) as [fx|]; [|discriminate]. destruct (shorten_name _ _) as [sy|]; [|discriminate]. cbn [rbind] in Eh. destruct (format_frame_as_md _ _ fx) as [tp|]; [|discriminate]. cbn [rbind] in Eh. destruct (backtrace_json_to_md _ _ _) as [tp'|]; [|discriminate]. injection Eh as <-. reflexivity.
    + cbn [rbind] in Eh. destruct (backtrace_json_to_md _ _ _) as [tp'|]; [|discriminate]. injection Eh as <-. reflexivity.
  - rewrite (lookup_stays keep ps). 2:{ intros q Hq. destruct (existsb (annotates (fst r)) (stmts_of q)) eqn:Eq; [|reflexivity]. assert (existsb (fun q => existsb (annotates (fst r)) (stmts_of q)) (going keep ps) = true) by (apply existsb_exists; eauto). congruence. }
    intros E. exists y, []. rewrite app_nil_r. split; [exact E|]. split; [reflexivity|constructor].
Qed.
Lemma traced_all e rs v ps : (forall p, In p ps -> exists l, traces e rs v p = Val l) -> all_traced e rs v ps = true.
Proof. induction ps as [|p r IH]; intros H; [reflexivity|]. cbn [all_traced]. destruct (H p (or_introl eq_refl)) as (l & ->). apply IH. intros q Hq. apply H. right. exact Hq. Qed.
Lemma hints_alone e uri rs ps : Forall (good_piece (e_u e)) ps -> all_apart ps -> plain_document (whole ps) -> all_traced e rs (lookup ps) ps = true ->
  forall p s d, In p ps -> opened e s uri (pc_text p) d -> roots s = rs -> exists l more, inlay_hint_handler e s uri = Val (Some l) /\ Permutation (part_hints e rs uri ps p) (l ++ more) /\ Forall (supplied_by ps p) more.
Proof.
  intros Hg Ha Hp Et p s d Hi Ho Hr. pose proof (whole_parts_plain _ Hp _ Hi) as Pp. pose proof Hg as Hg'. rewrite Forall_forall in Hg'. pose proof (Hg' _ Hi) as Gp. pose proof (traced_in e rs _ ps p Et Hi) as T. destruct (traces_alone e rs ps p _ Ha Hi Pp Gp T) as (z & m & Z1 & Z2 & Z3).
  destruct Gp as (_ & Hpp & He). destruct p as [a [ta sa ea]]. cbn [pc_text pc_result pr_errors] in *. subst ea. rewrite (handler_with _ _ _ _ _ _ _ Ho Hpp), Hr.
  unfold traces in Z1. unfold stmts_of in Z1. cbn [pc_text pc_result pr_stmts] in Z1. rewrite Z1. cbn [rbind]. eexists. exists m. split; [reflexivity|]. split; [|exact Z3].
  unfold part_hints. cbn [pc_text]. assert (doc_at e uri a = d) as ->. { pose proof (opened_same _ _ _ _ _ _ _ Ho (srv_opened e uri a (proj1 Pp))) as O. rewrite (proj1 Ho), (proj1 (srv_opened e uri a (proj1 Pp))) in O. congruence. }
  rewrite Z2. unfold plain_hints. rewrite <- !app_assoc. apply Permutation_app_head. rewrite !app_assoc. apply Permutation_app_tail. apply Permutation_app_comm.
Qed.
Lemma deleted_hints e uri keep ps s s' d d' l : Forall (good_piece (e_u e)) ps -> all_apart ps -> plain_document (whole ps) ->
  opened e s uri (whole ps) d -> opened e s' uri (whole (staying keep ps)) d' -> roots s' = roots s -> inlay_hint_handler e s uri = Val (Some l) ->
  exists l' f g, inlay_hint_handler e s' uri = Val (Some l') /\ Permutation l (stacked lower_hint f 0 ps) /\ Permutation l' (stacked lower_hint g 0 (staying keep ps)) /\
    (forall p s0 d0, In p ps -> opened e s0 uri (pc_text p) d0 -> roots s0 = roots s -> exists k more, inlay_hint_handler e s0 uri = Val (Some k) /\ Permutation (f p) (k ++ more) /\ Forall (supplied_by ps p) more) /\
    forall p, In p (staying keep ps) -> exists lost, Permutation (f p) (g p ++ lost) /\ Forall (supplied_by (going keep ps) p) lost.
Proof.
  intros Hg Ha Hp Ho Ho' Hr E. pose proof (whole_hints e uri ps s d Hg Ha Hp Ho) as W. destruct (all_traced e (roots s) (lookup ps) ps) eqn:T; [|congruence]. destruct W as (l0 & W1 & W2). rewrite E in W1. injection W1 as <-.
  pose proof (whole_hints e uri _ s' d' (stay_good _ keep _ Hg) (stay_apart keep _ Ha) (stay_plain _ _ Hp) Ho') as W. rewrite Hr in W.
  assert (S : forall p, In p (staying keep ps) -> exists z m, traces e (roots s) (lookup (staying keep ps)) p = Val z /\ Permutation (shown_traces e (roots s) (lookup ps) p) (z ++ m) /\ Forall (supplied_by (going keep ps) p) m).
  { intros p Hi. pose proof Hi as Hi'. apply filter_In in Hi' as [Hi' _]. apply traces_stay; auto; [exact (whole_parts_plain _ Hp _ Hi')|rewrite Forall_forall in Hg; exact (Hg _ Hi')|exact (traced_in _ _ _ _ _ T Hi')]. }
  rewrite traced_all in W by (intros p Hi; destruct (S p Hi) as (z & m & Z & _); exists z; exact Z). destruct W as (l' & W3 & W4).
  exists l', (part_hints e (roots s) uri ps), (part_hints e (roots s) uri (staying keep ps)). split; [exact W3|]. split; [exact W2|]. split; [exact W4|]. split; [exact (hints_alone e uri (roots s) ps Hg Ha Hp T)|].
  intros p Hi. destruct (S p Hi) as (z & m & Z1 & Z2 & Z3). exists m. split; [|exact Z3]. unfold part_hints. unfold shown_traces at 2. rewrite Z1, Z2, app_assoc. reflexivity.
Qed.
