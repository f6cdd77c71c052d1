(** Parts of a document in another order: what is shown moves with the parts. *)
From Verif Require Import Text Rope Chumsky Tokenizer Parser Numbers Index SemTok Diag Rename Cfg Backtrace Server SpecText SpecLex SpecParse SpecIndex SpecDiag SpecBacktrace SpecNumbers SpecCfg SpecView SpecSemTok SpecSum SpecSumView SpecMove
  PText PRope PSemTok PSemDoc PLexSpec PLexProps PTokens PParse PParseProps PIndex PIndexDoc PIndexText PDiag PDiagDoc PCfg PBacktrace PNumbers PHints PView PFold PFoldText PExt PNav PSum PSumIndex PAbove PSumDoc PSumNav PSumOrder PSumView.

Lemma apart_sym p q : defines_apart p q -> defines_apart q p.
Proof. intros H x y Hx Hy D1 D2 B1 B2 (E1 & E2 & E3). apply (H y x Hy Hx D2 D1 B2 B1). repeat split; congruence. Qed.
Lemma pairs_perm {A} (R : A -> A -> Prop) l m : (forall x y, R x y -> R y x) -> Permutation l m -> ForallOrdPairs R l -> ForallOrdPairs R m.
Proof.
  intros S. induction 1 as [|x l m P IH|x y l|l m k _ IH1 _ IH2]; intros H; [exact H| | |auto].
  - inversion_clear H as [|? ? H1 H2]. constructor; [rewrite <- P; exact H1|auto].
  - inversion_clear H as [|? ? H1 H2]. inversion_clear H2 as [|? ? H3 H4]. inversion_clear H1 as [|? ? H5 H6]. constructor; [constructor; auto|]. constructor; assumption.
Qed.
Lemma stacked_lower {A} (lower : nat -> A -> A) f : (forall n m x, lower n (lower m x) = lower (n + m) x) -> forall ps n m, stacked lower f (n + m) ps = map (lower n) (stacked lower f m ps).
Proof.
  intros H. induction ps as [|p r IH]; intros n m; [reflexivity|]. cbn [stacked]. rewrite map_app, map_map, <- IH, Nat.add_assoc. f_equal. apply map_ext. intros x. symmetry. apply H.
Qed.
Lemma stacked_ext {A} (lower : nat -> A -> A) f g : forall ps n, (forall p, In p ps -> f p = g p) -> stacked lower f n ps = stacked lower g n ps.
Proof. induction ps as [|p r IH]; intros n H; [reflexivity|]. cbn [stacked]. rewrite (H p) by (left; reflexivity). rewrite IH; [reflexivity|]. intros q Hq. apply H. right. exact Hq. Qed.
Lemma lower_zero p : lower 0 p = p. Proof. destruct p; reflexivity. Qed.
Lemma lower_twice n m p : lower n (lower m p) = lower (n + m) p. Proof. unfold lower. cbn. rewrite Nat.add_assoc. reflexivity. Qed.
Lemma range_twice n m r : lower_range n (lower_range m r) = lower_range (n + m) r. Proof. unfold lower_range. cbn -[lower]. rewrite !lower_twice. reflexivity. Qed.
Lemma range_zero r : lower_range 0 r = r. Proof. destruct r as [a b]. unfold lower_range. cbn -[lower]. rewrite !lower_zero. reflexivity. Qed.
Lemma location_twice n m x : lower_location n (lower_location m x) = lower_location (n + m) x. Proof. unfold lower_location. cbn -[lower_range]. rewrite range_twice. reflexivity. Qed.
Lemma location_zero x : lower_location 0 x = x. Proof. destruct x. unfold lower_location. cbn -[lower_range]. rewrite range_zero. reflexivity. Qed.
Lemma diagnostic_twice n m x : lower_diagnostic n (lower_diagnostic m x) = lower_diagnostic (n + m) x.
Proof. unfold lower_diagnostic. cbn -[lower_range lower_location]. rewrite range_twice, map_map. f_equal. apply map_ext. intros y. cbn [fst snd]. rewrite location_twice. reflexivity. Qed.
Lemma diagnostic_zero x : lower_diagnostic 0 x = x.
Proof.
  destruct x as [r m l]. unfold lower_diagnostic. cbn -[lower_range lower_location]. rewrite range_zero. f_equal. transitivity (map (fun y => y) l); [apply map_ext|apply map_id].
  intros [a b]. cbn [fst snd]. rewrite location_zero. reflexivity.
Qed.
Lemma fold_twice n m x : lower_fold n (lower_fold m x) = lower_fold (n + m) x. Proof. unfold lower_fold. cbn. rewrite !Nat.add_assoc. reflexivity. Qed.
Lemma fold_zero x : lower_fold 0 x = x. Proof. destruct x; reflexivity. Qed.
Lemma symbol_twice n m x : lower_symbol n (lower_symbol m x) = lower_symbol (n + m) x. Proof. unfold lower_symbol. cbn -[lower_range]. rewrite !range_twice. reflexivity. Qed.
Lemma symbol_zero x : lower_symbol 0 x = x. Proof. destruct x. unfold lower_symbol. cbn -[lower_range]. rewrite !range_zero. reflexivity. Qed.
Lemma lens_twice n m x : lower_lens n (lower_lens m x) = lower_lens (n + m) x. Proof. unfold lower_lens. cbn -[lower_range]. rewrite range_twice. reflexivity. Qed.
Lemma lens_zero x : lower_lens 0 x = x. Proof. destruct x. unfold lower_lens. cbn -[lower_range]. rewrite range_zero. reflexivity. Qed.
Lemma token_twice n m x : lower_token n (lower_token m x) = lower_token (n + m) x. Proof. destruct x as [[p l] t]. cbn [lower_token]. rewrite lower_twice. reflexivity. Qed.
Lemma token_zero x : lower_token 0 x = x. Proof. destruct x as [[p l] t]. cbn [lower_token]. rewrite lower_zero. reflexivity. Qed.
Lemma part_twice n m x : lower_part n (lower_part m x) = lower_part (n + m) x.
Proof. unfold lower_part. cbn -[lower_location]. destruct (lp_location x); cbn [option_map]; [rewrite location_twice|]; reflexivity. Qed.
Lemma part_zero x : lower_part 0 x = x.
Proof. destruct x as [v l t]. unfold lower_part. cbn -[lower_location]. destruct l; cbn [option_map]; [rewrite location_zero|]; reflexivity. Qed.
Lemma hint_twice n m x : lower_hint n (lower_hint m x) = lower_hint (n + m) x.
Proof. unfold lower_hint. cbn -[lower lower_part]. rewrite lower_twice, map_map. f_equal. apply map_ext. intros y. apply part_twice. Qed.
Lemma hint_zero x : lower_hint 0 x = x.
Proof. destruct x as [p l]. unfold lower_hint. cbn -[lower lower_part]. rewrite lower_zero. f_equal. transitivity (map (fun y => y) l); [apply map_ext; exact part_zero|apply map_id]. Qed.
Lemma stacked_cons {A} (lower : nat -> A -> A) f p r : (forall n m x, lower n (lower m x) = lower (n + m) x) -> (forall x, lower 0 x = x) ->
  stacked lower f 0 (p :: r) = f p ++ map (lower (lsp_line_ends (pc_text p))) (stacked lower f 0 r).
Proof.
  intros H Z. cbn [stacked]. f_equal; [transitivity (map (fun y => y) (f p)); [apply map_ext; exact Z|apply map_id]|]. cbn [Nat.add]. rewrite <- (Nat.add_0_r (lsp_line_ends (pc_text p))) at 1. apply stacked_lower. exact H.
Qed.

Lemma none_of {A} (f : A -> bool) l : negb (existsb f l) = forallb (fun x => negb (f x)) l.
Proof. induction l as [|x l IH]; [reflexivity|]. cbn. rewrite negb_orb, IH. reflexivity. Qed.

Lemma all_definitions u ps : Forall (good_piece u) ps -> forall ts st, parse_from_str u (whole ps) = Val (mkPR ts st []) ->
  forall o, In o (tree_occs 0 st) -> o_ud o = Def -> o_body o = None -> exists p x, In p ps /\ In x (tree_occs 0 (stmts_of p)) /\ o_ud x = Def /\ o_body x = None /\ same_symbol x o.
Proof.
  induction ps as [|p r IH]; intros Hg ts st Hp.
  - cbn [whole flat_map] in Hp. rewrite empty_document in Hp. injection Hp as <- <-. intros o [].
  - inversion Hg as [|p' r' (Hfl & Hpp & He) Hg']; subst p' r'. destruct (all_parts _ _ Hg') as (tr & sr & Hr & _). specialize (IH Hg' _ _ Hr).
    destruct p as [a [ta sa ea]]. cbn [pc_text pc_result pr_errors pr_stmts] in *. subst ea. pose proof (sum_parsed _ _ _ _ _ _ _ Hfl Hpp Hr) as Hs. cbn [whole flat_map pc_text] in Hp. change (flat_map pc_text r) with (whole r) in *. rewrite Hp in Hs. injection Hs as -> ->.
    intros o H1 H2 H3. rewrite tree_sum in H1. apply in_app_iff in H1 as [H1|H1].
    + exists (mkPiece a (mkPR ta sa [])), o. cbn. repeat split; auto.
    + apply in_map_iff in H1 as (w & <- & H1). destruct (IH w H1) as (q & y' & Q1 & Q2 & Q3 & Q4 & Q5); [exact H2|cbn in H3; destruct (o_body w); [discriminate|reflexivity]|].
      exists q, y'. split; [right; exact Q1|]. split; [exact Q2|]. split; [exact Q3|]. split; [exact Q4|]. destruct Q5 as (R1 & R2 & R3). split; [exact R1|]. split; [rewrite H3; exact Q4|exact R3].
Qed.

(** ** Diagnostics *)
Section Diag.
Variable uri : text.
Definition reports (g : symbol_kind * text -> bool) (src : text) (ts : list stoken) (ss : list statement) : list diagnostic :=
  map (missing_diagnostic src) (filter missing_refs (instructions ss)) ++ map (undefined_diagnostic src) (filter (fun o => g (sym o)) (undefined_uses (recorded ss ts))) ++
  map (redefinition_diagnostic src uri) (redefinitions (recorded ss ts)).
Lemma reports_sum u a b ta tb sa sb g : full_lines a -> parse_from_str u a = Val (mkPR ta sa []) -> parse_from_str u b = Val (mkPR tb sb []) ->
  (forall o f, In o (tree_occs 0 sb) -> o_ud o = Def -> o_body o = None -> ~ first_defined sa o f) ->
  Permutation (reports g (a ++ b) (ta ++ map (shift_tok (length a)) tb) (sa ++ map (move_stmt (length a)) sb))
    (reports (fun x => g x && negb (provides sb x)) a ta sa ++ map (lower_diagnostic (lsp_line_ends a)) (reports (fun x => g x && negb (provides sa x)) b tb sb)).
Proof.
  intros Hfl Ha Hb A3. pose proof (sum_parsed _ _ _ _ _ _ _ Hfl Ha Hb) as Hs. unfold reports. rewrite filter_missing_sum, map_app.
  pose proof (undefined_sum_perm_at _ _ _ _ _ _ _ _ _ Ha Hb Hs) as U. apply (perm_filter (fun o => g (sym o))) in U.
  rewrite filter_app, PSumView.filter_map_comm, !filter_filter in U.
  pose proof (redefinitions_apart_at _ _ _ _ _ _ _ _ _ Ha Hb Hs A3) as R.
  apply (Permutation_map (undefined_diagnostic (a ++ b))) in U. rewrite map_app in U.
  apply (Permutation_map (redefinition_diagnostic (a ++ b) uri)) in R. rewrite map_app in R.
  rewrite (filter_ext (fun x => negb (supplies sb x) && g (sym x)) (fun o => g (sym o) && negb (provides sb (sym o)))) in U by (intros o; rewrite provides_sym, andb_comm; reflexivity).
  rewrite (filter_ext (fun x => negb (supplies sa x) && g (sym x)) (fun o => g (sym o) && negb (provides sa (sym o)))) in U by (intros o; rewrite provides_sym, andb_comm; reflexivity).
  assert (map (missing_diagnostic (a ++ b)) (filter missing_refs (instructions sa)) = map (missing_diagnostic a) (filter missing_refs (instructions sa))) as E1.
  { apply map_ext_in. intros i Hi. apply filter_In in Hi as [Hi _]. apply (mnemonic_low _ _ _ _ _ Ha) in Hi. unfold missing_diagnostic. rewrite range_left by (assumption || lia). reflexivity. }
  assert (map (missing_diagnostic (a ++ b)) (map (move_instr (length a)) (filter missing_refs (instructions sb))) =
    map (lower_diagnostic (lsp_line_ends a)) (map (missing_diagnostic b) (filter missing_refs (instructions sb)))) as E2.
  { rewrite !map_map. apply map_ext. intros i. unfold missing_diagnostic, lower_diagnostic. cbn. rewrite range_right by exact Hfl. reflexivity. }
  assert (forall h, map (undefined_diagnostic (a ++ b)) (filter h (undefined_uses (recorded sa ta))) = map (undefined_diagnostic a) (filter h (undefined_uses (recorded sa ta)))) as E3.
  { intros h. apply map_ext_in. intros o Ho. apply filter_In in Ho as [Ho _]. apply filter_In in Ho as [Ho _]. apply (undefined_low _ _ _ _ _ Hfl Ha uri _ Ho). }
  assert (forall l, map (undefined_diagnostic (a ++ b)) (map (move_occ (length a) (length (function_defs sa))) l) =
    map (lower_diagnostic (lsp_line_ends a)) (map (undefined_diagnostic b) l)) as E4.
  { intros l. rewrite !map_map. apply map_ext. intros o. apply (undefined_high _ _ _ Hfl uri). }
  assert (map (redefinition_diagnostic (a ++ b) uri) (redefinitions (recorded sa ta)) = map (redefinition_diagnostic a uri) (redefinitions (recorded sa ta))) as E5.
  { apply map_ext_in. intros [o f] H. apply in_redefs_recorded in H as [H1 H2]. apply (undefined_low _ _ _ _ _ Hfl Ha uri _ H1). exact H2. }
  assert (map (redefinition_diagnostic (a ++ b) uri) (map (fun x => (move_occ (length a) (length (function_defs sa)) (fst x), move_occ (length a) (length (function_defs sa)) (snd x))) (redefinitions (recorded sb tb))) =
    map (lower_diagnostic (lsp_line_ends a)) (map (redefinition_diagnostic b uri) (redefinitions (recorded sb tb)))) as E6.
  { rewrite !map_map. apply map_ext. intros [o f]. apply (undefined_high _ _ _ Hfl uri). }
  rewrite E3, E4 in U. rewrite E5, E6 in R. rewrite E1, E2. rewrite U, R. rewrite !map_app.
  set (x1 := map (missing_diagnostic a) _). set (x2 := map _ (map (missing_diagnostic b) _)).
  set (y1 := map (undefined_diagnostic a) _). set (y2 := map _ (map (undefined_diagnostic b) _)).
  set (z1 := map (redefinition_diagnostic a uri) _). set (z2 := map _ (map (redefinition_diagnostic b uri) _)). clear.
  rewrite <- !app_assoc. apply Permutation_app_head.
  rewrite (Permutation_app_comm x2). rewrite <- !app_assoc. apply Permutation_app_head.
  rewrite (Permutation_app_comm y2). rewrite <- !app_assoc. apply Permutation_app_head.
  rewrite (Permutation_app_comm z2). rewrite <- !app_assoc. reflexivity.
Qed.
Definition about (g : symbol_kind * text -> bool) (p : piece) : list diagnostic := reports g (pc_text p) (pr_tokens (pc_result p)) (stmts_of p).
Lemma reports_ext g h src ts ss : (forall o, In o (undefined_uses (recorded ss ts)) -> g (sym o) = h (sym o)) -> reports g src ts ss = reports h src ts ss.
Proof. intros H. unfold reports. rewrite (filter_ext_in (fun o => g (sym o)) (fun o => h (sym o)) _ H). reflexivity. Qed.
Lemma all_reports u ps : Forall (good_piece u) ps -> all_apart ps -> forall ts st, parse_from_str u (whole ps) = Val (mkPR ts st []) -> forall g,
  Permutation (reports g (whole ps) ts st) (stacked lower_diagnostic (about (fun x => g x && nobody ps x)) 0 ps).
Proof.
  induction ps as [|p r IH]; intros Hg Hap ts st Hp g.
  - cbn [whole flat_map] in Hp. rewrite empty_document in Hp. injection Hp as <- <-. reflexivity.
  - inversion_clear Hg as [|? ? (Hfl & Hpp & He) Hg']. inversion_clear Hap as [|? ? Hap1 Hap2].
    destruct (all_parts _ _ Hg') as (tr & sr & Hr & _ & Hpro & _). specialize (IH Hg' Hap2 _ _ Hr).
    destruct p as [a [ta sa ea]]. cbn [pc_text pc_result pr_errors pr_stmts] in *. subst ea. pose proof (sum_parsed _ _ _ _ _ _ _ Hfl Hpp Hr) as Hs. cbn [whole flat_map pc_text] in Hp. change (flat_map pc_text r) with (whole r) in *. rewrite Hp in Hs. injection Hs as -> ->.
    assert (A3 : forall o f, In o (tree_occs 0 sr) -> o_ud o = Def -> o_body o = None -> ~ first_defined sa o f).
    { intros o f H1 H2 H3 (F1 & F2 & F3 & _). destruct (all_definitions _ _ Hg' _ _ Hr o H1 H2 H3) as (q & w & Q1 & Q2 & Q3 & Q4 & Q5). rewrite Forall_forall in Hap1. 
      apply (Hap1 q Q1 f w F1 Q2 F2 Q3); [destruct F3 as (_ & F3 & _); congruence|exact Q4|]. unfold same_symbol in *. intuition congruence. }
    rewrite (reports_sum _ _ _ _ _ _ _ g Hfl Hpp Hr A3), (stacked_cons _ _ _ _ diagnostic_twice diagnostic_zero). cbn [pc_text]. apply Permutation_app.
      * apply Permutation_refl'. apply (reports_ext (fun x => g x && negb (provides sr x)) (fun x => g x && nobody (mkPiece a (mkPR ta sa []) :: r) x) a ta sa). intros o Ho. f_equal. unfold nobody. cbn [forallb stmts_of pc_result pr_stmts].
        rewrite <- (provides_sym sa), (undefined_own _ _ _ _ _ Hpp Ho). cbn [negb andb]. rewrite Hpro. apply none_of.
      * apply Permutation_map. rewrite (IH (fun x => g x && negb (provides sa x))). apply Permutation_refl'. apply stacked_ext. intros q _. apply (reports_ext (fun x => g x && negb (provides sa x) && nobody r x) (fun x => g x && nobody (mkPiece a (mkPR ta sa []) :: r) x) (pc_text q) (pr_tokens (pc_result q)) (stmts_of q)). intros o _.
        unfold nobody. cbn [forallb stmts_of pc_result pr_stmts]. rewrite andb_assoc. reflexivity.
Qed.
End Diag.
Lemma whole_diagnostics e uri ps : Forall (good_piece (e_u e)) ps -> all_apart ps -> plain_document (whole ps) -> visits_all (e_ord e) ->
  exists d l, analyze e uri (whole ps) = Val (d, l) /\ Permutation l (stacked lower_diagnostic (about uri (nobody ps)) 0 ps).
Proof.
  intros Hg Ha Hp Hv. destruct (analyze_ascii e uri (whole ps)) as (d & l & E); [apply Hp|]. exists d, l. split; [exact E|].
  destruct (all_parts _ _ Hg) as (ts & st & Hw & _). destruct (document_diagnostics _ _ _ _ _ Hp Hv E) as (pr & Hpr & P). rewrite Hw in Hpr. injection Hpr as <-. cbn [pr_errors pr_stmts pr_tokens filter map app] in P.
  pose proof (all_reports uri _ _ Hg Ha _ _ Hw (fun _ => true)) as R. unfold reports in R. rewrite (filter_all (fun o => true)) in R by reflexivity. rewrite P. exact R.
Qed.
Lemma about_alone e uri ps p : visits_all (e_ord e) -> plain_document (pc_text p) -> good_piece (e_u e) p -> In p ps ->
  exists d l settled, analyze e uri (pc_text p) = Val (d, l) /\ Permutation l (about uri (nobody ps) p ++ settled) /\ Forall (settled_by ps p) settled.
Proof.
  intros Hv Hp (Hfl & Hpp & He) Hi. destruct (analyze_ascii e uri (pc_text p)) as (d & l & E); [apply Hp|].
  destruct (document_diagnostics _ _ _ _ _ Hp Hv E) as (pr & Hpr & P). rewrite Hpp in Hpr. injection Hpr as <-. rewrite He in P. cbn [filter map app] in P.
  exists d, l, (map (undefined_diagnostic (pc_text p)) (filter (fun o => negb (nobody ps (sym o))) (undefined_uses (recorded (stmts_of p) (pr_tokens (pc_result p)))))). split; [exact E|]. split.
  - rewrite P. unfold about, reports. unfold stmts_of. rewrite <- app_assoc. apply Permutation_app_head. rewrite <- app_assoc.
    etransitivity; [apply Permutation_app_tail, Permutation_map, (perm_split (fun o => nobody ps (sym o)))|]. rewrite map_app, <- app_assoc. apply Permutation_app_head. apply Permutation_app_comm.
  - apply Forall_forall. intros x Hx. apply in_map_iff in Hx as (o & <- & Ho). apply filter_In in Ho as [Ho N]. apply negb_true_iff in N. 
    unfold nobody in N. rewrite <- none_of, negb_false_iff in N. apply existsb_exists in N as (q & Hq & N). exists q, o. split; [exact Hq|]. split; [exact Ho|]. split; [rewrite provides_sym; exact N|]. split; reflexivity.
Qed.
Lemma whole_parts_plain ps : plain_document (whole ps) -> forall p, In p ps -> plain_document (pc_text p).
Proof.
  induction ps as [|q r IH]; intros H p Hi; [contradiction Hi|]. destruct (plain_parts _ _ H) as [H1 H2]. destruct Hi as [<-|Hi]; auto.
Qed.
Lemma moved_diagnostics e uri ps : Forall (good_piece (e_u e)) ps -> all_apart ps -> plain_document (whole ps) -> visits_all (e_ord e) ->
  exists f, (forall p, In p ps -> exists d l settled, analyze e uri (pc_text p) = Val (d, l) /\ Permutation l (f p ++ settled) /\ Forall (settled_by ps p) settled) /\
    forall qs, Permutation ps qs -> exists d l, analyze e uri (whole qs) = Val (d, l) /\ Permutation l (stacked lower_diagnostic f 0 qs).
Proof.
  intros Hg Ha Hp Hv. exists (about uri (nobody ps)). split.
  - intros p Hi. apply about_alone; [exact Hv|exact (whole_parts_plain _ Hp _ Hi)| |exact Hi]. rewrite Forall_forall in Hg. exact (Hg _ Hi).
  - intros qs HP. destruct (whole_diagnostics e uri qs) as (d & l & E & P); [rewrite <- HP; exact Hg|exact (pairs_perm _ _ _ apart_sym HP Ha)|exact (whole_plain _ _ HP Hp)|exact Hv|].
    exists d, l. split; [exact E|]. rewrite P. apply Permutation_refl'. apply stacked_ext. intros p _. apply (reports_ext uri _ _ (pc_text p) (pr_tokens (pc_result p)) (stmts_of p)). intros o _. symmetry. apply nobody_perm. exact HP.
Qed.

(** ** What is shown, part by part *)
Section Stack.
Context {A : Type}.
Variables (e : env) (uri : text) (lower1 : nat -> A -> A) (ask : server -> option (list A)) (Q : list piece -> Prop) (same : list A -> list A -> Prop).
Hypothesis twice : forall n m x, lower1 n (lower1 m x) = lower1 (n + m) x.
Hypothesis zero : forall x, lower1 0 x = x.
Hypothesis Qtail : forall p r, Q (p :: r) -> Q r.
Hypothesis same_refl : forall l, same l l.
Hypothesis same_trans : forall l m k, same l m -> same m k -> same l k.
Hypothesis same_app : forall l m k n, same m k -> same (l ++ map (lower1 n) m) (l ++ map (lower1 n) k).
Hypothesis ask_same : forall s s', get_doc s uri = get_doc s' uri -> ask s = ask s'.
Hypothesis ask_none : forall s d, opened e s uri [] d -> ask s = Some [].
Hypothesis ask_sum : forall p r pr s s1 s2 D Da Db, plain_document (pc_text p ++ whole r) -> Q (p :: r) -> Forall (good_piece (e_u e)) (p :: r) -> parse_from_str (e_u e) (whole r) = Val pr -> pr_errors pr = [] ->
  (forall o, In o (tree_occs 0 (pr_stmts pr)) -> o_ud o = Def -> o_body o = None -> exists q x, In q r /\ In x (tree_occs 0 (stmts_of q)) /\ o_ud x = Def /\ o_body x = None /\ same_symbol x o) ->
  opened e s uri (pc_text p ++ whole r) D -> opened e s1 uri (pc_text p) Da -> opened e s2 uri (whole r) Db ->
  exists l la lb, ask s = Some l /\ ask s1 = Some la /\ ask s2 = Some lb /\ same l (la ++ map (lower1 (lsp_line_ends (pc_text p))) lb).
Definition srv (t : text) : server := mkServer [] false [(uri, match analyze e uri t with Val (d, _) => d | Panic => mkDoc [] [] [] index_empty end)].
Definition doc_at (t : text) : doc := match analyze e uri t with Val (d, _) => d | Panic => mkDoc [] [] [] index_empty end.
Lemma srv_opened t : ascii_text t = true -> opened e (srv t) uri t (doc_at t).
Proof.
  intros H. destruct (analyze_ascii e uri t H) as (d & l & E). split.
  - unfold get_doc, srv, doc_at. cbn [docs alookup]. rewrite text_eqb_refl. reflexivity.
  - unfold doc_at. rewrite E. eauto.
Qed.
Lemma opened_same s s' t d d' : opened e s uri t d -> opened e s' uri t d' -> get_doc s uri = get_doc s' uri.
Proof. intros [H1 [l H2]] [H3 [l' H4]]. congruence. Qed.
Lemma stack_show ps s d : Forall (good_piece (e_u e)) ps -> Q ps -> plain_document (whole ps) -> opened e s uri (whole ps) d ->
  exists f, (forall p s' d', In p ps -> opened e s' uri (pc_text p) d' -> ask s' = Some (f p)) /\ exists l, ask s = Some l /\ same l (stacked lower1 f 0 ps).
Proof.
  set (f := fun p => match ask (srv (pc_text p)) with Some l => l | None => [] end).
  intros Hg HQ Hp Ho. exists f. revert s d Hg HQ Hp Ho. induction ps as [|p r IH]; intros s d Hg HQ Hp Ho.
  - split; [intros p s' d' []|]. exists []. split; [exact (ask_none _ _ Ho)|apply same_refl].
  - destruct (plain_parts _ _ Hp) as [P1 P2]. pose proof (srv_opened (pc_text p) (proj1 P1)) as O1. pose proof (srv_opened (whole r) (proj1 P2)) as O2.
    inversion Hg as [|p' r' Hgp Hgr]; subst p' r'. destruct (IH _ _ Hgr (Qtail _ _ HQ) P2 O2) as [I1 (lr & I2 & I3)].
    destruct (all_parts _ _ Hgr) as (tr & sr & Hr & _).
    destruct (ask_sum p r _ s _ _ d _ _ Hp HQ Hg Hr eq_refl (all_definitions _ _ Hgr _ _ Hr) Ho O1 O2) as (l & la & lb & L1 & L2 & L3 & L4).
    assert (Ef : f p = la) by (unfold f; rewrite L2; reflexivity). assert (lb = lr) by congruence. subst lb. split.
    + intros q s' d' [<-|Hq] Hoq; [|exact (I1 _ _ _ Hq Hoq)]. rewrite (ask_same s' (srv (pc_text p))); [rewrite Ef; exact L2|exact (opened_same _ _ _ _ _ Hoq O1)].
    + exists l. split; [exact L1|]. rewrite (stacked_cons _ _ _ _ twice zero), Ef. eapply same_trans; [exact L4|]. apply same_app. exact I3.
Qed.
End Stack.

Lemma perm_app {A} (g : nat -> A -> A) l m k n : Permutation m k -> Permutation (l ++ map (g n) m) (l ++ map (g n) k).
Proof. intros H. rewrite H. reflexivity. Qed.
Lemma empty_doc e s uri d : opened e s uri [] d -> get_doc s uri = Some (mkDoc [] [] [] index_empty).
Proof.
  intros [H [l E]]. unfold analyze in E. rewrite empty_document in E. cbn [rbind pr_tokens pr_stmts pr_errors] in E. rewrite H. f_equal.
  assert (semantic_tokens_from_tokens [] = Val []) as S by reflexivity. rewrite S in E. cbn [rbind] in E. assert (create_index [] [] [] = Val index_empty) as I by reflexivity. rewrite I in E. cbn [rbind] in E. congruence.
Qed.
Lemma moved_folds e s uri ps d : Forall (good_piece (e_u e)) ps -> plain_document (whole ps) -> opened e s uri (whole ps) d ->
  exists f, (forall p s' d', In p ps -> opened e s' uri (pc_text p) d' -> folding_range s' uri = Some (f p)) /\
    exists l, folding_range s uri = Some l /\ Permutation l (stacked lower_fold f 0 ps).
Proof.
  intros Hg Hp Ho. apply (stack_show e uri lower_fold (fun s => folding_range s uri) (fun _ => True) (@Permutation _)) with (d := d); auto using fold_twice, fold_zero, Permutation_refl, perm_app.
  - apply Permutation_trans.
  - intros s0 s' E. unfold folding_range. rewrite E. reflexivity.
  - intros s0 d0 H0. unfold folding_range. rewrite (empty_doc _ _ _ _ H0). reflexivity.
  - intros p r pr s0 s1 s2 D Da Db H1 _ H2 H3 H4 _ O O1 O2. inversion_clear H2 as [|? ? (Hfl & Hpp & He) _]. eapply folds_sum; try eassumption. right. exact H4.
Qed.
Lemma moved_outline e s uri ps d : Forall (good_piece (e_u e)) ps -> plain_document (whole ps) -> visits_all (e_ord e) -> opened e s uri (whole ps) d ->
  exists f, (forall p s' d', In p ps -> opened e s' uri (pc_text p) d' -> document_symbol e s' uri = Some (f p)) /\
    exists l, document_symbol e s uri = Some l /\ Permutation l (stacked lower_symbol f 0 ps).
Proof.
  intros Hg Hp Hv Ho. apply (stack_show e uri lower_symbol (fun s => document_symbol e s uri) (fun _ => True) (@Permutation _)) with (d := d); auto using symbol_twice, symbol_zero, Permutation_refl, perm_app.
  - apply Permutation_trans.
  - intros s0 s' E. unfold document_symbol. rewrite E. reflexivity.
  - intros s0 d0 H0. unfold document_symbol. rewrite (empty_doc _ _ _ _ H0). assert (e_ord e [] = []) as En by (apply Permutation_nil; symmetry; apply Hv). cbn. rewrite En. reflexivity.
  - intros p r pr s0 s1 s2 D Da Db H1 _ H2 H3 H4 _ O O1 O2. inversion_clear H2 as [|? ? (Hfl & Hpp & He) _]. eapply outline_sum; try eassumption. right. exact H4.
Qed.
Lemma defined_name ss : forall id f, In f (function_defs ss) -> exists x, In x (tree_occs id ss) /\ o_ud x = Def /\ o_body x = None /\ o_kind x = KFunction /\ o_name x = fst (fs_name (fst f)).
Proof.
  induction ss as [|s r IH]; intros id f Hf; [contradiction Hf|]. unfold function_defs in *. cbn [flat_map] in Hf. cbn [tree_occs]. apply in_app_iff in Hf as [Hf|Hf].
  - destruct s as [| |kw sg bd| |]; try contradiction Hf. destruct Hf as [<-|[]]. exists (occ Def KFunction None (fs_name sg)). split; [left; reflexivity|]. repeat split.
  - destruct (IH (id + is_def s) f Hf) as (x & H1 & H2). exists x. split; [apply in_app_iff; right; exact H1|exact H2].
Qed.
Lemma apart_functions p r pr : all_apart (p :: r) ->
  (forall o, In o (tree_occs 0 (pr_stmts pr)) -> o_ud o = Def -> o_body o = None -> exists q x, In q r /\ In x (tree_occs 0 (stmts_of q)) /\ o_ud x = Def /\ o_body x = None /\ same_symbol x o) ->
  own_functions (stmts_of p) (pr_stmts pr).
Proof.
  intros Ha Hd f g Hf Hg E. inversion_clear Ha as [|? ? Ha1 _]. destruct (defined_name _ 0 _ Hf) as (x & X1 & X2 & X3 & X4 & X5). destruct (defined_name _ 0 _ Hg) as (y & Y1 & Y2 & Y3 & Y4 & Y5).
  destruct (Hd y Y1 Y2 Y3) as (q & z & Q1 & Q2 & Q3 & Q4 & Q5 & Q6 & Q7). rewrite Forall_forall in Ha1. apply (Ha1 q Q1 x z X1 Q2 X2 Q3 X3 Q4). repeat split; congruence.
Qed.
Lemma apart_tail p r : all_apart (p :: r) -> all_apart r.
Proof. intros H. inversion_clear H. assumption. Qed.
Lemma moved_lenses e s uri ps d : Forall (good_piece (e_u e)) ps -> all_apart ps -> plain_document (whole ps) -> visits_all (e_ord e) -> opened e s uri (whole ps) d ->
  exists f, (forall p s' d', In p ps -> opened e s' uri (pc_text p) d' -> code_lens e s' uri = Some (f p)) /\
    exists l, code_lens e s uri = Some l /\ Permutation l (stacked lower_lens f 0 ps).
Proof.
  intros Hg Ha Hp Hv Ho. apply (stack_show e uri lower_lens (fun s => code_lens e s uri) all_apart (@Permutation _)) with (d := d); auto using lens_twice, lens_zero, Permutation_refl, perm_app.
  - exact apart_tail.
  - apply Permutation_trans.
  - intros s0 s' E. unfold code_lens. rewrite E. reflexivity.
  - intros s0 d0 H0. unfold code_lens. rewrite (empty_doc _ _ _ _ H0). cbn. assert (e_ord e [] = []) as En by (apply Permutation_nil; symmetry; apply Hv). rewrite En. reflexivity.
  - intros p r pr s0 s1 s2 D Da Db H1 HQ H2 H3 H4 H5 O O1 O2. inversion_clear H2 as [|? ? (Hfl & Hpp & He) _]. eapply lenses_sum; try eassumption; [right; exact H4|]. exact (apart_functions _ _ _ HQ H5).
Qed.
Lemma moved_tokens e s uri ps d : Forall (good_piece (e_u e)) ps -> plain_document (whole ps) -> opened e s uri (whole ps) d ->
  exists f, (forall p s' d', In p ps -> opened e s' uri (pc_text p) d' -> exists l, semantic_tokens_full s' uri = Val (Some l) /\ decode l = f p) /\
    exists l, semantic_tokens_full s uri = Val (Some l) /\ decode l = stacked lower_token f 0 ps.
Proof.
  intros Hg Hp Ho. destruct (stack_show e uri lower_token (fun s => match semantic_tokens_full s uri with Val (Some l) => Some (decode l) | _ => None end) (fun _ => True) (@eq _)) with (s := s) (d := d) (ps := ps) as (f & F1 & l & F2 & F3); auto using token_twice, token_zero.
  - intros; congruence.
  - intros; congruence.
  - intros s0 s' E. unfold semantic_tokens_full. rewrite E. reflexivity.
  - intros s0 d0 H0. unfold semantic_tokens_full. rewrite (empty_doc _ _ _ _ H0). reflexivity.
  - intros p r pr s0 s1 s2 D Da Db H1 _ H2 H3 H4 _ O O1 O2. inversion_clear H2 as [|? ? (Hfl & Hpp & He) _].
    destruct (tokens_sum e s0 s1 s2 uri _ _ D Da Db _ _ H1 Hfl Hpp H3 He (or_intror H4) O O1 O2) as (l & la & lb & -> & -> & -> & E). exists (decode l), (decode la), (decode lb). auto.
  - exists f. split.
    + intros p s' d' Hi Hop. specialize (F1 p s' d' Hi Hop). destruct (semantic_tokens_full s' uri) as [[k|]|]; try discriminate F1. exists k. split; [reflexivity|congruence].
    + destruct (semantic_tokens_full s uri) as [[k|]|]; try discriminate F2. exists k. split; [reflexivity|congruence].
Qed.

(** ** Graphs *)
Section Graph.
Variables (e : env) (uri f : text).
Definition ask_graph (s : server) : reply show_graph := execute_command s (str "visualize-cfg") [JStr uri; JStr f].
Definition no_graph : reply show_graph := RpcError (str "function `" ++ f ++ str "` not found").
Fixpoint first_graph (ps : list piece) : reply show_graph :=
  match ps with
  | [] => no_graph
  | p :: r => match ask_graph (srv e uri (pc_text p)) with Reply g => Reply g | RpcError _ => first_graph r end
  end.
Lemma ask_graph_same s s' : get_doc s uri = get_doc s' uri -> ask_graph s = ask_graph s'.
Proof. intros E. unfold ask_graph, execute_command. rewrite E. reflexivity. Qed.
Lemma graphs_stack ps s d : Forall (good_piece (e_u e)) ps -> ascii_text (whole ps) = true -> opened e s uri (whole ps) d -> ask_graph s = first_graph ps.
Proof.
  revert s d. induction ps as [|p r IH]; intros s d Hg Ha Ho.
  - unfold ask_graph, execute_command. change (text_eqb (str "visualize-cfg") (str "visualize-cfg")) with true. cbv iota. rewrite (empty_doc _ _ _ _ Ho). reflexivity.
  - cbn [whole flat_map] in Ha. unfold ascii_text in Ha. rewrite forallb_app in Ha. apply andb_true_iff in Ha as [A1 A2]. pose proof (srv_opened e uri (pc_text p) A1) as O1. pose proof (srv_opened e uri (whole r) A2) as O2.
    inversion Hg as [|p' r' (Hfl & Hpp & He) Hgr]; subst p' r'. destruct (all_parts _ _ Hgr) as (tr & sr & Hr & _).
    pose proof (graph_sum e s _ _ uri _ _ d _ _ _ _ f Hfl Hpp Hr He (or_intror eq_refl) Ho O1 O2) as E. cbv zeta in E. unfold ask_graph at 1. rewrite E. cbn [first_graph]. change (execute_command (srv e uri (pc_text p)) (str "visualize-cfg") [JStr uri; JStr f]) with (ask_graph (srv e uri (pc_text p))).
    destruct (ask_graph (srv e uri (pc_text p))); [reflexivity|]. exact (IH _ _ Hgr A2 O2).
Qed.
Lemma graph_defined p g : good_piece (e_u e) p -> ascii_text (pc_text p) = true -> ask_graph (srv e uri (pc_text p)) = Reply g -> exists x, In x (function_defs (stmts_of p)) /\ fst (fs_name (fst x)) = f.
Proof.
  intros (Hfl & Hpp & He) Ha H. pose proof (srv_opened e uri (pc_text p) Ha) as O1. unfold stmts_of. destruct (pc_result p) as [ts st es]. cbn [pr_stmts]. destruct (opened_at _ _ _ _ _ _ _ O1 Hpp) as (I & R & S & G).
  unfold ask_graph, execute_command in H. change (text_eqb (str "visualize-cfg") (str "visualize-cfg")) with true in H. cbv iota in H. rewrite G in H.
  destruct (find _ (function_bodies (doc_index (doc_at e uri (pc_text p))))) as [b|] eqn:F; [|discriminate H]. apply find_some in F as [F1 F2]. destruct (In_nth_error _ _ F1) as (k & Hk).
  destruct (bodies_at _ _ _ _ _ I _ _ Hk) as (x & X1 & X2 & _). exists x. split; [exact (nth_error_In _ _ X1)|]. rewrite <- X2. destruct (text_eqb_spec (fst (fb_name b)) f); [assumption|discriminate F2].
Qed.
Lemma graph_apart p q g h : good_piece (e_u e) p -> good_piece (e_u e) q -> ascii_text (pc_text p) = true -> ascii_text (pc_text q) = true -> defines_apart p q ->
  ask_graph (srv e uri (pc_text p)) = Reply g -> ask_graph (srv e uri (pc_text q)) = Reply h -> False.
Proof.
  intros Gp Gq Ap Aq D Hp Hq. destruct (graph_defined _ _ Gp Ap Hp) as (x & X1 & X2). destruct (graph_defined _ _ Gq Aq Hq) as (y & Y1 & Y2).
  destruct (defined_name _ 0 _ X1) as (v & V1 & V2 & V3 & V4 & V5). destruct (defined_name _ 0 _ Y1) as (w & W1 & W2 & W3 & W4 & W5). apply (D v w V1 W1 V2 W2 V3 W3). repeat split; congruence.
Qed.
Lemma first_perm ps qs : Permutation ps qs -> Forall (good_piece (e_u e)) ps -> Forall (fun p => ascii_text (pc_text p) = true) ps -> all_apart ps -> first_graph ps = first_graph qs.
Proof.
  induction 1 as [|p l m P IH|p q l|l m k P1 IH1 P2 IH2]; intros G A D; [reflexivity| | |].
  - inversion_clear G. inversion_clear A. inversion_clear D. cbn [first_graph]. rewrite IH by assumption. reflexivity.
  - cbn [first_graph]. destruct (ask_graph (srv e uri (pc_text p))) as [g|] eqn:Ep, (ask_graph (srv e uri (pc_text q))) as [h|] eqn:Eq; try reflexivity. exfalso.
    inversion_clear G as [|? ? G1 G2]. inversion_clear G2 as [|? ? G3 _]. inversion_clear A as [|? ? A1 A2]. inversion_clear A2 as [|? ? A3 _]. inversion_clear D as [|? ? D1 _]. inversion_clear D1 as [|? ? D2 _].
    exact (graph_apart _ _ _ _ G1 G3 A1 A3 D2 Eq Ep).
  - rewrite IH1 by assumption. apply IH2; [rewrite <- P1; exact G|rewrite <- P1; exact A|exact (pairs_perm _ _ _ apart_sym P1 D)].
Qed.
End Graph.
Lemma moved_graphs e uri ps qs s s' d d' f : Forall (good_piece (e_u e)) ps -> all_apart ps -> plain_document (whole ps) -> Permutation ps qs ->
  opened e s uri (whole ps) d -> opened e s' uri (whole qs) d' ->
  execute_command s' (str "visualize-cfg") [JStr uri; JStr f] = execute_command s (str "visualize-cfg") [JStr uri; JStr f].
Proof.
  intros Hg Ha Hp HP Ho Ho'. assert (A : Forall (fun p => ascii_text (pc_text p) = true) ps) by (apply Forall_forall; intros p Hi; exact (proj1 (whole_parts_plain _ Hp _ Hi))).
  pose proof (graphs_stack e uri f ps s d Hg (proj1 Hp) Ho) as E. assert (Hg' : Forall (good_piece (e_u e)) qs) by (rewrite <- HP; exact Hg).
  pose proof (graphs_stack e uri f qs s' d' Hg' (proj1 (whole_plain _ _ HP Hp)) Ho') as E'. unfold ask_graph in E, E'. rewrite E, E'. symmetry. exact (first_perm e uri f _ _ HP Hg A Ha).
Qed.
