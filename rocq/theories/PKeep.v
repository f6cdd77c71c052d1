(** Changes that keep a program a program. *)
From Verif Require Import Text Rope Chumsky Tokenizer Parser Numbers Index Diag SemTok Rename Cfg Backtrace Server SpecText SpecBytes SpecLex SpecParse SpecExact SpecIndex SpecDiag SpecBacktrace SpecNumbers SpecCfg SpecView SpecRename SpecPatch SpecSimilar SpecRebind SpecLayout SpecLines SpecSum SpecForeign SpecViable
  PText PLexSpec PLexProps PTokens PParseProps PIndexDoc PDiag PDiagDoc PExact PParse PNumbers PHints PNav PIndex PIndexText PRename PRelex PRetree PRebind PLayout PLines PLinesExact PIdle PSumIndex PSum PSumDoc PSumOrder PForeign PClean.

Section Alike.
Variable T : stoken -> stoken -> Prop.
Hypothesis T_similar : forall a b, T a b -> similar (fst a) (fst b).
Lemma plain_mnemonic i : plain_word (mnemonic i) -> ~ needs_targets i.
Proof.
  intros [P1 P2] [[p H]|[H|H]]; [apply P2; exists p; exact H| |]; apply P1; rewrite H; unfold special_words; rewrite in_map_iff; eexists; (split; [reflexivity|]); cbn [In]; auto 12.
Qed.
Lemma missing_alike i i' : same_instr T i i' -> missing_refs i = missing_refs i'.
Proof.
  intros (_ & M & R & _). apply Bool.eq_iff_eq_true. rewrite !missing_refs_iff.
  assert (E : i_refs i = [] <-> i_refs i' = []) by (inversion R; split; congruence). rewrite E. apply T_similar in M. unfold tident in M. cbn [fst] in M.
  assert (needs_targets i <-> needs_targets i') as ->; [|reflexivity]. destruct M as [M|[P1 P2]].
  - unfold needs_targets, mnemonic. injection M as ->. reflexivity.
  - split; intros H; [destruct (plain_mnemonic i P1 H)|destruct (plain_mnemonic i' P2 H)].
Qed.
Lemma instructions_alike ss ss' : Forall2 (same_stmt T) ss ss' -> Forall2 (same_instr T) (instructions ss) (instructions ss').
Proof.
  assert (B : forall l l', Forall2 (same_block T) l l' -> Forall2 (same_instr T) (flat_map bb_instrs l) (flat_map bb_instrs l')).
  { induction 1 as [|a b l l' (_ & _ & H & _) _ IH]; [constructor|]. cbn [flat_map]. apply Forall2_app; assumption. }
  unfold instructions, function_defs. induction 1 as [|a b ss ss' H _ IH]; [constructor|]. cbn [flat_map].
  destruct a, b; try contradiction H; cbn [app]; try exact IH. cbn [flat_map snd]. apply Forall2_app; [|exact IH]. apply B. apply H.
Qed.
Lemma missing_kept ss ss' : Forall2 (same_stmt T) ss ss' -> filter missing_refs (instructions ss) = [] -> filter missing_refs (instructions ss') = [].
Proof.
  intros H. apply instructions_alike in H. induction H as [|i i' l l' E _ IH]; [reflexivity|]. cbn [filter]. rewrite (missing_alike _ _ E). destruct (missing_refs i'); [discriminate|exact IH].
Qed.
End Alike.
Lemma forall2_nil {A B} (R : A -> B -> Prop) l l' : Forall2 R l l' -> l = [] -> l' = [].
Proof. intros H ->. inversion H. reflexivity. Qed.

Lemma first_seen_in l : forall seen o, In o (first_seen seen l) -> In o l.
Proof. induction l as [|x l IH]; intros seen o H; [exact H|]. cbn [first_seen] in H. destruct (existsb _ seen); [right; exact (IH _ _ H)|]. destruct H as [H|H]; [left; exact H|right; exact (IH _ _ H)]. Qed.
(** a program with names has no errors at all *)
Lemma program_named u src pr o : program u src -> parse_from_str u src = Val pr -> In o (recorded (pr_stmts pr) (pr_tokens pr)) -> pr_errors pr = [].
Proof.
  intros (toks & ss & L & C & N & D & T) P O.
  destruct (blank_dec src) as [B|B].
  - destruct src as [|c src]; [vm_compute in P; injection P as <-; reflexivity|]. destruct (blank_parse u (c :: src)) as (x & Q & _); [discriminate|exact B|]. rewrite Q in P. injection P as <-. destruct O.
  - assert (R : tokenize u src = Val (Some toks, [])) by (apply tokenize_iff; auto).
    assert (M : module_at ss (without_comments toks) \/ (newlines (without_comments toks) /\ without_comments toks <> [])).
    { destruct C as [C|[-> C]]; [left; exact C|]. destruct (without_comments toks) eqn:W; [left; constructor|right; split; [exact C|discriminate]]. }
    destruct M as [M|[M W]].
    + assert (K : parse_from_str u src = Val (mkPR toks ss [])) by (apply document_exact; auto). rewrite K in P. injection P as <-. reflexivity.
    + exfalso. destruct (nl_parse src toks M W) as (x & Q & _). unfold parse_from_str in P. rewrite R in P. cbn [rbind] in P. rewrite Q in P. injection P as <-. cbn [pr_stmts pr_tokens] in O.
      unfold recorded in O. apply first_seen_in in O. cbn [tree_occs app] in O. apply in_flat_map in O as (t & Ht & O). destruct (match fst t with TComment => false | _ => true end) eqn:Et.
      2:{ unfold token_occs in O. destruct (fst t); try discriminate. destruct O. }
      assert (In t (without_comments toks)) as Hw by (apply filter_In; split; assumption).
      unfold newlines in M. rewrite Forall_forall in M. specialize (M t Hw). unfold token_occs in O. rewrite M in O. destruct O.
Qed.

Lemma alike_contents (T : stoken -> stoken -> Prop) u src src' pr pr' : (forall a b, T a b -> similar (fst a) (fst b)) -> parse_from_str u src = Val pr -> parse_from_str u src' = Val pr' ->
  lexes u 0 src' (pr_tokens pr') 0 -> contents (pr_stmts pr') (without_comments (pr_tokens pr')) ->
  Forall2 (same_stmt T) (pr_stmts pr) (pr_stmts pr') -> bound_over T pr pr' -> program u src -> program u src'.
Proof.
  intros HT P P' L C S (_ & U & R) G. destruct (program_parse _ _ G) as (pr0 & P0 & _ & N & D & M). assert (pr0 = pr) as -> by congruence.
  apply (program_alt _ _ _ P' L C).
  - exact (forall2_nil _ _ _ U N).
  - exact (forall2_nil _ _ _ R D).
  - exact (missing_kept T HT _ _ S M).
Qed.
Lemma clean_contents u src pr : parse_from_str u src = Val pr -> pr_errors pr = [] -> lexes u 0 src (pr_tokens pr) 0 /\ contents (pr_stmts pr) (without_comments (pr_tokens pr)).
Proof.
  intros P E. destruct pr as [toks ss errs]. cbn [pr_errors pr_stmts pr_tokens] in *. subst errs. apply document_exact in P as [Q C]. apply tokenize_iff in Q as [L _]. split; [exact L|left; exact C].
Qed.
Lemma alike_program (T : stoken -> stoken -> Prop) u src src' pr pr' : (forall a b, T a b -> similar (fst a) (fst b)) -> parse_from_str u src = Val pr -> parse_from_str u src' = Val pr' -> pr_errors pr' = [] ->
  Forall2 (same_stmt T) (pr_stmts pr) (pr_stmts pr') -> bound_over T pr pr' -> program u src -> program u src'.
Proof. intros HT P P' E'. destruct (clean_contents _ _ _ P' E') as [L C]. exact (alike_contents T u src src' pr pr' HT P P' L C). Qed.
Lemma similar_counterparts a b : Forall2 (fun x y : stoken => similar (fst x) (fst y)) a b -> forall x y, counterparts a b x y -> similar (fst x) (fst y).
Proof. intros H x y. apply (combine_forall2 _ _ _ H). Qed.
Lemma same_tokens_similar (a b : list stoken) : map fst b = map fst a -> forall x y, counterparts a b x y -> similar (fst x) (fst y).
Proof. intros H. apply similar_counterparts. apply map_fst_similar in H. eapply forall2_impl; [|exact H]. intros x y E. left. exact E. Qed.
Lemma complaints_nil l l' : Forall2 same_complaint l l' -> l = [] -> l' = [].
Proof. apply forall2_nil. Qed.

Lemma rename_program e s uri src d p : plain_document src -> opened e s uri src d -> p <= length src -> program (e_u e) src ->
  exists pr, parse_from_str (e_u e) src = Val pr /\ pr_stmts pr = doc_stmts d /\
  ((forall o, In o (recorded (pr_stmts pr) (pr_tokens pr)) -> ~ covers (o_span o) p) \/
   exists o, In o (recorded (pr_stmts pr) (pr_tokens pr)) /\ covers (o_span o) p /\
     (forall new final, accepted (e_u e) (o_kind o) new final -> (forall b, final <> b ++ [ch ":"]) ->
       (o_kind o = KLabel -> free_word final /\ plain_word (o_name o) /\ plain_word final) ->
       unused (recorded (pr_stmts pr) (pr_tokens pr)) o final -> (global (o_kind o) -> ~ dual (pr_stmts pr) (o_name o)) ->
       exists edits, rename e s uri (lsp_position src p) new = Val (Reply edits) /\ program (e_u e) (patched src edits))).
Proof.
  intros Hsrc Ho Hp G. destruct (rename_keeps _ _ _ _ _ _ Hsrc Ho Hp) as (pr & Hpr & Hst & H). exists pr. split; [exact Hpr|]. split; [exact Hst|].
  destruct H as [H|(o & errs & Hin & Hc & Ht & H)]; [left; exact H|]. right. exists o. split; [exact Hin|]. split; [exact Hc|].
  intros new final Ha Hend Hlb Hu Hd. pose proof (program_named _ _ _ _ G Hpr Hin) as E.
  assert (errs = []) as ->.
  { pose proof Hpr as Q. destruct pr as [toks ss er]. cbn [pr_errors pr_tokens] in *. subst er. apply document_exact in Q as [Q _]. congruence. }
  destruct (H _ _ Ha Hend ltac:(intros K; split; [reflexivity|exact (Hlb K)])) as (edits & pr' & Er & Hp' & (R & S & C) & B). exists edits. split; [exact Er|].
  destruct (opened_indexed _ _ _ _ _ Ho) as (pr0 & Hix & _). assert (pr0 = pr) as -> by (destruct Hix as [K _]; congruence).
  destruct (indexed_ok _ _ _ _ Hix) as (_ & _ & Hsp & Hsub & Hrg).
  apply (alike_program (counterparts (pr_tokens pr) (pr_tokens pr')) (e_u e) src (patched src edits) pr pr'); auto.
  - apply similar_counterparts. eapply retold_similar; [exact R| |].
    + intros x y Hx [(S1 & _ & S3) ->] Hkx. rewrite <- S3. destruct (Hlb ltac:(congruence)) as (_ & P1 & P2). auto.
    + intros x t Hx Hit Es. exact (occ_at_token _ _ _ Hsp Hsub _ _ Hx Hit Es).
  - exact (complaints_nil _ _ (C eq_refl) E).
  - apply B; assumption.
Qed.
Lemma shift_program e s uri src d p : plain_document src -> visits_all (e_ord e) -> opened e s uri src d -> p <= length src -> program (e_u e) src ->
  exists pr, parse_from_str (e_u e) src = Val pr /\ pr_stmts pr = doc_stmts d /\
  ((forall o, In o (recorded (pr_stmts pr) (pr_tokens pr)) -> ~ covers (o_span o) p) \/
   exists o, In o (recorded (pr_stmts pr) (pr_tokens pr)) /\ covers (o_span o) p /\
     (forall new z n, asks_shift new z -> has_number (o_name o) n -> no_overflow (recorded (pr_stmts pr) (pr_tokens pr)) o n z ->
       (o_kind o = KLabel -> forall x y, In x (recorded (pr_stmts pr) (pr_tokens pr)) -> moved o n z x y -> free_word y) ->
       (0 <= z)%Z -> ~ global (o_kind o) ->
       (forall x, In x (recorded (pr_stmts pr) (pr_tokens pr)) -> in_scope o x -> no_leading_zeros (o_name x) /\ forall m, has_number (o_name x) m -> fits_i64 (Z.of_N m + z)) ->
       exists edits, rename e s uri (lsp_position src p) new = Val (Reply edits) /\ program (e_u e) (patched src edits))).
Proof.
  intros Hsrc Hv Ho Hp G. destruct (shift_keeps _ _ _ _ _ _ Hsrc Hv Ho Hp) as (pr & Hpr & Hst & H). exists pr. split; [exact Hpr|]. split; [exact Hst|].
  destruct H as [H|(o & errs & Hin & Hc & Ht & H)]; [left; exact H|]. right. exists o. split; [exact Hin|]. split; [exact Hc|].
  intros new z n Ha Hn Hov Hlb Hz Hg Hx. pose proof (program_named _ _ _ _ G Hpr Hin) as E.
  assert (errs = []) as ->.
  { pose proof Hpr as Q. destruct pr as [toks ss er]. cbn [pr_errors pr_tokens] in *. subst er. apply document_exact in Q as [Q _]. congruence. }
  destruct (H _ _ _ Ha Hn Hov ltac:(intros K; split; [reflexivity|exact (Hlb K)])) as (edits & pr' & Er & Hp' & (R & S & C) & B). exists edits. split; [exact Er|].
  destruct (opened_indexed _ _ _ _ _ Ho) as (pr0 & Hix & _). assert (pr0 = pr) as -> by (destruct Hix as [K _]; congruence).
  destruct (indexed_ok _ _ _ _ Hix) as (_ & _ & Hsp & Hsub & Hrg).
  apply (alike_program (counterparts (pr_tokens pr) (pr_tokens pr')) (e_u e) src (patched src edits) pr pr'); auto.
  - apply similar_counterparts. eapply retold_similar; [exact R| |].
    + intros x y _ [_ Hm] _. exact (moves_plain _ _ _ _ Hm).
    + intros x t Hi Hit Es. exact (occ_at_token _ _ _ Hsp Hsub _ _ Hi Hit Es).
  - exact (complaints_nil _ _ (C eq_refl) E).
  - apply B; assumption.
Qed.

(** layout *)
Lemma respaced_blank u b src src' : respaced u b src src' -> Forall blank src -> Forall blank src'.
Proof.
  destruct 1 as [b bl bl' H1 H2 _|b bl bl' t w w' r r' _ _ _ L _ _ _]; intros B; [exact H2|]. exfalso. apply Forall_app in B as [_ B]. pose proof (longest_head _ _ _ _ L) as H. pose proof (lexeme_nonempty _ _ _ (proj1 L)) as N.
  destruct w as [|c w]; [congruence|]. cbn [app] in *. inversion B; contradiction.
Qed.
Lemma wc_fst (a b : list stoken) : map fst b = map fst a -> map fst (without_comments b) = map fst (without_comments a).
Proof.
  revert b. induction a as [|[t sp] a IH]; intros [|[t' sp'] b] E; try discriminate; [reflexivity|]. cbn [map fst] in E. injection E as E E2. subst t'. specialize (IH _ E2). unfold without_comments in *. cbn [filter fst].
  destruct t; cbn [map fst]; congruence.
Qed.
Lemma newlines_fst (a b : list stoken) : map fst b = map fst a -> newlines a -> newlines b.
Proof.
  unfold newlines. intros E H. apply Forall_forall. intros t Ht. assert (In (fst t) (map fst a)) as K by (rewrite <- E; apply in_map; exact Ht). apply in_map_iff in K as (x & K & Hx). rewrite <- K. rewrite Forall_forall in H. exact (H x Hx).
Qed.
Lemma respaced_program u src src' : respaced u None src src' -> program u src -> program u src'.
Proof.
  intros R G. destruct (blank_dec src) as [B|B]; [apply program_blank; exact (respaced_blank _ _ _ _ R B)|].
  destruct (program_parse _ _ G) as (pr & P & _). pose proof G as (toks & ss & L & C & _).
  assert (Tk : tokenize u src = Val (Some toks, [])) by (apply tokenize_iff; auto).
  assert (Ek : pr_tokens pr = toks) by (pose proof P as Q; unfold parse_from_str in Q; rewrite Tk in Q; cbn [rbind] in Q; destruct (parse_tokens src toks) as [[o errs]|]; [|discriminate]; injection Q as <-; reflexivity).
  assert (Hne : pr_tokens pr <> []) by (rewrite Ek; intros ->; inversion L; subst; contradiction).
  destruct (respaced_parse _ _ _ _ R P Hne) as (pr' & P' & F & S & E & Bd). destruct (respaced_tokens _ _ _ R B) as (t1 & t2 & T1 & T2 & _).
  assert (Ek2 : pr_tokens pr' = t2) by (pose proof P' as Q; unfold parse_from_str in Q; rewrite T2 in Q; cbn [rbind] in Q; destruct (parse_tokens src' t2) as [[o errs]|]; [|discriminate]; injection Q as <-; reflexivity).
  destruct (pr_errors pr) as [|x xs] eqn:Ex.
  - eapply alike_program; [apply (same_tokens_similar _ _ F)|exact P|exact P'|exact (complaints_nil _ _ E eq_refl)|exact S|exact Bd|exact G].
  - assert (N : newlines (without_comments toks)).
    { destruct C as [C|[_ C]]; [|exact C]. exfalso. assert (K : parse_from_str u src = Val (mkPR toks ss [])) by (apply document_exact; auto). rewrite K in P. injection P as <-. discriminate Ex. }
    assert (N' : newlines (without_comments (pr_tokens pr'))) by (eapply newlines_fst; [apply wc_fst; exact F|]; rewrite Ek; exact N).
    assert (S0 : pr_stmts pr = []).
    { destruct (without_comments toks) as [|w ws] eqn:W.
      - assert (module_at [] (without_comments toks)) as K by (rewrite W; constructor). assert (parse_from_str u src = Val (mkPR toks [] [])) as K2 by (apply document_exact; auto). rewrite K2 in P. injection P as <-. reflexivity.
      - destruct (nl_parse src toks) as (z & Z & _); [rewrite W; exact N|rewrite W; discriminate|]. unfold parse_from_str in P. rewrite Tk in P. cbn [rbind] in P. rewrite Z in P. injection P as <-. reflexivity. }
    eapply alike_contents; [apply (same_tokens_similar _ _ F)|exact P|exact P'| | |exact S|exact Bd|exact G].
    + rewrite Ek2. apply tokenize_iff in T2. apply T2.
    + right. split; [|exact N']. rewrite S0 in S. inversion S. reflexivity.
Qed.

(** blank lines and comment lines *)
Lemma lines_program u src src' toks toks' ss : parse_from_str u src = Val (mkPR toks ss []) -> ss <> [] -> tokenize u src' = Val (Some toks', []) ->
  relined LineStart (without_comments toks) (without_comments toks') -> program u src -> program u src'.
Proof.
  intros P N T R G. destruct (lines_parse _ _ _ _ _ _ P N T R) as (ss' & P' & (F & _ & E' & S & Bd)).
  eapply alike_program; [apply (same_tokens_similar _ _ F)|exact P|exact P'|exact E'|exact S|exact Bd|exact G].
Qed.

(** parts *)
Lemma sum_program u a b pa pb : full_lines a -> parse_from_str u a = Val pa -> parse_from_str u b = Val pb -> pr_errors pa = [] -> pr_errors pb = [] ->
  (forall x y, In x (tree_occs 0 (pr_stmts pa)) -> In y (tree_occs 0 (pr_stmts pb)) -> o_ud x = Def -> o_ud y = Def -> o_body y = None -> ~ same_symbol y x) ->
  program u a -> program u b -> program u (a ++ b).
Proof.
  intros Hfl Ha Hb Ea Eb A3 Ga Gb. destruct pa as [ta sa ea], pb as [tb sb eb]. cbn in Ea, Eb, A3. subst.
  destruct (program_parse _ _ Ga) as (pr & P & _ & Na & Da & Ma). rewrite Ha in P. injection P as <-. destruct (program_parse _ _ Gb) as (pr & P & _ & Nb & Db & Mb). rewrite Hb in P. injection P as <-. cbn [pr_stmts pr_tokens] in *.
  pose proof (sum_parsed _ _ _ _ _ _ _ Hfl Ha Hb) as P. destruct (clean_contents _ _ _ P eq_refl) as [L C]. apply (program_alt _ _ _ P L C); cbn [pr_stmts pr_tokens].
  - pose proof (undefined_sum_perm _ _ _ _ _ _ _ Hfl Ha Hb) as U. rewrite Na, Nb in U. cbn [filter map app] in U. apply Permutation_sym, Permutation_nil in U. exact U.
  - match goal with |- ?r = [] => destruct r as [|[o f] l] eqn:E end; [reflexivity|]. exfalso.
    assert (In (o, f) (redefinitions (recorded (sa ++ map (move_stmt (length a)) sb) (ta ++ map (shift_tok (length a)) tb)))) as K by (rewrite E; left; reflexivity).
    apply (redefinitions_sum _ _ _ _ _ _ _ Hfl Ha Hb) in K as [K|(x & _ & [(K1 & K2 & K3 & (F1 & F2 & F3 & _))|(_ & y & K & _)])]; [rewrite Da in K; destruct K| |rewrite Db in K; destruct K].
    exact (A3 f x F1 K1 F2 K2 K3 F3).
  - rewrite filter_missing_sum, Ma, Mb. reflexivity.
Qed.
Definition any_env (u : uclass) : env := mkEnv u Debug (fun m => m) (fun _ => None) (fun _ => []) (fun _ => None) (fun _ => None) (fun l => l).
Lemma order_program u ps qs : Forall (good_piece u) ps -> Permutation ps qs -> plain_document (whole ps) -> program u (whole ps) -> program u (whole qs).
Proof.
  intros Hg HP Hp G. assert (V : visits_all (e_ord (any_env u))) by (intros m; reflexivity).
  destruct (any_order (any_env u) [] ps qs Hg HP Hp V) as (d & l & d' & l' & E & E' & M).
  assert (l = []) as -> by (eapply program_silent; [split; apply Hp|exact V|exact G|exact E]). cbn [map] in M. apply Permutation_nil in M. apply map_eq_nil in M as ->.
  assert (Forall (good_piece u) qs) as Hg' by (rewrite <- HP; exact Hg). destruct (all_parts _ _ Hg') as (ts & st & I & _).
  pose proof (whole_plain _ _ HP Hp) as Hq. destruct (diagnostics_shown (any_env u) [] (whole qs) d' []) as (pr & P & H); [split; apply Hq|exact V|exact E'|]. cbn [any_env e_u] in P. rewrite I in P. injection P as <-. cbn [pr_stmts pr_tokens pr_errors filter map app] in H.
  apply Permutation_nil in H. apply app_eq_nil in H as [H2 H]. apply app_eq_nil in H as [H3 H4]. apply map_eq_nil in H2, H3, H4.
  destruct (clean_contents _ _ _ I eq_refl) as [L C]. exact (program_alt _ _ _ I L C H3 H4 H2).
Qed.
