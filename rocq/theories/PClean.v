(** Documents about which the server does not complain. *)
From Verif Require Import Text Rope Chumsky Tokenizer Parser Numbers Index Diag SemTok Rename Cfg Backtrace Server SpecText SpecLex SpecParse SpecExact SpecFault SpecIndex SpecDiag SpecBytes SpecLexFault SpecForeign SpecViable
  PText PLexSpec PLexProps PTokens PChumsky PParseProps PRope PIndexDoc PDiag PDiagDoc PParse PExact PFurther PComplete PLocal PGram PSound PLex PPlace PLexPlaces PBytes PLexFirst PViableDoc PForeign PSumOrder.

Lemma earliest (l : list occurrence) : l <> [] -> exists g, In g l /\ forall x, In x l -> sp_start (o_span g) <= sp_start (o_span x).
Proof.
  induction l as [|a l IH]; [congruence|]. intros _. destruct l as [|b l]; [exists a; split; [left; reflexivity|]; intros x [<-|[]]; lia|].
  destruct IH as (g & Hg & Hmin); [discriminate|]. destruct (Nat.le_gt_cases (sp_start (o_span a)) (sp_start (o_span g))) as [L|L].
  - exists a. split; [left; reflexivity|]. intros x [<-|Hx]; [lia|]. specialize (Hmin x Hx). lia.
  - exists g. split; [right; exact Hg|]. intros x [<-|Hx]; [lia|exact (Hmin x Hx)].
Qed.
Lemma once_iff u src pr : parse_from_str u src = Val pr -> (redefinitions (recorded (pr_stmts pr) (pr_tokens pr)) = [] <-> defined_once (pr_stmts pr)).
Proof.
  intros H. split.
  - intros E o f Ho Hf Do Df S. set (ds := filter (fun x => is_definition x && same_symbolb x o) (tree_occs 0 (pr_stmts pr))).
    assert (Hds : forall x, In x ds <-> In x (tree_occs 0 (pr_stmts pr)) /\ o_ud x = Def /\ same_symbol x o).
    { intros x. unfold ds. rewrite filter_In, andb_true_iff, same_symbolb_spec. unfold is_definition. destruct (o_ud x); intuition congruence. }
    destruct (earliest ds) as (g & Hg & Hmin); [intros N; assert (In o ds) as K by (apply Hds; repeat split; assumption); rewrite N in K; exact K|].
    apply Hds in Hg as (Hg & Dg & Sg).
    assert (K : forall x, In x (tree_occs 0 (pr_stmts pr)) -> o_ud x = Def -> same_symbol x o -> x = g).
    { intros x Hx Dx Sx. destruct (occ_dec x g) as [->|N]; [reflexivity|]. exfalso.
      assert (In (x, g) (redefinitions (recorded (pr_stmts pr) (pr_tokens pr)))) as Hin; [|rewrite E in Hin; exact Hin].
      apply (redefinitions_document u src pr x g H). split; [exact Hx|]. split; [exact Hg|]. split; [exact Dx|]. split; [exact Dg|]. split; [|split; [exact N|]].
      - destruct Sx as (S1 & S2 & S3). destruct Sg as (T1 & T2 & T3). repeat split; congruence.
      - intros y Hy Dy Sy. apply Hmin. apply Hds. split; [exact Hy|]. split; [exact Dy|]. destruct Sx as (S1 & S2 & S3). destruct Sy as (T1 & T2 & T3). repeat split; congruence. }
    rewrite (K o Ho Do), (K f Hf Df); [reflexivity| |]; destruct S as (S1 & S2 & S3); repeat split; congruence.
  - intros D. destruct (redefinitions _) as [|[o f] l] eqn:E; [reflexivity|]. exfalso. assert (In (o, f) (redefinitions (recorded (pr_stmts pr) (pr_tokens pr)))) as K by (rewrite E; left; reflexivity).
    apply (redefinitions_document u src pr o f H) in K as (H1 & H2 & H3 & H4 & H5 & H6 & _). apply H6. exact (D o f H1 H2 H3 H4 H5).
Qed.
Lemma introduced_dec ss o : introduced ss o \/ ~ introduced ss o.
Proof.
  rewrite introduced_iff. destruct (existsb (fun x => negb (is_use x) && same_symbolb x o) (tree_occs 0 ss)) eqn:E.
  - left. apply existsb_exists in E as (x & Hx & E). apply andb_true_iff in E as [E1 E2]. apply same_symbolb_spec in E2. exists x. split; [exact Hx|]. split; [|exact E2]. intros U. unfold is_use in E1. rewrite U in E1. discriminate.
  - right. intros (x & Hx & U & S). rewrite (proj2 (existsb_exists _ _)) in E; [discriminate|]. exists x. split; [exact Hx|]. apply andb_true_iff. split; [unfold is_use; destruct (o_ud x); [reflexivity|reflexivity|contradiction U; reflexivity]|apply same_symbolb_spec; exact S].
Qed.
Lemma names_iff u src pr : parse_from_str u src = Val pr -> (undefined_uses (recorded (pr_stmts pr) (pr_tokens pr)) = [] <-> all_introduced (pr_stmts pr) (pr_tokens pr)).
Proof.
  intros H. split.
  - intros E o U Hin. destruct (introduced_dec (pr_stmts pr) o) as [K|K]; [exact K|]. exfalso. assert (In o (undefined_uses (recorded (pr_stmts pr) (pr_tokens pr)))) as X; [|rewrite E in X; exact X].
    apply (undefined_document u src pr o H). auto.
  - intros A. destruct (undefined_uses _) as [|o l] eqn:E; [reflexivity|]. exfalso. assert (In o (undefined_uses (recorded (pr_stmts pr) (pr_tokens pr)))) as K by (rewrite E; left; reflexivity).
    apply (undefined_document u src pr o H) in K as (U & N & Hin). exact (N (A o U Hin)).
Qed.
Lemma lead_iff ss : filter missing_refs (instructions ss) = [] <-> branches_lead ss.
Proof.
  split.
  - intros E i Hi N R. assert (In i (filter missing_refs (instructions ss))) as K; [|rewrite E in K; exact K]. apply filter_In. split; [exact Hi|]. apply missing_refs_iff. auto.
  - intros B. destruct (filter missing_refs (instructions ss)) as [|i l] eqn:E; [reflexivity|]. exfalso. assert (In i (filter missing_refs (instructions ss))) as K by (rewrite E; left; reflexivity).
    apply filter_In in K as [Hi K]. apply missing_refs_iff in K as [N R]. exact (B i Hi N R).
Qed.

(** Texts without statements. *)
Lemma nl_statement eoi (st : strm) : newlines st -> exists e, g_statement eoi st = PErr [] e /\ l_rem e = 0.
Proof.
  intros H. unfold g_statement, p_padded_by, p_then_ignore, p_ignore_then, p_map, p_then. destruct (nls_clean eoi st) as (l & alt & ->).
  replace (strip st) with (@nil (token * span)) by (symmetry; rewrite <- (app_nil_r st), strip_nls by exact H; reflexivity).
  match goal with |- context [?p []] => assert (exists e0, p [] = PErr [] e0 /\ l_rem e0 = 0) as (e0 & -> & E0) by (eexists; split; reflexivity) end.
  cbn [app]. exists (loc_max e0 alt). split; [reflexivity|]. rewrite max_rem, E0. destruct alt; reflexivity.
Qed.
Lemma nl_retry eoi es e (st : strm) : newlines st -> p_retry (g_statement eoi) es e st = PErr es e.
Proof.
  induction st as [|x st IH]; intros H; cbn [p_retry]; destruct (nl_statement eoi _ H) as (e1 & -> & _); [reflexivity|]. apply IH. inversion H; assumption.
Qed.
Lemma nl_module eoi (st : strm) : newlines st -> st <> [] -> exists e, g_module eoi st = PErr [] e /\ l_rem e = 0.
Proof.
  intros H N. destruct (nl_statement eoi _ H) as (e & E & E0). unfold g_module, p_then_ignore, p_map, p_then, p_repeated, p_repeated_at_least.
  assert (R : p_recover (g_statement eoi) st = PErr [] e) by (unfold p_recover; rewrite E; apply nl_retry; destruct st as [|x st]; [constructor|inversion H; assumption]).
  match goal with |- context [p_rep (?x + 3) _ _ _ _ _ _ _] => assert (exists k, x + 3 = S k) as (k & ->) by (exists (x + 2); lia) end.
  cbn [p_rep]. rewrite R. cbn [length Nat.ltb Nat.leb merge_alts]. unfold p_end. destruct st as [|x st]; [congruence|]. cbn [app]. eexists. split; [reflexivity|]. rewrite max_rem, E0. lia.
Qed.
Lemma nl_parse src toks : newlines (without_comments toks) -> without_comments toks <> [] -> exists e, parse_tokens src toks = Val (None, [e]) /\ e_span e = mkSpan (byte_len src) (byte_len src + 1).
Proof.
  intros H N. unfold parse_tokens, parse_recovery. replace (filter not_comment toks) with (without_comments toks) by (apply filter_ext; intros [t sp]; destruct t; reflexivity). set (eoi := mkSpan _ _).
  destruct (nl_module eoi _ H N) as (e & E & E0). exists (l_err e). split; [rewrite E; reflexivity|]. pose proof (lax_module eoi (without_comments toks)) as L. rewrite E in L. destruct L as [L _].
  destruct L as (pre & y & _ & R & F). rewrite E0 in R. destruct y; [|discriminate]. apply F.
Qed.
Lemma blank_ascii src : Forall blank src -> ascii_text src = true.
Proof.
  intros H. unfold ascii_text. apply forallb_forall. intros c Hc. rewrite Forall_forall in H. specialize (H c Hc). unfold blank in H. unfold is_ascii. repeat destruct H as [->|H]; try reflexivity. subst c. reflexivity.
Qed.
Lemma blank_parse u src : src <> [] -> Forall blank src -> exists e, parse_from_str u src = Val (mkPR [] [] [e]) /\ e_span e = mkSpan (byte_len src) (byte_len src + 1).
Proof.
  intros N B. destruct (proj2 (PTokens.tokenize_none u src) (conj N (or_introl B))) as (errs & T). destruct (tokenize_places _ _ _ _ T) as [(offs & F & M)|(_ & _ & _ & e & -> & M)].
  - assert (offs = []) as ->; [apply (faults_det u (length src) 0 src offs [] (le_n _) F); apply lf_end; exact B|]. inversion M; subst. apply PExact.tokenize_none in T. congruence.
  - exists (simple_map (fun c => [c]) e). split; [unfold parse_from_str; rewrite T; reflexivity|]. cbn [simple_map e_span]. rewrite (byte_len_ascii _ (blank_ascii _ B)). apply M.
Qed.
Lemma blank_dec (src : text) : Forall blank src \/ ~ Forall blank src.
Proof.
  destruct (forallb is_blank src) eqn:E; [left|right].
  - apply Forall_forall. intros c Hc. apply is_blank_spec. rewrite forallb_forall in E. exact (E c Hc).
  - intros H. rewrite (proj2 (forallb_forall _ _)) in E; [discriminate|]. intros c Hc. apply is_blank_spec. rewrite Forall_forall in H. exact (H c Hc).
Qed.
Lemma program_blank u src : Forall blank src -> program u src.
Proof.
  intros B. exists [], []. split; [apply lexes_end; exact B|]. split; [left; apply ma_nil|]. split; [intros o _ [K|(t & K & _)]; destruct K|]. split; [intros o f K; destruct K|intros i K; destruct K].
Qed.
Lemma program_alt u src pr : parse_from_str u src = Val pr -> lexes u 0 src (pr_tokens pr) 0 -> contents (pr_stmts pr) (without_comments (pr_tokens pr)) ->
  undefined_uses (recorded (pr_stmts pr) (pr_tokens pr)) = [] -> redefinitions (recorded (pr_stmts pr) (pr_tokens pr)) = [] -> filter missing_refs (instructions (pr_stmts pr)) = [] -> program u src.
Proof.
  intros P L C N D T. exists (pr_tokens pr), (pr_stmts pr). split; [exact L|]. split; [exact C|]. split; [apply (names_iff _ _ _ P); exact N|]. split; [apply (once_iff _ _ _ P); exact D|apply lead_iff; exact T].
Qed.
Lemma program_parse u src : program u src -> exists pr, parse_from_str u src = Val pr /\ filter (within_bytes src) (pr_errors pr) = [] /\
    undefined_uses (recorded (pr_stmts pr) (pr_tokens pr)) = [] /\ redefinitions (recorded (pr_stmts pr) (pr_tokens pr)) = [] /\ filter missing_refs (instructions (pr_stmts pr)) = [].
Proof.
  assert (O : forall x : simple text, e_span x = mkSpan (byte_len src) (byte_len src + 1) -> filter (within_bytes src) [x] = []).
  { intros x S. cbn [filter]. unfold within_bytes. rewrite S. cbn [sp_end]. rewrite <- bytes_length, (proj2 (Nat.leb_gt _ _)) by lia. reflexivity. }
  intros (toks & ss & L & C & N & D & T). assert (B : (src = [] \/ ~ Forall blank src) \/ (src <> [] /\ Forall blank src)).
  { destruct src as [|c src]; [left; left; reflexivity|]. destruct (blank_dec (c :: src)); [right; split; [discriminate|assumption]|left; right; assumption]. }
  destruct B as [B|[B1 B2]]; [|destruct (blank_parse u _ B1 B2) as (x & Q & S); exists (mkPR [] [] [x]); split; [exact Q|]; cbn [pr_errors pr_stmts pr_tokens]; split; [apply O; exact S|repeat split]].
  assert (R : tokenize u src = Val (Some toks, [])) by (apply tokenize_iff; auto).
  assert (M : module_at ss (without_comments toks) \/ (ss = [] /\ newlines (without_comments toks) /\ without_comments toks <> [])).
  { destruct C as [C|[-> C]]; [left; exact C|]. destruct (without_comments toks) eqn:W; [left; constructor|right; split; [reflexivity|]; split; [exact C|discriminate]]. }
  assert (K : exists errs, parse_from_str u src = Val (mkPR toks ss errs) /\ filter (within_bytes src) errs = []).
  { destruct M as [M|(-> & M & W)].
    - exists []. split; [apply document_exact; auto|reflexivity].
    - destruct (nl_parse src toks M W) as (x & Q & S). exists [simple_map token_display x]. split; [unfold parse_from_str; rewrite R; cbn [rbind]; rewrite Q; reflexivity|apply O; exact S]. }
  destruct K as (errs & P & E). exists (mkPR toks ss errs). split; [exact P|]. split; [exact E|]. split; [apply (names_iff _ _ _ P); exact N|]. split; [apply (once_iff _ _ _ P); exact D|apply lead_iff; exact T].
Qed.
Lemma program_silent e uri src d diags : bmp_document src -> visits_all (e_ord e) -> program (e_u e) src -> analyze e uri src = Val (d, diags) -> diags = [].
Proof.
  intros B V P A. destruct (diagnostics_shown _ _ _ _ _ B V A) as (pr' & P' & H). apply program_parse in P as (pr & K & E & N & D & T). assert (pr' = pr) as -> by congruence.
  rewrite E, N, D, T in H. cbn [map app] in H. apply Permutation_sym, Permutation_nil in H. exact H.
Qed.
Lemma newlines_dec (l : list stoken) : newlines l \/ ~ newlines l.
Proof.
  induction l as [|[t sp] l [IH|IH]]; [left; constructor| |right; intros H; inversion H; contradiction]. destruct t; try (right; intros H; inversion H; cbn [fst] in *; discriminate). left. constructor; [reflexivity|exact IH].
Qed.
Lemma silent_cases e uri src d : bmp_document src -> visits_all (e_ord e) -> analyze e uri src = Val (d, []) ->
  program (e_u e) src \/ unfinished_token (e_u e) src \/ unfinished_statement (e_u e) src.
Proof.
  intros B V A. destruct (blank_dec src) as [Hb|Hb]; [left; apply program_blank; exact Hb|].
  destruct (diagnostics_shown _ _ _ _ _ B V A) as (pr & P & H). apply Permutation_nil in H. apply app_eq_nil in H as [H1 H]. apply app_eq_nil in H as [H2 H]. apply app_eq_nil in H as [H3 H4].
  apply map_eq_nil in H1, H2, H3, H4. assert (Hend : forall x, In x (pr_errors pr) -> byte_len src < sp_end (e_span x)).
  { intros x Hx. destruct (within_bytes src x) eqn:Q; [|unfold within_bytes in Q; rewrite <- bytes_length in Q; apply Nat.leb_gt in Q; exact Q].
    exfalso. assert (In x (filter (within_bytes src) (pr_errors pr))) as K; [|rewrite H1 in K; exact K]. apply filter_In. auto. }
  pose proof (length_le_byte_len src) as Hlen.
  destruct (pr_errors pr) as [|x xs] eqn:E; [destruct pr as [toks ss errs]; cbn [pr_errors] in E; subst errs; pose proof P as Q; apply document_exact in Q as [Q M]; apply tokenize_iff in Q as [L _]; left; apply (program_alt _ _ _ P L); auto; left; exact M|].
  pose proof P as P0. unfold parse_from_str in P0. destruct (tokenize (e_u e) src) as [[ts terrs]|] eqn:T; [|discriminate]. cbn [rbind] in P0.
  destruct terrs as [|te terrs].
  - destruct ts as [toks|]; [|apply PExact.tokenize_none in T; congruence]. destruct (parse_tokens src toks) as [[o errs]|] eqn:Q; [|discriminate]. cbn [rbind] in P0. injection P0 as <-. cbn [pr_errors map app] in E.
    destruct errs as [|y errs]; [discriminate|]. destruct (newlines_dec (without_comments toks)) as [Hn|Hn].
    { left. apply (program_alt _ _ _ P); auto; [cbn [pr_tokens]; apply tokenize_iff in T; apply T|]. cbn [pr_tokens pr_stmts]. destruct (without_comments toks) as [|w ws] eqn:W.
      - exfalso. assert (module_at [] (without_comments toks)) as M by (rewrite W; constructor). apply (parse_exact src) in M. congruence.
      - destruct (nl_parse src toks) as (z & Z & _); [rewrite W; exact Hn|rewrite W; discriminate|]. rewrite Z in Q. injection Q as <- _ _. right. split; [reflexivity|exact Hn]. }
    cbn [map] in E. injection E as <- <-. right. right. exists toks. pose proof T as L. apply tokenize_iff in L as [L _]. split; [exact L|].
    assert (Ey : byte_len src < sp_end (e_span y)) by (apply (Hend (simple_map token_display y)); left; reflexivity).
    split.
    + assert (Hs : forall t, In t (without_comments toks) -> snd t <> e_span y).
      { intros t Ht K. apply tokenize_spans in T. unfold without_comments in Ht. apply filter_In in Ht as [Ht _]. apply (spans_in_each _ _ _ _ T) in Ht. rewrite K in Ht. lia. }
      pose proof Q as F. apply parse_faults in F. inversion F as [|? ? F0 _]; subst. clear F.
      destruct F0 as [tk Hin _|(K1 & K2 & _)|m Hin _]; [exfalso; apply (Hs _ Hin); reflexivity| |exfalso; apply (Hs _ Hin); reflexivity].
      apply (first_viable _ _ _ _ _ y errs (without_comments toks) [] T Q); [rewrite app_nil_r; reflexivity|congruence|exact K1].
    + intros (ss & [M|[_ M]]); [|contradiction]. apply (parse_exact src) in M. rewrite M in Q. discriminate.
  - right. left. split.
    + intros (toks & L). assert (X : tokenize (e_u e) src = Val (Some toks, [])) by (apply tokenize_iff; auto). congruence.
    + destruct (first_error _ _ _ _ _ T) as (p & Hp & (_ & M & _) & (more & toks & K) & _).
      assert (In (simple_map (fun c => [c]) te) (pr_errors pr)) as Hin.
      { destruct (match ts with Some t => parse_tokens src t | None => Val (None, []) end) as [[o errs]|]; [|discriminate]. cbn [rbind] in P0. injection P0 as <-. left. reflexivity. }
      rewrite E in Hin. apply Hend in Hin. cbn [simple_map e_span] in Hin. rewrite M in Hin. cbn [sp_end] in Hin. assert (p = length src) as -> by lia. rewrite firstn_all in K. exists more, toks. apply tokenize_iff in K. apply K.
Qed.
