(** Blank lines and comment lines in well-formed documents. *)
From Verif Require Import Text Rope Chumsky Tokenizer Parser Numbers Index SemTok Diag Rename Cfg Backtrace Server SpecText SpecLex SpecParse SpecExact SpecIndex SpecDiag SpecBacktrace SpecCfg SpecView SpecPatch SpecSimilar SpecRebind SpecLayout SpecLines
  PText PLexSpec PLexProps PTokens PParse PParseProps PLocal PIndex PIndexDoc PIndexText PDiag PBacktrace PNav PRelex PNatural PRetree PRebind PUndo PLayout PAlike PLines PExact PLinesExact.

(** ** Tokens that are not newlines or comments *)
Definition is_solid (t : stoken) : bool := match fst t with TNewline | TComment => false | _ => true end.
Lemma solid_app a b : solid (a ++ b) = solid a ++ solid b.
Proof. apply filter_app. Qed.
Lemma solid_newlines x : newlines x -> solid x = [].
Proof. induction 1 as [|[t sp] x H _ IH]; [reflexivity|]. cbn in H. subst t. exact IH. Qed.
Lemma solid_comments toks : solid (without_comments toks) = solid toks.
Proof.
  induction toks as [|[t sp] toks IH]; [reflexivity|]. unfold without_comments, solid in *. cbn [filter fst]. destruct t; cbn [filter fst]; rewrite ?IH; reflexivity.
Qed.
Lemma no_comments toks : Forall (fun t : stoken => fst t <> TComment) (without_comments toks).
Proof.
  apply Forall_forall. intros t H. apply filter_In in H as [_ H]. intros E. rewrite E in H. discriminate H.
Qed.
Lemma lined_impl (R S : stoken -> stoken -> Prop) : (forall a b, R a b -> S a b) -> forall p x y, lined R p x y -> lined S p x y.
Proof.
  intros H p x y L. induction L as [p x x' H1 H2|p a a' x x' [E Hm] L IH|a' x x' Ha L IH|a x x' Ha L IH]; [apply ld_end; assumption|apply ld_token; [split; [exact E|auto]|exact IH]|apply ld_more; assumption|apply ld_less; assumption].
Qed.
Lemma relined_solid p x x' : relined p x x' -> Forall (fun t : stoken => fst t <> TComment) x ->
  lined (counterparts (solid x) (solid x')) p x x' /\ map fst (solid x') = map fst (solid x).
Proof.
  induction 1 as [p x x' H1 H2|p a a' x x' E L IH|a' x x' Ha L IH|a x x' Ha L IH]; intros Hc.
  - rewrite (solid_newlines _ H1), (solid_newlines _ H2). split; [apply ld_end; assumption|reflexivity].
  - inversion Hc as [|? ? Hc1 Hc2]; subst. destruct (IH Hc2) as [I1 I2]. clear IH. destruct a as [t sp], a' as [t' sp']. cbn [fst] in *. subst t'.
    destruct (is_solid (t, sp)) eqn:S.
    + assert (forall s r, solid ((t, s) :: r) = (t, s) :: solid r) as G by (intros s r; destruct t; try reflexivity; discriminate S). rewrite !G. split; [|cbn [map fst]; rewrite I2; reflexivity].
      apply ld_token; [split; [reflexivity|intros _; left; reflexivity]|]. eapply lined_impl; [|exact I1]. intros a b H. right. exact H.
    + assert (t = TNewline) as -> by (destruct t; try discriminate S; [contradiction|reflexivity]). split; [|exact I2]. apply ld_token; [split; [reflexivity|intros N; contradiction]|exact I1].
  - destruct a' as [t sp]. cbn in Ha. subst t. destruct (IH Hc) as [I1 I2]. split; [apply ld_more; [reflexivity|exact I1]|exact I2].
  - destruct a as [t sp]. cbn in Ha. subst t. inversion Hc; subst. destruct (IH ltac:(assumption)) as [I1 I2]. split; [apply ld_less; [reflexivity|exact I1]|exact I2].
Qed.

(** ** The record does not see newlines and comments *)
Lemma recorded_solid ss toks : recorded ss (solid toks) = recorded ss toks.
Proof.
  unfold recorded. f_equal. f_equal. induction toks as [|[t sp] toks IH]; [reflexivity|]. unfold solid in *. cbn [filter fst flat_map]. destruct t; cbn [flat_map]; rewrite IH; reflexivity.
Qed.
Lemma sub_filter {A} (f : A -> bool) a b : subseq a b -> subseq (filter f a) (filter f b).
Proof.
  induction 1 as [|l x r H IH|x l r H IH]; [constructor| |].
  - cbn [filter]. destruct (f x); [apply sub_skip|]; exact IH.
  - cbn [filter]. destruct (f x); [apply sub_keep|]; exact IH.
Qed.
Lemma filter_id {A} (f : A -> bool) l : (forall x, In x l -> f x = true) -> filter f l = l.
Proof. induction l as [|x l IH]; intros H; [reflexivity|]. cbn [filter]. rewrite (H x) by (left; reflexivity). f_equal. apply IH. intros y Hy. apply H. right. exact Hy. Qed.
Lemma stmt_solid ok s n seg rest : stmt_seg ok s n seg rest -> Forall (fun t : stoken => fst t <> TNewline) (stmt_tokens s).
Proof.
  assert (forall {A} (f : A -> stoken) l, (forall x, fst (f x) <> TNewline) -> Forall (fun t : stoken => fst t <> TNewline) (map f l)) as Hm by (intros A f l Hf; induction l; constructor; auto).
  assert (forall (f : spanned -> stoken) o, (forall x, fst (f x) <> TNewline) -> Forall (fun t : stoken => fst t <> TNewline) (opt_seg f o)) as Ho by (intros f [x|] Hf; repeat constructor; apply Hf).
  assert (forall sig, Forall (fun t : stoken => fst t <> TNewline) (sig_tokens sig)) as Hs.
  { intros sig. apply Forall_app. split; [apply Hm; discriminate|]. constructor; [discriminate|]. constructor; [discriminate|]. apply Forall_flat_map. apply Forall_forall. intros a _. repeat constructor; discriminate. }
  assert (forall i, Forall (fun t : stoken => fst t <> TNewline) (instr_tokens i)) as Hi.
  { intros i. apply Forall_app. split; [apply Ho; discriminate|]. constructor; [discriminate|]. apply Forall_app. split; [apply Hm; discriminate|apply Ho; discriminate]. }
  assert (forall b, Forall (fun t : stoken => fst t <> TNewline) (bb_tokens b)) as Hb.
  { intros b. apply Forall_app. split; [apply Ho; discriminate|]. apply Forall_app. split; [destruct (bb_label_comma b); repeat constructor; discriminate|]. apply Forall_flat_map. apply Forall_forall. auto. }
  intros H. destruct H as [x d eq e rest Hd He|kw sig sseg addr aseg dbg e rest Hs' Ha He|kw sig sseg body n bseg e rest Hs' Hb' He|x k1 k2 deps dseg rest Hd Hst|x d eq e rest Hd He]; cbn [stmt_tokens].
  - constructor; [discriminate|exact Hd].
  - apply Forall_app. split; [apply Hs|]. apply Forall_app. split; apply Ho; discriminate.
  - constructor; [discriminate|]. apply Forall_app. split; [apply Hs|]. constructor; [discriminate|]. apply Forall_app. split; [apply Forall_flat_map; apply Forall_forall; auto|repeat constructor; discriminate].
  - constructor; [discriminate|]. apply Hm. discriminate.
  - constructor; [discriminate|exact Hd].
Qed.
Lemma module_solid ok ss n toks : module_seg ok ss n toks -> Forall (fun t : stoken => fst t <> TNewline) (flat_map stmt_tokens ss).
Proof. induction 1; [constructor| |]; cbn [flat_map]; (apply Forall_app; split; [eapply stmt_solid; eassumption|assumption]). Qed.

(** ** Documents *)
Lemma solid_document u src toks ss : parse_from_str u src = Val (mkPR toks ss []) ->
  spans_in 0 (length src) (solid toks) /\ subseq (flat_map stmt_tokens ss) (solid toks) /\ ranges_in_order 0 (flat_map func_ranges ss).
Proof.
  intros Hp. pose proof (proj1 (parse_from_str_module _ _ _ Hp)) as Hsp. pose proof (layout _ _ _ Hp) as (_ & Hrg & _).
  pose proof (proj2 (parse_from_str_module _ _ _ Hp)) as Hm. cbn [pr_tokens pr_stmts] in *. split; [eapply spans_in_sub; [apply subseq_filter|exact Hsp]|]. split; [|exact Hrg].
  pose proof (provenance _ _ _ Hp) as Hsub. cbn [pr_tokens pr_stmts] in Hsub. rewrite <- (filter_id is_solid (flat_map stmt_tokens ss)); [apply sub_filter; exact Hsub|].
  intros t Ht. destruct Hm as [->|(k & Hm)]; [contradiction|]. pose proof (proj1 (Forall_forall _ _) (module_solid _ _ _ _ Hm) _ Ht) as N.
  assert (fst t <> TComment) as C; [|destruct t as [w sp]; unfold is_solid; cbn [fst] in *; destruct w; try reflexivity; congruence].
  apply module_sub in Hm. rewrite drop_comments in Hm. pose proof (PParseProps.subseq_in _ _ _ Hm Ht) as Hin. exact (proj1 (Forall_forall _ _) (no_comments _) _ Hin).
Qed.
Lemma lead_in ss toks nls : module_at ss toks -> ss <> [] -> newlines nls -> module_at ss (nls ++ toks).
Proof.
  intros H Hne Hn. destruct H as [|s ss pre seg post rest K1 K2 K3 K4]; [contradiction|]. rewrite app_assoc. apply ma_cons; try assumption. apply Forall_app. split; assumption.
Qed.
Lemma says_something ss toks : module_at ss toks -> ss <> [] -> ~ newlines toks.
Proof.
  intros H Hne Hn. destruct H as [|s ss pre seg post rest K1 K2 K3 K4]; [contradiction|]. destruct (stmt_at_core (fun _ _ => True) _ _ _ K3) as (h & x & e & -> & Nh & _).
  apply Forall_app in Hn as [_ Hn]. inversion Hn; contradiction.
Qed.
Lemma lines_parse u src src' toks toks' ss : parse_from_str u src = Val (mkPR toks ss []) -> ss <> [] -> tokenize u src' = Val (Some toks', []) ->
  relined LineStart (without_comments toks) (without_comments toks') ->
  exists ss', parse_from_str u src' = Val (mkPR toks' ss' []) /\ say_alike (mkPR toks ss []) (mkPR toks' ss' []).
Proof.
  intros Hp Hne Et' Hr. destruct (proj1 (document_exact _ _ _ _) Hp) as [Et Hs]. destruct (relined_solid _ _ _ Hr (no_comments _)) as [L Em]. rewrite !solid_comments in *.
  destruct (module_lined _ _ _ Hs LineStart [] _ ltac:(constructor) L) as (nls & ss' & rest & E & Hn & Hs' & F & _).
  assert (module_at ss' (without_comments toks')) as Hs2.
  { rewrite E. apply lead_in; [exact Hs'| |exact Hn]. intros ->. inversion F. subst. contradiction. }
  clear E Hs' L Hn nls rest. exists ss'. pose proof (proj2 (document_exact _ _ _ _) (conj Et' Hs2)) as Hp'.
  destruct (solid_document _ _ _ _ Hp) as (Hsp & Hsub & Hrg). destruct (solid_document _ _ _ _ Hp') as (Hsp' & _ & _).
  split; [exact Hp'|]. split; [exact Em|]. split; [reflexivity|]. split; [reflexivity|]. split; [exact F|]. unfold bound_over. cbn [pr_tokens pr_stmts] in *.
  rewrite <- !(recorded_solid _ toks), <- !(recorded_solid _ toks'). pose proof (map_fst_similar _ _ Em) as M.
  assert (Forall2 (fun a b : stoken => similar (fst a) (fst b)) (solid toks) (solid toks')) as Hsim by (eapply forall2_impl; [|exact M]; intros x y E; left; exact E).
  assert (same_bindings (counterparts (solid toks) (solid toks')) (recorded ss (solid toks)) (recorded ss' (solid toks'))) as B.
  { eapply bindings_kept; [exact Hsp|exact Hsp'|exact Hsim|exact Hsub|exact Hrg|exact F|]. intros x y t t' Hx Hy _ _ Tx Ty.
    rewrite <- (combine_forall2 _ _ _ M _ _ Tx), <- (combine_forall2 _ _ _ M _ _ Ty), !occ_token_name. split; congruence. }
  split; [exact B|]. eapply same_reports; [exact Hsp|exact Hsp'|exact B].
Qed.

(** ** Texts *)
Definition ended (t : stoken) : Prop := fst t = TNewline.
Lemma relined_refl f x : (forall t : stoken, fst (f t) = fst t) -> forall p, relined p x (map f x).
Proof. intros H. induction x as [|a x IH]; intros p; [apply rl_end; constructor|]. cbn [map]. apply rl_token; [symmetry; apply H|apply IH]. Qed.
Lemma relined_front x y y' : forall p, relined (fold_left next_place (map fst x) p) y y' -> relined p (x ++ y) (x ++ y').
Proof. induction x as [|a x IH]; intros p H; [exact H|]. cbn [app]. apply rl_token; [reflexivity|]. apply IH. exact H. Qed.
Lemma relined_more nls y y' : newlines nls -> relined LineStart y y' -> relined LineStart y (nls ++ y').
Proof. induction 1 as [|a nls Ha _ IH]; intros H; [exact H|]. cbn [app]. apply rl_more; [exact Ha|exact (IH H)]. Qed.
Lemma relined_less nls y y' : newlines nls -> relined LineStart y y' -> relined LineStart (nls ++ y) y'.
Proof. induction 1 as [|a nls Ha _ IH]; intros H; [exact H|]. cbn [app]. apply rl_less; [exact Ha|exact (IH H)]. Qed.
Lemma comments_shift d toks : without_comments (map (shift_tok d) toks) = map (shift_tok d) (without_comments toks).
Proof.
  induction toks as [|[t sp] toks IH]; [reflexivity|]. unfold without_comments in *. cbn [map filter fst shift_tok]. destruct t; cbn [map]; rewrite IH; reflexivity.
Qed.
Lemma comment_line u c r : ~ In LF c -> longest u TComment (ch "#" :: c) (LF :: r).
Proof.
  intros Hc. split; [apply lx_comment; exact Hc|]. intros t2 w2 s2 E Hw2. destruct (le_lt_dec (length w2) (length (ch "#" :: c))) as [G|G]; [exact G|]. exfalso.
  destruct (app_prefix_cases _ _ _ _ E) as [(v & E1 & _)|(q & E1 & E2 & Hq)]; [pose proof (f_equal (@length _) E1) as E3; rewrite app_length in E3; cbn [length] in *; lia|]. subst w2. clear E.
  cbn [app] in Hw2. pose proof (lexeme_hash _ _ _ Hw2) as ->. destruct (comment_text _ _ Hw2) as (x2 & Ex2 & Hno2). injection Ex2 as <-. destruct q as [|y q]; [contradiction|].
  injection E2 as <- _. apply Hno2, in_or_app. right. left. reflexivity.
Qed.
Lemma idle_lexes u l : idle_line l -> forall i r toks n, lexes u (i + length l) r toks n -> exists tl, tl <> [] /\ newlines (without_comments tl) /\ lexes u i (l ++ r) (tl ++ toks) n.
Proof.
  intros [bl e Hb He|bl c Hb Hc] i r toks n L.
  - eexists [_]. split; [discriminate|]. split; [|cbn [app]; rewrite <- app_assoc; apply lexes_token; [exact Hb|apply newline_longest, lx_newline, He|]].
    + constructor; [reflexivity|constructor].
    + rewrite app_length in L. replace (i + length bl + length e) with (i + (length bl + length e)) by lia. exact L.
  - assert (lexes u (i + length bl + length (ch "#" :: c)) (LF :: r) ((TNewline, mkSpan (i + length bl + length (ch "#" :: c)) (i + length bl + length (ch "#" :: c) + 1)) :: toks) n) as L2.
    { change (LF :: r) with ([] ++ [LF] ++ r). set (j := i + length bl + length (ch "#" :: c)). replace (mkSpan j (j + 1)) with (mkSpan (j + length (@nil char)) (j + length (@nil char) + length [LF])) by (cbn [length]; f_equal; lia).
      apply lexes_token; [constructor|apply newline_longest, lx_newline; left; reflexivity|]. subst j. replace (i + length bl + length (ch "#" :: c) + length (@nil char) + length [LF]) with (i + length (bl ++ ch "#" :: c ++ [LF])); [exact L|]. rewrite !app_length. cbn [length]. rewrite app_length. cbn [length]. lia. }
    replace ((bl ++ ch "#" :: c ++ [LF]) ++ r) with (bl ++ (ch "#" :: c) ++ LF :: r) by (rewrite <- app_assoc; cbn [app]; rewrite <- app_assoc; reflexivity).
    pose proof (lexes_token u i bl TComment (ch "#" :: c) (LF :: r) _ n Hb (comment_line u c r Hc) L2) as L3.
    eexists [_; _]. split; [discriminate|]. split; [|cbn [app] in L3 |- *; exact L3]. constructor; [reflexivity|constructor].
Qed.
Lemma comments_app a b : without_comments (a ++ b) = without_comments a ++ without_comments b.
Proof. apply filter_app. Qed.
Lemma idle_all u ls : Forall idle_line ls -> forall i r toks n, lexes u (i + length (concat ls)) r toks n ->
  exists tl, (ls <> [] -> tl <> []) /\ newlines (without_comments tl) /\ lexes u i (concat ls ++ r) (tl ++ toks) n.
Proof.
  induction 1 as [|l ls Hl H IH]; intros i r toks n L.
  - exists []. split; [contradiction|]. split; [constructor|]. cbn [concat app length] in *. rewrite Nat.add_0_r in L. exact L.
  - cbn [concat] in *. rewrite app_length, Nat.add_assoc in L. destruct (IH _ _ _ _ L) as (t2 & _ & N2 & L2). destruct (idle_lexes _ _ Hl _ _ _ _ L2) as (t1 & E1 & N1 & L1).
    exists (t1 ++ t2). split; [intros _ E; apply app_eq_nil in E as [E _]; contradiction|]. split; [rewrite comments_app; apply Forall_app; split; assumption|]. rewrite <- !app_assoc. exact L1.
Qed.
Lemma idle_full ls : Forall idle_line ls -> full_lines (concat ls).
Proof.
  assert (forall l, idle_line l -> exists p, l = p ++ [LF]) as H1.
  { intros l [bl e _ [->| ->]|bl c _ _]; [exists bl; reflexivity|exists (bl ++ [CR]); rewrite <- app_assoc; reflexivity|exists (bl ++ ch "#" :: c); rewrite <- app_assoc; reflexivity]. }
  induction 1 as [|l ls Hl H IH]; [left; reflexivity|]. right. cbn [concat]. destruct (H1 _ Hl) as (p & ->). destruct IH as [->|(q & ->)]; [exists p; rewrite app_nil_r; reflexivity|exists ((p ++ [LF]) ++ q); rewrite app_assoc; reflexivity].
Qed.
Lemma lexes_unshift u d j t toks n : lexes u j t toks n -> forall i, j = i + d -> exists toks', lexes u i t toks' n /\ toks = map (shift_tok d) toks'.
Proof.
  induction 1 as [j bl Hb|j bl t w r toks n Hb Hl H IH|j bl g t w r toks n Hb Hg Hgb Hun Hl H IH]; intros i Ej.
  - exists []. split; [constructor; exact Hb|reflexivity].
  - destruct (IH (i + length bl + length w) ltac:(lia)) as (toks' & L & ->). eexists. split; [apply lexes_token; [exact Hb|exact Hl|exact L]|]. cbn [map]. f_equal. unfold shift_tok, shift_span. cbn [fst snd sp_start sp_end]. f_equal. f_equal; lia.
  - destruct (IH (i + length bl + length g + length w) ltac:(lia)) as (toks' & L & ->). eexists. split; [eapply lexes_garbage; eassumption|]. cbn [map]. f_equal. unfold shift_tok, shift_span. cbn [fst snd sp_start sp_end]. f_equal. f_equal; lia.
Qed.
Section Insert.
Variables (u : uclass) (a b : text) (ins : list text) (ta : list stoken).
Hypothesis Hfl : full_lines a.
Hypothesis Ha : tokenize u a = Val (Some ta, []).
Hypothesis Hpl : place_after (without_comments ta) = LineStart.
Hypothesis Hi : Forall idle_line ins.
Let d := length (concat ins).
Lemma both_lex : forall tb, lexes u (length a) b tb 0 -> exists tl, (ins <> [] -> tl <> []) /\ newlines (without_comments tl) /\
  lexes u 0 (a ++ b) (ta ++ tb) 0 /\ lexes u 0 (a ++ concat ins ++ b) (ta ++ tl ++ map (shift_tok d) tb) 0.
Proof.
  intros tb L. pose proof (tokenize_lexes0 _ _ _ Ha) as La. pose proof (lexes_shift u d _ _ _ _ L) as Ls. destruct (idle_all u _ Hi _ _ _ _ Ls) as (tl & H1 & H2 & H3).
  exists tl. split; [exact H1|]. split; [exact H2|]. split; eapply lexes_app; eassumption.
Qed.
Lemma more_lines tb tl : newlines (without_comments tl) -> relined LineStart (without_comments (ta ++ tb)) (without_comments (ta ++ tl ++ map (shift_tok d) tb)) /\
  relined LineStart (without_comments (ta ++ tl ++ map (shift_tok d) tb)) (without_comments (ta ++ tb)).
Proof.
  intros Hn. rewrite !comments_app, comments_shift. split; apply relined_front; fold (place_after (without_comments ta)); rewrite Hpl.
  - apply relined_more; [exact Hn|]. apply relined_refl. reflexivity.
  - apply relined_less; [exact Hn|]. generalize (without_comments tb) as x. intros x. generalize LineStart as p. induction x as [|t x IH]; intros p; [apply rl_end; constructor|]. cbn [map]. apply rl_token; [reflexivity|apply IH].
Qed.
Lemma insert_lines toks ss : parse_from_str u (a ++ b) = Val (mkPR toks ss []) -> ss <> [] ->
  exists toks' ss', parse_from_str u (a ++ concat ins ++ b) = Val (mkPR toks' ss' []) /\ say_alike (mkPR toks ss []) (mkPR toks' ss' []).
Proof.
  intros Hp Hne. destruct (proj1 (document_exact _ _ _ _) Hp) as [Et Hs]. pose proof (tokenize_lexes0 _ _ _ Et) as L. destruct (lexes_app_inv _ _ _ _ _ (tokenize_lexes0 _ _ _ Ha) Hfl _ _ L) as (tb & Lb). cbn [plus] in Lb.
  destruct (both_lex _ Lb) as (tl & H1 & H2 & H3 & H4). destruct (lexes_det _ _ _ _ _ L _ _ H3) as [-> _].
  destruct (lexes_tokenize _ _ _ _ H4) as (errs & Et' & En).
  { right. intros E. apply app_eq_nil in E as [E1 E2]. apply app_eq_nil in E2 as [_ E2]. destruct tb; [|discriminate E2]. rewrite E1 in Hs. exact (says_something _ _ Hs Hne ltac:(constructor)). }
  destruct errs; [|discriminate En]. destruct (lines_parse _ _ _ _ _ _ Hp Hne Et' (proj1 (more_lines tb tl H2))) as (ss' & G). eauto.
Qed.
Lemma delete_lines toks ss : parse_from_str u (a ++ concat ins ++ b) = Val (mkPR toks ss []) -> ss <> [] ->
  exists toks' ss', parse_from_str u (a ++ b) = Val (mkPR toks' ss' []) /\ say_alike (mkPR toks ss []) (mkPR toks' ss' []).
Proof.
  intros Hp Hne. destruct (proj1 (document_exact _ _ _ _) Hp) as [Et Hs]. pose proof (tokenize_lexes0 _ _ _ Et) as L. destruct (lexes_app_inv _ _ _ _ _ (tokenize_lexes0 _ _ _ Ha) Hfl _ _ L) as (ti & Li). cbn [plus] in Li.
  destruct (idle_all u _ Hi (length a) [] [] 0) as (t0 & _ & _ & L0); [constructor; constructor|]. rewrite !app_nil_r in L0.
  destruct (lexes_app_inv _ _ _ _ _ L0 (idle_full _ Hi) _ _ Li) as (tb' & Lb'). destruct (lexes_unshift _ d _ _ _ _ Lb' _ eq_refl) as (tb & Lb & _).
  destruct (both_lex _ Lb) as (tl & H1 & H2 & H3 & H4). destruct (lexes_det _ _ _ _ _ L _ _ H4) as [-> _].
  destruct (lexes_tokenize _ _ _ _ H3) as (errs & Et' & En).
  { right. intros E. apply app_eq_nil in E as [E1 E2]. subst tb. rewrite E1 in Hs. cbn [app map] in Hs. rewrite app_nil_r in Hs. exact (says_something _ _ Hs Hne H2). }
  destruct errs; [|discriminate En]. destruct (lines_parse _ _ _ _ _ _ Hp Hne Et' (proj2 (more_lines tb tl H2))) as (ss' & G). eauto.
Qed.
End Insert.

(** ** Answers *)
Lemma answers_solid e rs uri src toks ss errs p ud r : answers e rs uri src (mkPR toks ss errs) p ud r <-> answers e rs uri src (mkPR (solid toks) ss errs) p ud r.
Proof. unfold answers. cbn [pr_tokens pr_stmts]. rewrite recorded_solid. reflexivity. Qed.
Lemma lines_answers e s s' uri uri' src src' d d' toks toks' ss : plain_document src -> plain_document src' -> opened e s uri src d -> opened e s' uri' src' d' ->
  parse_from_str (e_u e) src = Val (mkPR toks ss []) -> ss <> [] -> tokenize (e_u e) src' = Val (Some toks', []) -> relined LineStart (without_comments toks) (without_comments toks') ->
  roots s' = roots s -> can_resolve (roots s) -> lines_from_1 ss ->
  exists ss', parse_from_str (e_u e) src' = Val (mkPR toks' ss' []) /\ say_alike (mkPR toks ss []) (mkPR toks' ss' []) /\
    forall o o' p p', In (o, o') (combine (recorded ss toks) (recorded ss' toks')) ->
      covers (o_span o) p -> covers (o_span o') p' -> (global (o_kind o) -> ~ dual ss (o_name o)) ->
      (exists r r', goto_definition e s uri (lsp_position src p) = Val r /\ goto_definition e s' uri' (lsp_position src' p') = Val r' /\
         told_alike (counterparts (solid toks) (solid toks')) src uri src' uri' o o' r r') /\
      (exists r r', goto_declaration e s uri (lsp_position src p) = Val r /\ goto_declaration e s' uri' (lsp_position src' p') = Val r' /\
         told_alike (counterparts (solid toks) (solid toks')) src uri src' uri' o o' r r') /\
      (exists r r', references e s uri (lsp_position src p) = Val (option_map snd r) /\ references e s' uri' (lsp_position src' p') = Val (option_map snd r') /\
         told_alike (counterparts (solid toks) (solid toks')) src uri src' uri' o o' r r').
Proof.
  intros P1 P2 Ho Ho' Hp Hne Et' Hr Er Hc Hl. destruct (lines_parse _ _ _ _ _ _ Hp Hne Et' Hr) as (ss' & Hp' & Hsay). exists ss'. split; [exact Hp'|]. split; [exact Hsay|].
  destruct Hsay as (Em & _ & _ & Hst & (Hocc & _) & _). cbn [pr_tokens pr_stmts] in *. intros o o' p p' Hin Hcp Hcp' Hdu.
  destruct (solid_document _ _ _ _ Hp) as (Hsp & Hsub & Hrg). destruct (solid_document _ _ _ _ Hp') as (Hsp' & Hsub' & _).
  pose proof (combine_forall2 _ _ _ (map_fst_similar _ _ Em)) as Hfst. rewrite <- (recorded_solid ss), <- (recorded_solid ss') in Hin, Hocc.
  assert (p <= length src) as Lp.
  { pose proof (spans_in_each _ _ _ _ Hsp (recorded_token _ _ _ Hsp Hsub _ (in_combine_l _ _ _ _ Hin))) as L. destruct Hcp. change (snd (occ_token o)) with (o_span o) in L. lia. }
  assert (p' <= length src') as Lp'.
  { pose proof (spans_in_each _ _ _ _ Hsp' (recorded_token _ _ _ Hsp' Hsub' _ (in_combine_r _ _ _ _ Hin))) as L. destruct Hcp'. change (snd (occ_token o')) with (o_span o') in L. lia. }
  assert (ss = doc_stmts d) as Es.
  { destruct (declaration_places _ _ _ _ _ 0 P1 Ho (Nat.le_0_l _)) as (x & _ & Hx & E & _). rewrite Hp in Hx. injection Hx as <-. exact E. }
  assert (ss' = doc_stmts d') as Es'.
  { destruct (declaration_places _ _ _ _ _ 0 P2 Ho' (Nat.le_0_l _)) as (x & _ & Hx & E & _). rewrite Hp' in Hx. injection Hx as <-. exact E. }
  assert (lines_from_1 (doc_stmts d')) as Hl'.
  { rewrite <- Es'. intros f x Hx. apply (Hl f x). rewrite (ext_defs_same _ Hfst f _ _ Hst [] [] (Forall2_nil _)). exact Hx. }
  rewrite Es in Hl.
  pose proof (fun ud => answers_alike _ _ (mkPR (solid toks) ss []) (mkPR (solid toks') ss' []) Hsp Hsp' Hsub Hsub' Hrg Hfst Hst Hocc e (roots s) uri src uri' src' ud p p') as A.
  split; [|split].
  - destruct (definition_places _ _ _ _ _ p P1 Ho Hc Hl Lp) as (x & r & Hx & _ & G1 & G2). rewrite Hp in Hx. injection Hx as <-.
    destruct (definition_places e s' uri' src' d' p' P2 Ho' ltac:(rewrite Er; exact Hc) Hl' Lp') as (x & r' & Hx & _ & G1' & G2'). rewrite Hp' in Hx. injection Hx as <-. rewrite Er in G2'.
    exists r, r'. split; [exact G1|]. split; [exact G1'|]. eapply A; [exact Hin|exact Hcp|exact Hcp'|exact Hdu|exact (proj1 (answers_solid _ _ _ _ _ _ _ _ _ _) G2)|exact (proj1 (answers_solid _ _ _ _ _ _ _ _ _ _) G2')].
  - destruct (declaration_places _ _ _ _ _ p P1 Ho Lp) as (x & r & Hx & _ & G1 & G2). rewrite Hp in Hx. injection Hx as <-.
    destruct (declaration_places e s' uri' src' d' p' P2 Ho' Lp') as (x & r' & Hx & _ & G1' & G2'). rewrite Hp' in Hx. injection Hx as <-. rewrite Er in G2'.
    exists r, r'. split; [exact G1|]. split; [exact G1'|]. eapply A; [exact Hin|exact Hcp|exact Hcp'|exact Hdu|exact (proj1 (answers_solid _ _ _ _ _ _ _ _ _ _) G2)|exact (proj1 (answers_solid _ _ _ _ _ _ _ _ _ _) G2')].
  - destruct (reference_places _ _ _ _ _ p P1 Ho Lp) as (x & r & Hx & _ & G1 & G2). rewrite Hp in Hx. injection Hx as <-.
    destruct (reference_places e s' uri' src' d' p' P2 Ho' Lp') as (x & r' & Hx & _ & G1' & G2'). rewrite Hp' in Hx. injection Hx as <-. rewrite Er in G2'.
    exists r, r'. split; [exact G1|]. split; [exact G1'|]. eapply A; [exact Hin|exact Hcp|exact Hcp'|exact Hdu|exact (proj1 (answers_solid _ _ _ _ _ _ _ _ _ _) G2)|exact (proj1 (answers_solid _ _ _ _ _ _ _ _ _ _) G2')].
Qed.
