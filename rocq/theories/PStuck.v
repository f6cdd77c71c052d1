(** Every syntax error of a document. *)
From Verif Require Import Text Chumsky Tokenizer Parser SpecParse SpecExact SpecFault SpecDiag SpecIndex SpecViable SpecSalvage SpecStuck
  PText PChumsky PGram PParse PSound PParseProps PComplete PLocal PExact PPlace PFurther PHopeless PViable PViableDoc PSalvage.

(** ** Complaints *)
Lemma blames_none l : blames l [].
Proof. induction l; constructor; assumption. Qed.
Lemma blames_app l es l' es' : blames l es -> blames l' es' -> blames (l ++ l') (es ++ es').
Proof. induction 1; intros H'; cbn [app]; [exact H'|apply bl_pass; auto|apply bl_one; auto]. Qed.

Section S.
Variable eoi : span.
Definition tells {A} (p : pp A) (T : A -> list (simple token) -> Prop) : Prop := forall st es a alt r, p st = POk es a alt r -> T a (map l_err es).
Lemma tells_map {A B} (p : pp A) (g : A -> B) T : tells p (fun a => T (g a)) -> tells (p_map p g) T.
Proof. intros H st es a alt r E. unfold p_map in E. destruct (p st) eqn:P; try discriminate. injection E as <- <- <- <-. exact (H _ _ _ _ _ P). Qed.
Lemma tells_span {A B} (p : pp A) (g : A -> span -> B) (T : B -> list (simple token) -> Prop) : tells p (fun a es => forall sp, T (g a sp) es) -> tells (p_map_with_span eoi p g) T.
Proof. intros H st es a alt r E. unfold p_map_with_span in E. destruct (p st) eqn:P; try discriminate. injection E as <- <- <- <-. exact (H _ _ _ _ _ P _). Qed.
Lemma tells_then {A B} (p : pp A) (q : pp B) Tp Tq (T : A * B -> list (simple token) -> Prop) : tells p Tp -> tells q Tq -> (forall a b es es', Tp a es -> Tq b es' -> T (a, b) (es ++ es')) -> tells (p_then p q) T.
Proof.
  intros Hp Hq H st es a alt r E. unfold p_then in E. destruct (p st) as [es1 a1 alt1 r1| |] eqn:P; try discriminate. destruct (q r1) as [es2 a2 alt2 r2| |] eqn:Q; try discriminate.
  injection E as <- <- _ _. rewrite map_app. apply H; [exact (Hp _ _ _ _ _ P)|exact (Hq _ _ _ _ _ Q)].
Qed.
Lemma tells_clean {A} (p : pp A) : PFurther.clean p -> tells p (fun _ es => es = []).
Proof. intros H st es a alt r E. rewrite (H _ _ _ _ _ E). reflexivity. Qed.
Lemma tells_left {A B} (p : pp A) (q : pp B) (T : A * B -> list (simple token) -> Prop) : tells p (fun a es => forall b, T (a, b) es) -> PFurther.clean q -> tells (p_then p q) T.
Proof. intros H Hq. eapply tells_then; [exact H|apply tells_clean; exact Hq|]. cbv beta. intros a b es es' K ->. rewrite app_nil_r. apply K. Qed.
Lemma tells_right {A B} (p : pp A) (q : pp B) (T : A * B -> list (simple token) -> Prop) : PFurther.clean p -> tells q (fun b es => forall a, T (a, b) es) -> tells (p_then p q) T.
Proof. intros Hp H. eapply tells_then; [apply tells_clean; exact Hp|exact H|]. cbv beta. intros a b es es' -> K. apply K. Qed.
Lemma tells_keep {A B} (p : pp A) (q : pp B) T : tells p T -> PFurther.clean q -> tells (p_then_ignore p q) T.
Proof. intros H Hq. apply tells_map. apply tells_left; [|exact Hq]. intros st es a alt r E b. exact (H _ _ _ _ _ E). Qed.
Lemma tells_behind {A B} (p : pp A) (q : pp B) T : PFurther.clean p -> tells q T -> tells (p_ignore_then p q) T.
Proof. intros Hp H. apply tells_map. apply tells_right; [exact Hp|]. intros st es a alt r E b. exact (H _ _ _ _ _ E). Qed.
Lemma tells_or {A} (p q : pp A) T : tells p T -> tells q T -> tells (p_or p q) T.
Proof.
  intros Hp Hq st es a alt r E. unfold p_or in E. destruct (p st) as [[|e1 es1] a1 alt1 r1|es1 e1|] eqn:P; [injection E as <- <- <- <-; exact (Hp _ _ _ _ _ P)| | |discriminate].
  - destruct (q st) as [[|e2 es2] a2 alt2 r2|es2 e2|] eqn:Q; [injection E as <- <- <- <-; exact (Hq _ _ _ _ _ Q)| | |discriminate].
    + cbv zeta in E. destruct (_ <? _) in E; injection E as <- <- <- <-; [exact (Hq _ _ _ _ _ Q)|exact (Hp _ _ _ _ _ P)].
    + injection E as <- <- _ <-. exact (Hp _ _ _ _ _ P).
  - destruct (q st) as [[|e2 es2] a2 alt2 r2|es2 e2|] eqn:Q; [injection E as <- <- <- <-; exact (Hq _ _ _ _ _ Q)| | |discriminate].
    + injection E as <- <- _ <-. exact (Hq _ _ _ _ _ Q).
    + destruct (_ <? _) in E; [discriminate|]. destruct (_ <? _) in E; discriminate.
Qed.
Lemma tells_or_not {A} (p : pp A) T : tells p (fun a => T (Some a)) -> T None [] -> tells (p_or_not p) T.
Proof. intros H N st es a alt r E. unfold p_or_not in E. destruct (p st) eqn:P; [injection E as <- <- <- <-; exact (H _ _ _ _ _ P)|injection E as <- <- _ _; exact N|discriminate]. Qed.
Lemma tells_rep {A} (p : pp A) (f : A -> list instruction) : tells p (fun a => blames (f a)) -> forall k fuel old errs outs alt, blames (flat_map f outs) (map l_err errs) ->
  tells (p_rep fuel p k old errs outs alt) (fun l => blames (flat_map f l)).
Proof.
  intros H k. induction fuel as [|fuel IH]; intros old errs outs alt B st es a alt' r E; [discriminate|]. cbn [p_rep] in E. destruct (p st) as [es1 a1 alt1 r1| |] eqn:P; [| |discriminate].
  - destruct (match old with Some _ => _ | None => _ end); [discriminate|]. refine (IH _ _ _ _ _ _ _ _ _ _ E). rewrite flat_map_app, map_app. apply blames_app; [exact B|]. cbn. rewrite app_nil_r. exact (H _ _ _ _ _ P).
  - destruct (_ <? _); [discriminate|]. injection E as <- <- _ _. exact B.
Qed.
Lemma tells_repeated {A} (p : pp A) (f : A -> list instruction) k : tells p (fun a => blames (f a)) -> tells (p_repeated_at_least k p) (fun l => blames (flat_map f l)).
Proof. intros H st. apply tells_rep; [exact H|constructor]. Qed.
Lemma tells_quiet {A} (p : pp A) (f : A -> list instruction) : PFurther.pure p -> tells p (fun a => blames (f a)).
Proof. intros H st es a alt r E. rewrite (PFurther.pure_clean _ H _ _ _ _ _ E). apply blames_none. Qed.

Ltac quiet :=
  lazymatch goal with
  | |- PFurther.pure (p_map_with_span _ _ _) => apply PFurther.pure_span; quiet
  | |- PFurther.pure (p_map _ _) => apply PFurther.pure_map; quiet
  | |- PFurther.pure (p_to _ _) => apply PFurther.pure_map; quiet
  | |- PFurther.pure (p_then_ignore _ _) => apply PFurther.pure_map; quiet
  | |- PFurther.pure (p_ignore_then _ _) => apply PFurther.pure_map; quiet
  | |- PFurther.pure (p_delimited_by _ _ _) => unfold p_delimited_by; quiet
  | |- PFurther.pure (p_then _ _) => apply PFurther.pure_then; quiet
  | |- PFurther.pure (p_or _ _) => apply PFurther.pure_or; quiet
  | |- PFurther.pure (p_or_not _) => apply PFurther.pure_or_not; quiet
  | |- PFurther.pure (p_repeated _) => apply PFurther.pure_repeated; quiet
  | |- PFurther.pure (p_repeated_at_least _ _) => apply PFurther.pure_repeated; quiet
  | |- PFurther.pure (p_separated_by _ _) => apply PFurther.pure_separated; quiet
  | |- PFurther.pure (p_rewind _) => apply PFurther.pure_rewind; quiet
  | |- PFurther.pure (p_just _ _ _) => apply PFurther.pure_just
  | |- PFurther.pure (p_none_of _ _ _) => apply PFurther.pure_none_of
  | |- PFurther.pure (p_any _) => apply PFurther.pure_any
  | |- PFurther.pure (p_end _) => apply PFurther.pure_end
  | |- PFurther.pure (p_not _ _) => apply PFurther.pure_not
  | |- PFurther.pure (p_filter_map _ _) => apply PFurther.pure_filter_map
  | |- PFurther.pure (?g eoi) => unfold g; quiet
  | |- PFurther.pure (?g eoi _) => unfold g; quiet
  end.
Ltac clean := apply PFurther.pure_clean; quiet.
Lemma tells_name : tells (p_validate eoi (g_ident eoi) (fun x => if ends_with (fst x) (str "br") then None else Some (str "Instruction is not a overflow-branch instruction.")))
  (fun x es => es = [] \/ exists e, es = [e] /\ e_span e = snd x /\ faults_name (fst x) e).
Proof.
  intros st es a alt r E. unfold p_validate in E. destruct (g_ident eoi st) as [es1 a1 alt1 r1| |] eqn:P; try discriminate.
  assert (es1 = []) as -> by (refine (PFurther.pure_clean _ _ _ _ _ _ _ P); quiet). assert (V : vw (g_ident eoi st) = VOk 0 a1 r1) by (rewrite P; reflexivity). apply inv_ident in V as (_ & ->).
  destruct (ends_with (fst a1) (str "br")) eqn:N; injection E as <- <- _ _; [left; reflexivity|]. right. eexists. split; [reflexivity|]. cbn [map l_err e_span].
  split; [unfold tident; destruct a1 as [x sp]; cbn; apply (span_one eoi)|]. split; [exact N|]. repeat split.
Qed.
Lemma tells_overflow : tells (g_overflowbr eoi) (fun i => blames [i]).
Proof.
  unfold g_overflowbr. apply tells_span. repeat first [apply tells_keep; [|solve [clean]] | apply tells_left; [|solve [clean]]].
  intros st es a alt r E. apply tells_name in E. intros b b0 b1 sp. destruct E as [->|(e & -> & E1 & E2)]; [apply blames_none|]. apply bl_one; [exact E1|exact E2|constructor].
Qed.
Lemma tells_alternatives : tells (g_instr_alternatives eoi) (fun i => blames [i]).
Proof.
  unfold g_instr_alternatives. do 3 (apply tells_or; [|apply (tells_quiet _ (fun i => [i])); quiet]). apply tells_or; [|apply tells_overflow]. apply (tells_quiet _ (fun i => [i])). quiet.
Qed.
Lemma blames_like i j es : i_instr i = i_instr j -> blames [i] es -> blames [j] es.
Proof. intros E H. inversion H as [|? ? ? H'|? ? ? ? H1 H2 H']; subst; [apply bl_pass; exact H'|]. apply bl_one; rewrite <- ?E; assumption. Qed.
Lemma tells_instruction : tells (g_instruction eoi) (fun i => blames [i]).
Proof.
  unfold g_instruction. apply tells_span. apply tells_right; [clean|]. intros st es a alt r E tg sp. apply tells_alternatives in E. revert E. apply blames_like. reflexivity.
Qed.
Lemma tells_instrs k : tells (p_repeated_at_least k (p_padded_by (g_instruction eoi) (g_nls eoi))) (fun l => blames l).
Proof.
  intros st es a alt r E. assert (blames (flat_map (fun i => [i]) a) (map l_err es)) as H.
  { refine (tells_repeated _ (fun i => [i]) k _ _ _ _ _ _ E). unfold p_padded_by. apply tells_keep; [|clean]. apply tells_behind; [clean|apply tells_instruction]. }
  replace (flat_map (fun i => [i]) a) with a in H; [exact H|]. clear. induction a as [|i a IH]; [reflexivity|]. cbn. f_equal. exact IH.
Qed.
Lemma tells_block : tells (g_basic_block eoi) (fun b => blames (bb_instrs b)).
Proof.
  unfold g_basic_block. apply tells_map. apply tells_right; [clean|]. intros st es a alt r E [lb c]. exact (tells_instrs 0 _ _ _ _ _ E).
Qed.
Lemma tells_body : tells (g_func_body eoi) (fun b => blames (flat_map bb_instrs (fb_blocks b))).
Proof.
  unfold g_func_body. apply tells_map. apply tells_left; [|clean].
  apply (tells_then _ _ (fun x => blames (flat_map bb_instrs (match snd x with Some b => [b] | None => [] end))) (fun l => blames (flat_map bb_instrs l))).
  - apply tells_right; [clean|]. apply tells_or_not; [|intros a; constructor]. apply tells_map. intros st es a alt r E sp. cbn. rewrite app_nil_r. exact (tells_instrs 1 _ _ _ _ _ E).
  - apply tells_repeated. apply tells_block.
  - intros [o init] bbs es es' H1 H2 c. cbn [snd fb_blocks] in *. pose proof (blames_app _ _ _ _ H1 H2) as H. rewrite <- flat_map_app in H. destruct init; exact H.
Qed.
Lemma tells_statement : tells (g_statement eoi) (fun s => blames (instructions [s])).
Proof.
  unfold g_statement, p_padded_by. apply tells_keep; [|clean]. apply tells_behind; [clean|].
  do 2 (apply tells_or; [|apply (tells_quiet _ (fun s => instructions [s])); quiet]). apply tells_or; [apply (tells_quiet _ (fun s => instructions [s])); quiet|].
  unfold g_func_def. apply tells_map. apply tells_keep; [|clean]. apply tells_right; [clean|]. intros st es a alt r E [kw sig]. apply tells_body in E. unfold instructions. cbn. rewrite app_nil_r. exact E.
Qed.

(** ** Errors of failing statements *)
Notation G := (g_statement eoi).
Lemma named_about (y : strm) e : named_token eoi y e -> about eoi y e.
Proof. destruct y as [|[tk sp] y]; exact (fun H => H). Qed.
Lemma spoken_begun (st : strm) e : spoken st e -> exists a y : strm, st = a ++ y /\ l_rem e = length y /\ begun a.
Proof.
  intros (pre & y & w & -> & R & (n1 & seg & X & N & s & n & S)). exists pre, y. split; [reflexivity|]. split; [exact R|]. apply star_newlines in N.
  destruct (split_at _ _ _ _ X) as [(k & -> & K)|(k & -> & K)].
  - exists n1, k. split; [reflexivity|]. split; [exact N|]. exists w, s, n. rewrite <- K. exact S.
  - exists pre, []. split; [rewrite app_nil_r; reflexivity|]. split; [apply Forall_app in N; apply N|apply begins_nil].
Qed.
Lemma same_split (a b c d : strm) : a ++ b = c ++ d -> length b = length d -> a = c /\ b = d.
Proof.
  intros E L. assert (length a = length c) as L' by (apply (f_equal (@length _)) in E; rewrite !app_length in E; lia).
  revert c E L'. induction a as [|x a IH]; intros [|y c] E L'; try discriminate; [auto|]. injection E as -> E. injection L' as L'. destruct (IH c E L') as [-> ->]. auto.
Qed.
Lemma further_hopeless (a y : strm) es e : G (a ++ y) = PErr es e -> length y <= l_rem e -> hopeless_at a y.
Proof.
  intros H L t w -> T w'. cbn [length] in L. apply (unreadable_exact eoi). destruct (rel_statement eoi t w w' (a ++ t :: w) (a ++ t :: w')) as [R|R].
  - exists a. auto.
  - rewrite H in R. cbn [PFurther.reach] in R. lia.
  - rewrite H in R. destruct (s_statement eoi) as [_ Hp]. specialize (Hp (a ++ t :: w')). destruct (G (a ++ t :: w')) as [es2 b al q2|es2 e2|] eqn:Q; [contradiction|reflexivity|]. exfalso. apply Hp. exact (f_equal vw Q).
Qed.
Lemma fail_stuck (st : strm) es e : G st = PErr es e -> stuck eoi st (l_err e).
Proof.
  intros H. pose proof (fwd_statement eoi st) as F. rewrite H in F. destruct F as [(p & y & E & L & N) _]. pose proof (statement_reach eoi st) as S. rewrite H in S.
  apply spoken_begun in S as (a & y' & E' & L' & B). rewrite E in E'. apply same_split in E' as [-> ->]; [|congruence]. exists a, y'. split; [exact E|]. split; [apply named_about; exact N|]. split; [exact B|].
  subst st. apply (further_hopeless _ _ _ _ H). lia.
Qed.

(** ** The loop *)
Notation R := (p_recover (g_statement eoi)).
Definition alt_from (starts : list (list stoken)) (alt : option (located token)) : Prop :=
  forall l, alt = Some l -> exists (q b y : list stoken), In q starts /\ q = b ++ y /\ l_rem l = length y /\ begun b.
Lemma alt_more starts starts' alt : (forall q, In q starts -> In q starts') -> alt_from starts alt -> alt_from starts' alt.
Proof. intros H A l E. destruct (A l E) as (q & b & y & Hq & K). exists q, b, y. split; [apply H; exact Hq|exact K]. Qed.
Lemma alt_max starts a b : alt_from starts (Some a) -> alt_from starts b -> alt_from starts (Some (loc_max a b)).
Proof.
  intros H K. destruct b as [b|]; [|exact H]. unfold loc_max. destruct (l_rem a <? l_rem b); [exact H|]. destruct (l_rem b <? l_rem a); [exact K|].
  intros l E. injection E as <-. destruct (H a eq_refl) as (q & x & y & Q). exists q, x, y. exact Q.
Qed.
Lemma alt_merge starts a b : alt_from starts a -> alt_from starts b -> alt_from starts (merge_alts a b).
Proof. intros H K. destruct a as [a|]; [|exact K]. apply alt_max; assumption. Qed.
Lemma begun_nil : begun [].
Proof. exists [], []. split; [reflexivity|]. split; [constructor|apply begins_nil]. Qed.
Lemma alt_here starts (st : list stoken) l : In st starts -> l_rem l = length st -> alt_from starts (Some l).
Proof. intros H L l' E. injection E as <-. exists st, [], st. split; [exact H|]. split; [reflexivity|]. split; [exact L|apply begun_nil]. Qed.
Lemma alt_spoken starts (st : list stoken) l : In st starts -> spoken st l -> alt_from starts (Some l).
Proof. intros H S l' E. injection E as <-. apply spoken_begun in S as (a & y & E1 & E2 & B). exists st, a, y. auto. Qed.
Lemma alt_statement starts (st : list stoken) es s alt r : G st = POk es s alt r -> In st starts -> In r starts -> alt_from starts alt.
Proof.
  intros H H1 H2. pose proof (statement_reach eoi st) as S. rewrite H in S. intros l E. subst alt. destruct (S l eq_refl) as [K|K]; [exact (alt_spoken _ _ _ H1 K _ eq_refl)|exact (alt_here _ _ _ H2 K _ eq_refl)].
Qed.
Lemma ok_next (st : strm) es s alt r : G st = POk es s alt r -> next st s (length es) r /\ blames (instructions [s]) (map l_err es).
Proof. intros H. split; [apply (next_exact eoi); rewrite H; reflexivity|exact (tells_statement _ _ _ _ _ H)]. Qed.
Lemma err_unreadable (st : strm) es e : G st = PErr es e -> unreadable st.
Proof. intros H. apply (unreadable_exact eoi). rewrite H. reflexivity. Qed.
(** all errors are in [errs], except the one at which the loop ends *)
Definition finish (starts : list (list stoken)) (r : list stoken) (o : option (list statement)) (last : list (simple token)) : Prop :=
  (r = [] /\ o = Some [] /\ last = []) \/ (r <> [] /\ o = None /\ exists e, last = [e] /\ stuck_last eoi starts r e).
Inductive log : list (list stoken) -> list stoken -> list (simple token) -> list statement -> list (list stoken) -> list stoken -> Prop :=
| lg_stop starts st : (forall g r, st = g ++ r -> unreadable r) -> log starts st [] [] (st :: starts) st
| lg_next starts st s n rest es more l starts' r : next st s n rest -> blames (instructions [s]) es -> length es = n ->
    log (st :: starts) rest more l starts' r -> log starts st (es ++ more) (s :: l) starts' r
| lg_skip starts g st s n rest e es more l starts' r : g <> [] ->
    (forall g1 g2, g = g1 ++ g2 -> g2 <> [] -> unreadable (g2 ++ st)) -> stuck eoi (g ++ st) e ->
    next st s n rest -> blames (instructions [s]) es -> length es = n ->
    log (st :: (g ++ st) :: starts) rest more l starts' r -> log starts (g ++ st) (es ++ e :: more) (s :: l) starts' r.
Lemma log_faulty starts st es l starts' r : log starts st es l starts' r -> forall o last, finish starts' r o last -> 
  faulty eoi starts st (option_map (app l) o) (es ++ last).
Proof.
  induction 1 as [starts st U|starts st s n rest es more l starts' r H1 H2 H3 _ IH|starts g st s n rest e es more l starts' r Hg Hu Hs H1 H2 H3 _ IH]; intros o last F.
  - destruct F as [(-> & -> & ->)|(Hne & -> & e & -> & S)]; cbn [option_map app]; [constructor|]. apply fy_lost; assumption.
  - rewrite <- app_assoc. replace (option_map (app (s :: l)) o) with (option_map (cons s) (option_map (app l) o)) by (destruct o; reflexivity). eapply fy_next; [exact H1|exact H2|exact H3|apply IH; exact F].
  - rewrite <- app_assoc. change ((e :: more) ++ last) with (e :: more ++ last). replace (option_map (app (s :: l)) o) with (option_map (cons s) (option_map (app l) o)) by (destruct o; reflexivity). eapply fy_skip; [exact Hg|exact Hu|exact Hs|exact H1|exact H2|exact H3|apply IH; exact F].
Qed.
Lemma retry_gen {A} (p : pp A) es e st :
  match p_retry p es e st with
  | POk es' s alt r => exists g q more, st = g ++ q /\ es' = more ++ [e] /\ p q = POk more s alt r /\ forall g1 g2, g = g1 ++ g2 -> g2 <> [] -> exists es2 e2, p (g2 ++ q) = PErr es2 e2
  | PErr es' e' => e' = e /\ forall g r, st = g ++ r -> exists es2 e2, p r = PErr es2 e2
  | PPanic => True
  end.
Proof.
  induction st as [|x st IH]; cbn [p_retry].
  - destruct (p []) as [es' a alt r|es' e'|] eqn:E; [|split; [reflexivity|]|exact I].
    + exists [], [], es'. split; [reflexivity|]. split; [reflexivity|]. split; [exact E|]. intros g1 g2 K N. symmetry in K. apply app_eq_nil in K as [_ K]. congruence.
    + intros g r K. symmetry in K. apply app_eq_nil in K as [_ ->]. eauto.
  - destruct (p (x :: st)) as [es' a alt r|es' e'|] eqn:E; [| |exact I].
    + exists [], (x :: st), es'. split; [reflexivity|]. split; [reflexivity|]. split; [exact E|]. intros g1 g2 K N. symmetry in K. apply app_eq_nil in K as [_ K]. congruence.
    + destruct (p_retry p es e st) as [es2 a2 alt2 r2|es2 e2|]; [| |exact I].
      * destruct IH as (g & q & more & -> & -> & H & K). exists (x :: g), q, more. split; [reflexivity|]. split; [reflexivity|]. split; [exact H|]. intros g1 g2 K1 N.
        destruct g1 as [|y g1]; [cbn in K1; subst g2; eauto|]. injection K1 as <- K1. exact (K g1 g2 K1 N).
      * destruct IH as [-> K]. split; [reflexivity|]. intros g r K1. destruct g as [|y g]; [cbn in K1; subst r; eauto|]. injection K1 as <- K1. exact (K g r K1).
Qed.
Lemma retry_log (es : list (located token)) e (st : list stoken) : 
  match p_retry G es e st with
  | POk es' s alt r => exists (g q : list stoken) more, st = g ++ q /\ es' = more ++ [e] /\ G q = POk more s alt r /\ forall g1 g2, g = g1 ++ g2 -> g2 <> [] -> unreadable (g2 ++ q)
  | PErr es' e' => e' = e /\ forall g r, st = g ++ r -> unreadable r
  | PPanic => True
  end.
Proof.
  pose proof (retry_gen G es e st) as H. destruct (p_retry G es e st) as [es' s alt r|es' e'|]; [| |exact I].
  - destruct H as (g & q & more & H1 & H2 & H3 & H4). exists g, q, more. split; [exact H1|]. split; [exact H2|]. split; [exact H3|]. intros g1 g2 E N. destruct (H4 g1 g2 E N) as (es2 & e2 & K). exact (err_unreadable _ _ _ K).
  - destruct H as [-> H]. split; [reflexivity|]. intros g r E. destruct (H g r E) as (es2 & e2 & K). exact (err_unreadable _ _ _ K).
Qed.
Lemma rep_log fuel : forall old errs outs alt starts (st : list stoken), alt_from (st :: starts) alt ->
  match p_rep fuel R 0 old errs outs alt st with
  | POk es l alt' r => exists es1 l1 starts', es = errs ++ es1 /\ l = outs ++ l1 /\ log starts st (map l_err es1) l1 starts' r /\ alt_from starts' alt' /\ In r starts' /\
      exists es0 e0 l0, G r = PErr es0 e0 /\ alt' = Some l0 /\ l_rem l0 <= l_rem e0
  | PErr _ _ => False
  | PPanic => True
  end.
Proof.
  induction fuel as [|fuel IH]; intros old errs outs alt starts st A; [exact I|]. cbn [p_rep]. unfold p_recover at 1. destruct (G st) as [es s al r|es e|] eqn:E; [| |exact I].
  - destruct (match old with Some _ => _ | None => _ end); [exact I|].
    specialize (IH (Some (length r)) (errs ++ es) (outs ++ [s]) (merge_alts alt al) (st :: starts) r). destruct (p_rep fuel _ _ _ _ _ _ _) as [es' l alt' r'|es' e'|]; [| |exact I].
    + destruct IH as (es1 & l1 & starts' & -> & -> & H1 & H2).
      { apply alt_merge; [eapply alt_more; [|exact A]; intros q [->|Hq]; cbn; auto|]. eapply alt_statement; [exact E|cbn; auto|cbn; auto]. }
      exists (es ++ es1), (s :: l1), starts'. rewrite <- !app_assoc. split; [reflexivity|]. split; [reflexivity|]. split; [|exact H2]. rewrite map_app. destruct (ok_next _ _ _ _ _ E) as [N B].
      eapply lg_next; [exact N|exact B|apply map_length|exact H1].
    + apply IH. apply alt_merge; [eapply alt_more; [|exact A]; intros q [->|Hq]; cbn; auto|]. eapply alt_statement; [exact E|cbn; auto|cbn; auto].
  - pose proof (retry_log es e (match st with [] => [] | _ :: r => r end)) as K. destruct (p_retry G es e _) as [es2 s al r|es2 e2|]; [| |exact I].
    + destruct K as (g & q & more & Eq & -> & Eg & Hu). destruct (match old with Some _ => _ | None => _ end); [exact I|].
      destruct st as [|x st].
      { exfalso. symmetry in Eq. apply app_eq_nil in Eq as [-> ->]. rewrite Eg in E. discriminate. }
      subst st. specialize (IH (Some (length r)) (errs ++ more ++ [e]) (outs ++ [s]) (merge_alts alt al) (q :: ((x :: g) ++ q) :: starts) r).
      assert (A' : alt_from (r :: q :: ((x :: g) ++ q) :: starts) (merge_alts alt al)).
      { apply alt_merge; [eapply alt_more; [|exact A]; intros q0 [Hq|Hq]; [right; right; left; exact Hq|cbn; auto]|]. eapply alt_statement; [exact Eg|cbn; auto|cbn; auto]. }
      destruct (p_rep fuel _ _ _ _ _ _ _) as [es' l alt' r'|es' e'|]; [|exact (IH A')|exact I].
      destruct (IH A') as (es1 & l1 & starts' & -> & -> & H1 & H2). exists ((more ++ [e]) ++ es1), (s :: l1), starts'. rewrite <- !app_assoc. split; [reflexivity|]. split; [reflexivity|]. split; [|exact H2].
      rewrite !map_app. cbn [map app]. destruct (ok_next _ _ _ _ _ Eg) as [N B]. change (x :: g ++ q) with ((x :: g) ++ q).
      eapply lg_skip; [discriminate| |exact (fail_stuck _ _ _ E)|exact N|exact B|apply map_length|exact H1].
      intros g1 g2 K1 Hn. destruct g1 as [|y g1]; [cbn in K1; subst g2; exact (err_unreadable _ _ _ E)|]. injection K1 as <- K1. exact (Hu g1 g2 K1 Hn).
    + destruct K as [-> K]. replace (length outs <? 0) with false by reflexivity. exists [], [], (st :: starts). rewrite !app_nil_r. split; [reflexivity|]. split; [reflexivity|]. split; [|split; [|split]].
      * constructor. intros g r K1. destruct st as [|x st]; [exact (K g r K1)|]. destruct g as [|y g]; [cbn in K1; subst r; exact (err_unreadable _ _ _ E)|]. injection K1 as <- K1. exact (K g r K1).
      * apply alt_merge; [exact A|]. pose proof (statement_reach eoi st) as S. rewrite E in S. exact (alt_spoken (st :: starts) st e (in_eq _ _) S).
      * left. reflexivity.
      * exists es, e. destruct alt as [l|]; cbn [merge_alts]; eexists; (split; [exact E|]); (split; [reflexivity|]); [rewrite max_rem|]; lia.
Qed.

Definition tail_of (base q : list stoken) : Prop := exists p, base = p ++ q.
Lemma next_tail st s n r base : next st s n r -> tail_of base st -> tail_of base r.
Proof. intros (pre & seg & post & _ & _ & _ & _ & ->) [p ->]. exists (p ++ pre ++ seg ++ post). rewrite <- !app_assoc. reflexivity. Qed.
Lemma log_tails base starts st es l starts' r : log starts st es l starts' r -> Forall (tail_of base) (st :: starts) -> Forall (tail_of base) (r :: starts').
Proof.
  induction 1 as [starts st U|starts st s n rest es more l starts' r H1 H2 H3 _ IH|starts g st s n rest e es more l starts' r Hg Hu Hs H1 H2 H3 _ IH]; intros F; pose proof F as F0; inversion F as [|? ? F1 F2]; subst.
  - constructor; [exact F1|exact F0].
  - apply IH. constructor; [exact (next_tail _ _ _ _ _ H1 F1)|exact F0].
  - assert (F3 : tail_of base st) by (destruct F1 as [p ->]; exists (p ++ g); rewrite <- app_assoc; reflexivity).
    apply IH. constructor; [exact (next_tail _ _ _ _ _ H1 F3)|]. constructor; [exact F3|exact F0].
Qed.
Lemma module_faulty (st : list stoken) : match g_module eoi st with
  | POk es l alt r => faulty eoi [] st (Some l) (map l_err es)
  | PErr es e => faulty eoi [] st None (map l_err (es ++ [e]))
  | PPanic => True
  end.
Proof.
  pose proof (lax_module eoi st) as X. revert X. unfold g_module, p_then_ignore, p_map, p_then, p_repeated, p_repeated_at_least.
  pose proof (rep_log (length st + 3) None [] [] None [] st) as H. destruct (p_rep _ _ _ _ _ _ _ st) as [es l alt r|es e|]; [| |intros _; exact I].
  2:{ intros _. exfalso. apply H. intros ? K. discriminate. }
  destruct H as (es1 & l1 & starts' & -> & -> & HL & HA & Hr & es0 & e0 & l0 & HG & -> & Hle); [intros ? K; discriminate|]. cbn [app].
  unfold p_end. destruct r as [|[x sx] r]; cbn [app].
  - intros _. rewrite app_nil_r. pose proof (log_faulty _ _ _ _ _ _ HL (Some []) [] (or_introl (conj eq_refl (conj eq_refl eq_refl)))) as K. cbn [option_map] in K. rewrite !app_nil_r in K. exact K.
  - intros [X _]. rewrite app_nil_r. rewrite map_app. refine (log_faulty _ _ _ _ _ _ HL None _ (or_intror _)). split; [discriminate|]. split; [reflexivity|]. eexists. split; [reflexivity|].
    set (f := loc_max _ _) in *. destruct X as (p & y & E & L & N).
    assert (T : Forall (tail_of st) (((x, sx) :: r) :: starts')) by (apply (log_tails _ _ _ _ _ _ _ HL); constructor; [exists []; reflexivity|constructor]). destruct (Forall_inv T) as [p0 T1]. apply Forall_inv_tail in T as T2.
    assert (Hlen : length y <= l_rem e0) by (rewrite <- L; unfold f; rewrite max_rem; lia).
    pose proof (fwd_statement eoi ((x, sx) :: r)) as F. rewrite HG in F. destruct F as [F _]. apply place_le in F.
    assert (exists a, (x, sx) :: r = a ++ y) as [a Ea].
    { pose proof (eq_trans (eq_sym E) T1) as K. destruct (split_at _ _ _ _ K) as [(k & _ & K2)|(k & _ & K2)]; [exists k; exact K2|]. exists []. assert (length k = 0) as K3 by (apply (f_equal (@length _)) in K2; rewrite app_length in K2; lia). destruct k; [symmetry; exact K2|discriminate]. }
    exists a, y. split; [exact Ea|]. split; [apply named_about; exact N|]. split.
    + apply (further_hopeless a y es0 e0); [rewrite <- Ea; exact HG|exact Hlen].
    + assert (AF : alt_from starts' (Some f)).
      { unfold f. apply alt_max; [apply (alt_here _ ((x, sx) :: r)); [exact Hr|reflexivity]|exact HA]. }
      destruct (AF f eq_refl) as (q & b & y' & Hq & -> & L' & B). exists (b ++ y'), b. rewrite Forall_forall in T2. destruct (T2 _ Hq) as [p' T']. pose proof (eq_trans (eq_sym E) T') as K. rewrite app_assoc in K. apply same_split in K as [_ ->]; [|congruence].
      split; [exact Hq|]. split; [reflexivity|exact B].
Qed.
End S.

Lemma parse_faulty src toks o errs : parse_tokens src toks = Val (o, errs) -> faulty (mkSpan (byte_len src) (byte_len src + 1)) [] (without_comments toks) o errs.
Proof.
  intros E. unfold parse_tokens, parse_recovery in E. replace (filter not_comment toks) with (without_comments toks) in E by (apply filter_ext; intros [x sx]; destruct x; reflexivity).
  set (eoi := mkSpan _ _) in *. pose proof (module_faulty eoi (without_comments toks)) as M. destruct (g_module eoi (without_comments toks)) as [es b alt r|es e|]; [| |discriminate]; injection E as <- <-; exact M.
Qed.
Lemma faulty_salvage eoi starts toks o errs : faulty eoi starts toks o errs -> salvage toks o (length errs).
Proof.
  induction 1 as [|starts st s n rest es o more H _ <- _ IH|starts g st s n rest e es o more Hg Hu _ H _ <- _ IH|starts st e Hne Hu _]; [constructor| | |constructor; assumption].
  - rewrite app_length. eapply sv_next; [exact H|exact IH].
  - rewrite app_length. cbn [length]. replace (length es + S (length more)) with (1 + length es + length more) by lia. eapply sv_skip; [exact Hg|exact Hu|exact H|exact IH].
Qed.
Lemma document_faulty u src pr : parse_from_str u src = Val pr ->
  exists toks lerrs, tokenize u src = Val (toks, lerrs) /\
    match toks with
    | Some ts => exists o errs, faulty (mkSpan (byte_len src) (byte_len src + 1)) [] (without_comments ts) o errs /\ pr_stmts pr = match o with Some ss => ss | None => [] end /\
        pr_errors pr = map (simple_map (fun c => [c])) lerrs ++ map (simple_map token_display) errs
    | None => pr_stmts pr = [] /\ pr_errors pr = map (simple_map (fun c => [c])) lerrs
    end.
Proof.
  unfold parse_from_str. intros H. destruct (tokenize u src) as [[toks lerrs]|] eqn:T; [|discriminate]. cbn [rbind] in H. exists toks, lerrs. split; [reflexivity|].
  destruct toks as [ts|].
  - destruct (parse_tokens src ts) as [[o errs]|] eqn:E; [|discriminate]. cbn [rbind] in H. injection H as <-. exists o, errs. split; [exact (parse_faulty _ _ _ _ E)|]. split; reflexivity.
  - cbn [rbind] in H. injection H as <-. split; [reflexivity|]. cbn [pr_errors map]. apply app_nil_r.
Qed.
(** Each error separately. *)
Lemma stuck_from eoi starts toks o errs : faulty eoi starts toks o errs -> forall e, In e errs ->
  (exists st, (exists p, toks = p ++ st) /\ unreadable st /\ exists a y, st = a ++ y /\ about eoi y e /\ hopeless_at a y) \/
  (exists st s n rest i, (exists p, toks = p ++ st) /\ next st s n rest /\ In i (instructions [s]) /\ e_span e = snd (i_instr i) /\ faults_name (fst (i_instr i)) e).
Proof.
  assert (B : forall l es, blames l es -> forall e, In e es -> exists i, In i l /\ e_span e = snd (i_instr i) /\ faults_name (fst (i_instr i)) e).
  { induction 1 as [|i l es H IH|i l e es H1 H2 H IH]; intros e0 He; [contradiction|destruct (IH e0 He) as (j & J & K); exists j; split; [right; exact J|exact K]|].
    destruct He as [<-|He]; [exists i; split; [left; reflexivity|auto]|]. destruct (IH e0 He) as (j & J & K); exists j; split; [right; exact J|exact K]. }
  assert (T : forall (toks rest : list stoken) st s n, next st s n rest -> (exists p, toks = p ++ st) -> exists p, toks = p ++ rest) by (intros t r st s n H K; exact (next_tail _ _ _ _ t H K)).
  assert (P : forall (toks rest : list stoken) e, (exists p, toks = p ++ rest) -> 
    (exists st, (exists p, rest = p ++ st) /\ unreadable st /\ exists a y, st = a ++ y /\ about eoi y e /\ hopeless_at a y) \/
    (exists st s n r i, (exists p, rest = p ++ st) /\ next st s n r /\ In i (instructions [s]) /\ e_span e = snd (i_instr i) /\ faults_name (fst (i_instr i)) e) ->
    (exists st, (exists p, toks = p ++ st) /\ unreadable st /\ exists a y, st = a ++ y /\ about eoi y e /\ hopeless_at a y) \/
    (exists st s n r i, (exists p, toks = p ++ st) /\ next st s n r /\ In i (instructions [s]) /\ e_span e = snd (i_instr i) /\ faults_name (fst (i_instr i)) e)).
  { intros t r e [p ->] [(st & (q & ->) & K)|(st & s & n & r' & i & (q & ->) & K)]; [left; exists st|right; exists st, s, n, r', i]; (split; [exists (p ++ q); rewrite app_assoc; reflexivity|exact K]). }
  induction 1 as [|starts st s n rest es o more H Hb _ _ IH|starts g st s n rest e1 es o more Hg Hu Hs H Hb _ _ IH|starts st e1 Hne Hu Hs]; intros e He.
  - contradiction.
  - apply in_app_or in He as [He|He].
    + destruct (B _ _ Hb e He) as (i & K). right. exists st, s, n, rest, i. split; [exists []; reflexivity|]. auto.
    + apply (P _ rest); [apply (T _ _ _ _ _ H); exists []; reflexivity|exact (IH e He)].
  - apply in_app_or in He as [He|[<-|He]].
    + destruct (B _ _ Hb e He) as (i & K). right. exists st, s, n, rest, i. split; [exists g; reflexivity|]. auto.
    + left. exists (g ++ st). split; [exists []; reflexivity|]. split; [exact (Hu [] g eq_refl Hg)|]. destruct Hs as (a & y & S1 & S2 & _ & S3). exists a, y. auto.
    + apply (P _ rest); [apply (T _ _ _ _ _ H); exists g; reflexivity|exact (IH e He)].
  - destruct He as [<-|[]]. left. exists st. split; [exists []; reflexivity|]. split; [exact (Hu [] st eq_refl)|]. destruct Hs as (a & y & S1 & S2 & S3 & _). exists a, y. auto.
Qed.
