(** What the first syntax error of a document asks for. *)
From Coq Require Import Permutation.
From Verif Require Import Text Chumsky Tokenizer Parser Rope Numbers Index Diag SpecLex SpecParse SpecExact SpecFault SpecViable SpecSeed SpecHelp PText PLexSpec PLexProps PTokens PChumsky PParseProps PRope PIndexDoc PParse PGram PSound PComplete PExact PPlace PFurther PHopeless PViable PViableDoc PHelp.

Definition helps (a : list stoken) (e : simple token) : Prop :=
  Forall (fun o => match o with Some y => fits a y | None => finished a end) (e_expected e) /\
  match e_reason e with CustomMsg m => exists good, demand m good /\ forall t, good t -> fits a t | Unexpected => True end.
Section Doc.
Variable eoi : span.
Definition hspot (st : strm) (e : located token) : Prop := exists a y, st = a ++ y /\ l_rem e = length y /\ helps a (l_err e).
Lemma nls_asks st : match g_nls eoi st with POk _ _ al r => al = Some (err_here eoi r [Some TNewline]) | PErr _ _ => False | PPanic => True end.
Proof.
  unfold g_nls, p_repeated, p_repeated_at_least. match goal with |- context [p_rep ?f _ _ _ _ _ _ _] => generalize f end. intros fuel.
  assert (G : forall old errs outs, match p_rep fuel (p_just token_eqb eoi TNewline) 0 old errs outs None st with POk _ _ al r => al = Some (err_here eoi r [Some TNewline]) | PErr _ _ => False | PPanic => True end); [|apply G].
  revert st. induction fuel as [|fuel IH]; intros st old errs outs; [exact I|]. cbn [p_rep]. destruct st as [|[t sp] st]; unfold p_just at 1.
  - destruct (length outs); cbn [Nat.ltb Nat.leb]; reflexivity.
  - destruct (token_eqb t TNewline).
    + destruct (match old with Some k => k =? _ | None => false end); [exact I|]. cbn [merge_alts]. apply IH.
    + destruct (length outs); cbn [Nat.ltb Nat.leb]; reflexivity.
Qed.
Definition hspoken (st : strm) (e : located token) : Prop := hreach f_end (cat nls_ lstmt) st e.
Lemma statement_hreach st : match g_statement eoi st with
  | POk _ _ al r => exists al1, (forall l, al1 = Some l -> hspoken st l) /\ al = merge_alts al1 (Some (err_here eoi r [Some TNewline]))
  | PErr _ e => hspoken st e
  | PPanic => True
  end.
Proof.
  assert (V : hvia f_end (cat nls_ lstmt) (p_ignore_then (g_nls eoi) (g_stmt_alternatives eoi))).
  { apply hvia_map, hvia_then; [apply hvia_nls|apply hvia_choices|apply inh_lstmt]. }
  unfold g_statement. fold (g_stmt_alternatives eoi). unfold p_padded_by, p_then_ignore, p_map at 1, p_then at 1. specialize (V st).
  destruct (p_ignore_then _ _ st) as [es v al r|es e|]; [|exact V|exact I]. pose proof (nls_asks r) as N. destruct (g_nls eoi r) as [es' v' al' r'|es' e'|]; [|contradiction|exact I].
  destruct V as [_ V]. exists al. split; [exact V|]. subst al'. reflexivity.
Qed.
Lemma spoken_fits ss done pre y sp w : module_at ss done -> cat nls_ lstmt (pre ++ (y, sp) :: w) -> viable ((done ++ pre) ++ [(y, sp)]).
Proof.
  intros M (n1 & seg & X & N & s & n & S). apply star_newlines in N. rewrite <- app_assoc. replace (pre ++ (y, sp) :: w) with ((pre ++ [(y, sp)]) ++ w) in X by (rewrite <- app_assoc; reflexivity).
  destruct (split_at _ _ _ _ X) as [(k & E & K)|(k & E & K)].
  - exists ss, done, n1, k. split; [f_equal; exact E|]. split; [exact M|]. split; [exact N|]. exists w, s, n. rewrite <- K. exact S.
  - exists ss, done, (pre ++ [(y, sp)]), []. split; [rewrite app_nil_r; reflexivity|]. split; [exact M|]. split; [rewrite E in N; apply Forall_app in N; apply N|apply begins_nil].
Qed.
Lemma lead_hspoken st r e : lead eoi st r -> hspoken r e -> hspot st e.
Proof.
  intros L (pre & y & -> & R & [H1 H2]). apply lead_done in L as (ss & done & -> & M). exists (done ++ pre), y. split; [apply app_assoc|]. split; [exact R|]. split.
  - eapply Forall_impl; [|exact H1]. intros [t|] [[O P]|O]; try contradiction; [discriminate| |].
    + intros sp. destruct (O sp) as [w W]. eapply spoken_fits; eassumption.
    + destruct P as (n1 & seg & -> & N & S). apply star_newlines in N. exists ss, done, n1, seg. split; [reflexivity|]. split; [exact M|]. split; [exact N|]. right. exact S.
  - destruct (e_reason (l_err e)); [exact I|]. destruct H2 as (good & D & G). exists good. split; [exact D|]. intros t T sp. destruct (G t sp T) as [w W]. eapply spoken_fits; eassumption.
Qed.
Lemma lead_hspot st r : lead eoi st r -> forall ex, (forall o, In o ex -> o = Some TNewline \/ o = None) -> hspot st (err_here eoi r ex).
Proof.
  intros L ex X. apply lead_done in L as (ss & done & -> & M). exists done, r. split; [reflexivity|]. split; [destruct r as [|[? ?] ?]; reflexivity|].
  assert (H : Forall (fun o => match o with Some y => fits done y | None => finished done end) ex).
  { apply Forall_forall. intros o Ho. destruct (X o Ho) as [-> | ->].
    - intros sp. exists ss, done, [(TNewline, sp)], []. split; [reflexivity|]. split; [exact M|]. split; [constructor; [reflexivity|constructor]|apply begins_nil].
    - exists ss, done, [], []. split; [rewrite !app_nil_r; reflexivity|]. split; [exact M|]. split; [constructor|left; reflexivity]. }
  destruct r as [|[? ?] ?]; (split; [exact H|exact I]).
Qed.
Lemma hspot_max st a b : hspot st a -> (forall l, b = Some l -> hspot st l) -> hspot st (loc_max a b).
Proof.
  intros H K. destruct b as [b|]; [|exact H]. specialize (K b eq_refl). unfold loc_max. destruct (Nat.ltb_spec (l_rem a) (l_rem b)); [exact H|]. destruct (Nat.ltb_spec (l_rem b) (l_rem a)); [exact K|].
  destruct H as (pre & y & E & R & A1 & A2). destruct K as (pre' & y' & E' & R' & B1 & B2). subst st. destruct (same_split _ _ _ _ E') as [-> ->]; [lia|].
  exists pre', y'. split; [reflexivity|]. split; [exact R|]. split; [apply Forall_app; split; assumption|exact A2].
Qed.
Lemma hspot_alts st a b : (forall l, a = Some l -> hspot st l) -> (forall l, b = Some l -> hspot st l) -> forall l, merge_alts a b = Some l -> hspot st l.
Proof. intros H K l E. destruct a as [a|]; [|auto]. injection E as <-. apply hspot_max; [apply H; reflexivity|exact K]. Qed.
Lemma rep_hspot fuel : forall old outs alt (st0 st : strm), lead eoi st0 st -> (forall l, alt = Some l -> hspot st0 l) ->
  match p_rep fuel (p_recover (g_statement eoi)) 0 old [] outs alt st with
  | POk [] _ alt' r => lead eoi st0 r /\ forall l, alt' = Some l -> hspot st0 l
  | _ => True
  end.
Proof.
  induction fuel as [|fuel IH]; intros old outs alt st0 st H A; [exact I|]. cbn [p_rep]. unfold p_recover at 1.
  assert (K : forall f more q old outs alt, match p_rep fuel (p_recover (g_statement eoi)) 0 old (f :: more) outs alt q with POk [] _ _ _ => False | _ => True end).
  { clear. induction fuel as [|fuel IH]; intros f more q old outs alt; [exact I|]. cbn [p_rep]. destruct (p_recover (g_statement eoi) q) as [es a al r|es e|]; [| |exact I].
    - destruct (match old with Some n => n =? length r | None => false end); [exact I|]. cbn [app]. apply IH.
    - destruct (length outs); exact I. }
  pose proof (statement_hreach st) as S. destruct (g_statement eoi st) as [es a al r|es e|] eqn:G; [| |exact I].
  - destruct (match old with Some n => n =? length r | None => false end); [exact I|]. cbn [app]. destruct es as [|f more].
    + assert (L : lead eoi st0 r) by (apply (lead_snoc eoi _ a st); [exact H|]; rewrite G; reflexivity).
      apply IH; [exact L|]. apply hspot_alts; [exact A|]. destruct S as (al1 & S1 & ->). apply hspot_alts; [intros l El; apply (lead_hspoken st0 st); auto|]. intros l El. injection El as <-.
      apply lead_hspot; [exact L|]. intros o [<-|[]]. auto.
    + specialize (K f more r (Some (length r)) (outs ++ [a]) (merge_alts alt al)). destruct (p_rep _ _ _ _ _ _ _ _) as [[|g es] b al' q|es b|]; try contradiction; exact I.
  - pose proof (retry_cases (g_statement eoi) es e (match st with [] => [] | _ :: r => r end)) as R. destruct (p_retry _ _ _ _) as [es' a al r|es' e'|]; [| |exact I].
    + destruct R as (more & _ & _ & _ & _ & _ & -> & _ & _). destruct (match old with Some n => n =? length r | None => false end); [exact I|]. cbn [app].
      assert (exists f more2, more ++ [e] = f :: more2) as (f & more2 & ->) by (destruct more; cbn [app]; eauto).
      specialize (K f more2 r (Some (length r)) (outs ++ [a]) (merge_alts alt al)). destruct (p_rep _ _ _ _ _ _ _ _) as [[|g es2] b al' q|es2 b|]; try contradiction; exact I.
    + destruct R as [-> ->]. assert (Q : forall l, merge_alts alt (Some e) = Some l -> hspot st0 l).
      { apply hspot_alts; [exact A|]. intros l El. injection El as <-. apply (lead_hspoken st0 st); assumption. }
      destruct (length outs); cbn [Nat.ltb Nat.leb]; (split; [exact H|exact Q]).
Qed.
Lemma module_hspot st : match g_module eoi st with
  | POk (f :: _) _ _ _ => sec st f \/ hspot st f
  | PErr (f :: _) _ => sec st f \/ hspot st f
  | PErr [] f => hspot st f
  | _ => True
  end.
Proof.
  pose proof (module_first_error eoi st) as F.
  assert (Q : forall f, first_error eoi st f -> sec st f \/ hspot st f).
  { intros f [H|(r & es & L & G)]; [left; exact H|right]. pose proof (statement_hreach r) as S. rewrite G in S. exact (lead_hspoken st r f L S). }
  destruct (g_module eoi st) as [[|f es] a alt r|[|f es] e|] eqn:G; [exact I|apply Q; exact F| |apply Q; exact F|exact I]. clear F Q.
  revert G. unfold g_module, p_then_ignore, p_map, p_then, p_repeated, p_repeated_at_least. pose proof (rep_hspot (length st + 3) None [] None st st (lead_nil eoi _)) as H.
  specialize (H ltac:(discriminate)). pose proof (rep_lead eoi (length st + 3) None [] None st st (lead_nil eoi _)) as H0. destruct (p_rep _ _ _ _ _ _ _ st) as [[|f es] a alt r|es e0|]; [| |contradiction|discriminate].
  - destruct H as [L A]. unfold p_end. destruct r as [|[x sx] r]; [discriminate|]. cbn [app]. intros E. injection E as <-. apply hspot_max; [|exact A]. apply (lead_hspot st ((x, sx) :: r)); [exact L|]. intros o [<-|[]]. auto.
  - destruct (p_end eoi r); discriminate.
Qed.
End Doc.

(** ** Documents *)
Lemma first_helps u src toks terrs o e1 errs (a w : strm) : tokenize u src = Val (Some toks, terrs) -> parse_tokens src toks = Val (o, e1 :: errs) ->
  without_comments toks = a ++ w -> e_reason e1 <> CustomMsg not_overflow ->
  e_span e1 = match w with t :: _ => snd t | [] => mkSpan (byte_len src) (byte_len src + 1) end -> helps a e1.
Proof.
  intros Ht E Ew Er Es. unfold parse_tokens, parse_recovery in E. replace (filter not_comment toks) with (without_comments toks) in E by (apply filter_ext; intros [x sx]; destruct x; reflexivity).
  set (eoi := mkSpan _ _) in *. apply tokenize_spans in Ht. assert (Hs : spans_in 0 (length src) (without_comments toks)) by (eapply spans_in_sub; [apply subseq_filter|exact Ht]). rewrite Ew in Hs, E.
  assert (Hend : forall t, In t (a ++ w) -> snd t <> eoi).
  { intros t Hin K. apply (spans_in_each _ _ _ _ Hs) in Hin. rewrite K in Hin. unfold eoi in Hin. cbn [sp_start sp_end] in Hin. pose proof (length_le_byte_len src). lia. }
  assert (Hpos : forall f, stands eoi (a ++ w) f -> l_err f = e1 -> l_rem f = length w).
  { intros f (pre & y & E1 & E2 & E3) <-. destruct y as [|[tk sp] y].
    - destruct w as [|t w]; [exact E2|]. exfalso. destruct E3 as (E3 & _). apply (Hend t); [apply in_or_app; right; left; reflexivity|]. congruence.
    - destruct E3 as [E3 _]. destruct w as [|t w].
      + exfalso. apply (Hend (tk, sp)); [rewrite E1; apply in_or_app; right; left; reflexivity|]. cbn [snd]. congruence.
      + rewrite E2. cbn [length]. f_equal. apply (span_position _ a w pre y t (tk, sp) (spans_in_nodup _ _ _ Hs) eq_refl E1). cbn [snd]. congruence. }
  assert (Hspot : forall f, hspot (a ++ w) f -> l_rem f = length w -> helps a (l_err f)).
  { intros f (b & y & E1 & E2 & V) L. destruct (same_split _ _ _ _ E1) as [-> _]; [congruence|exact V]. }
  pose proof (module_hspot eoi (a ++ w)) as M. pose proof (lax_module eoi (a ++ w)) as X.
  destruct (g_module eoi (a ++ w)) as [es b alt r|es e|]; [| |discriminate].
  - injection E as _ E. destruct es as [|f es]; [discriminate|]. cbn [map] in E. injection E as E _. destruct M as [(m & _ & _ & K & _)|M]; [congruence|]. rewrite <- E. apply (Hspot f M). apply Hpos; [|exact E].
    destruct X as (_ & _ & X). inversion X as [|? ? [Y|(m & _ & _ & K & _)] _]; [exact Y|congruence].
  - injection E as _ E. destruct X as [X X2]. destruct es as [|f es]; cbn [app map] in E; injection E as E _; rewrite <- E.
    + apply (Hspot e M). apply Hpos; [exact X|exact E].
    + destruct M as [(m & _ & _ & K & _)|M]; [congruence|]. apply (Hspot f M). apply Hpos; [|exact E]. inversion X2 as [|? ? [Y|(m & _ & _ & K & _)] _]; [exact Y|congruence].
Qed.
Lemma marked_helps u src a t w e : marked u src a t w e -> helps a e.
Proof. intros (toks & terrs & o & errs & T & P & W & S & R). exact (first_helps u src toks terrs o e errs a (t :: w) T P W R S). Qed.

(** ** Messages *)
Lemma marked_advice ord u src a t w e : (forall l, incl (ord l) l) -> (forall l, l <> [] -> ord l <> []) -> marked u src a t w e -> advice a (parser_error_message ord (simple_map token_display e)).
Proof.
  intros O1 O2 M. pose proof (marked_helps _ _ _ _ _ _ M) as [H1 H2]. destruct M as (toks & terrs & o & errs & T & P & W & S & R).
  assert (F : e_reason e = Unexpected -> e_found e <> None).
  { intros Er. pose proof (parse_faults _ _ _ _ P) as Hf. inversion Hf as [|? ? [tk _ [_ [[_ F]|(m & good & _ & _ & F & _)]]|(F & _)|m _ (_ & F & _)] _]; [congruence|congruence| |congruence].
    exfalso. apply tokenize_spans in T. assert (Hs : spans_in 0 (length src) (without_comments toks)) by (eapply spans_in_sub; [apply subseq_filter|exact T]).
    assert (Hin : In t (without_comments toks)) by (rewrite W; apply in_or_app; right; left; reflexivity). apply (spans_in_each _ _ _ _ Hs) in Hin. rewrite <- S, F in Hin. cbn [sp_start sp_end] in Hin. pose proof (length_le_byte_len src). lia. }
  unfold parser_error_message. destruct e as [sp rs ex fd]. cbn [simple_map e_reason e_found e_expected] in *. destruct rs as [|m].
  - destruct fd as [fd|]; [|exfalso; apply F; reflexivity]. cbn [option_map]. destruct ex as [|x ex]; [apply ad_else; reflexivity|]. cbn [map].
    set (l := option_map token_display x :: map (option_map token_display) ex).
    apply (ad_list _ _ (map expected_text (ord (nodup opt_text_dec l)))).
    + intros K. apply map_eq_nil in K. apply (O2 (nodup opt_text_dec l)); [|exact K]. intros K2. assert (In (option_map token_display x) (nodup opt_text_dec l)) by (apply nodup_In; left; reflexivity). rewrite K2 in H. destruct H.
    + apply Forall_forall. intros y Hy. apply in_map_iff in Hy as (z & <- & Hz). apply O1, nodup_In in Hz. change l with (map (option_map token_display) (x :: ex)) in Hz. apply in_map_iff in Hz as (k & <- & Hk).
      rewrite Forall_forall in H1. specialize (H1 k Hk). destruct k as [k|]; [right; exists k; split; [reflexivity|exact H1]|left; split; [reflexivity|exact H1]].
    + rewrite app_assoc. reflexivity.
  - destruct H2 as (good & D & G). apply (ad_kind _ _ good); assumption.
Qed.
Lemma marked_token u src a t w e y : marked u src a t w e -> In (Some y) (e_expected e) -> fits a y.
Proof. intros M H. destruct (marked_helps _ _ _ _ _ _ M) as [H1 _]. rewrite Forall_forall in H1. exact (H1 _ H). Qed.
Lemma marked_end u src a t w e : marked u src a t w e -> In None (e_expected e) -> finished a.
Proof. intros M H. destruct (marked_helps _ _ _ _ _ _ M) as [H1 _]. rewrite Forall_forall in H1. exact (H1 _ H). Qed.
Lemma marked_message ord u src a t w e : lists_all ord -> marked u src a t w e -> advice a (parser_error_message ord (simple_map token_display e)).
Proof.
  intros O. apply marked_advice.
  - intros l x X. eapply Permutation_in; [apply O|exact X].
  - intros l N K. apply N. apply Permutation_nil. rewrite <- K. apply O.
Qed.
