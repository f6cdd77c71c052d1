(** What is in front of a syntax error can be continued. *)
From Verif Require Import Text Chumsky Tokenizer Parser SpecParse SpecExact SpecFault SpecViable PText PChumsky PSound PComplete PPlace.

(** ** Languages *)
Definition lang := list stoken -> Prop.
Definition eps : lang := fun x => x = [].
Definition sing (f : token -> Prop) : lang := fun x => exists t, x = [t] /\ f (fst t).
Definition cat (K L : lang) : lang := fun x => exists a b, x = a ++ b /\ K a /\ L b.
Definition alt (K L : lang) : lang := fun x => K x \/ L x.
Inductive star (L : lang) : lang := star_nil : star L [] | star_cons a b : L a -> star L b -> star L (a ++ b).
Definition plus (L : lang) : lang := cat L (star L).
Definition inh (L : lang) : Prop := exists x, L x.
Lemma inh_star L : inh (star L). Proof. exists []. constructor. Qed.
Lemma inh_cat K L : inh K -> inh L -> inh (cat K L). Proof. intros [a A] [b B]. exists (a ++ b), a, b. auto. Qed.
Lemma inh_eps : inh eps. Proof. exists []. reflexivity. Qed.
Lemma star_app L a b : star L a -> star L b -> star L (a ++ b).
Proof. induction 1 as [|x y X Y IH]; intros B; [exact B|]. rewrite <- app_assoc. constructor; auto. Qed.

Section One.
Variable eoi : span.

(** ** Parsers of languages: errors are behind something that can be continued *)
Definition reach (L : lang) (st : strm) (e : located token) : Prop := exists pre y w, st = pre ++ y /\ l_rem e = length y /\ L (pre ++ w).
Definition areach L st (al : option (located token)) : Prop := forall l, al = Some l -> reach L st l.
Definition via {A} (L : lang) (p : pp A) : Prop := forall st : strm,
  match p st with
  | POk _ _ al r => (exists pre, st = pre ++ r /\ L pre) /\ areach L st al
  | PErr _ e => reach L st e
  | PPanic => True
  end.

Lemma reach_weak (K L : lang) st e : (forall x, K x -> L x) -> reach K st e -> reach L st e.
Proof. intros H (pre & y & w & E & R & X). exists pre, y, w. auto. Qed.
Lemma via_weak {A} (K L : lang) (p : pp A) : (forall x, K x -> L x) -> via K p -> via L p.
Proof.
  intros H V st. specialize (V st). destruct (p st); [|eapply reach_weak; eassumption|exact I]. destruct V as ((pre & -> & X) & V).
  split; [exists pre; auto|]. intros l E. eapply reach_weak; [exact H|auto].
Qed.
Lemma reach_then (K L : lang) st e : reach K st e -> inh L -> reach (cat K L) st e.
Proof. intros (pre & y & w & -> & R & X) [z Z]. exists pre, y, (w ++ z). split; [reflexivity|]. split; [exact R|]. exists (pre ++ w), z. rewrite app_assoc. auto. Qed.
Lemma reach_after (K L : lang) a st e : K a -> reach L st e -> reach (cat K L) (a ++ st) e.
Proof. intros H (pre & y & w & -> & R & X). exists (a ++ pre), y, w. split; [apply app_assoc|]. split; [exact R|]. exists a, (pre ++ w). rewrite app_assoc. auto. Qed.
Lemma reach_max L st a b : reach L st a -> areach L st b -> reach L st (loc_max a b).
Proof.
  intros H K. destruct b as [b|]; [|exact H]. specialize (K b eq_refl). unfold loc_max. destruct (l_rem a <? l_rem b); [exact H|]. destruct (l_rem b <? l_rem a); [exact K|].
  destruct H as (pre & y & w & E & R & X). exists pre, y, w. auto.
Qed.
Lemma areach_none L st : areach L st None. Proof. discriminate. Qed.
Lemma areach_some L st e : reach L st e -> areach L st (Some e). Proof. intros H l E. injection E as <-. exact H. Qed.
Lemma areach_alts L st a b : areach L st a -> areach L st b -> areach L st (merge_alts a b).
Proof. intros H K. destruct a as [a|]; [|exact K]. apply areach_some, reach_max; [apply H; reflexivity|exact K]. Qed.
Lemma reach_here (L : lang) (st : strm) ex : inh L -> reach L st (err_here eoi st ex).
Proof. intros [x X]. exists [], st, x. split; [reflexivity|]. split; [|exact X]. destruct st as [|[t sp] st]; reflexivity. Qed.
Lemma reach_start (L : lang) (st : strm) e : inh L -> l_rem e = length st -> reach L st e.
Proof. intros [x X] R. exists [], st, x. auto. Qed.

Lemma via_just y : via (sing (eq y)) (p_just token_eqb eoi y).
Proof.
  assert (N : inh (sing (eq y))) by (exists [(y, mkSpan 0 0)], (y, mkSpan 0 0); auto).
  intros [|[t sp] st]; unfold p_just; [apply (reach_here _ [] _ N)|]. destruct (token_eqb_spec t y) as [->|E]; [|apply (reach_here _ ((t, sp) :: st) _ N)].
  split; [|apply areach_none]. exists [(y, sp)]. split; [reflexivity|]. exists (y, sp). auto.
Qed.
Lemma via_filter_map {A} (f : span -> token -> A + text) (g : token -> Prop) : inh (sing g) -> (forall sp t v, f sp t = inl v -> g t) -> via (sing g) (p_filter_map eoi f).
Proof.
  intros N H [|[t sp] st]; unfold p_filter_map; [apply (reach_here _ [] _ N)|]. destruct (f sp t) as [v|m] eqn:E; [|apply reach_start; [exact N|reflexivity]].
  split; [|apply areach_none]. exists [(t, sp)]. split; [reflexivity|]. exists (t, sp). split; [reflexivity|]. eapply H; exact E.
Qed.
Lemma via_none_of xs : inh (sing (fun t => ~ In t xs)) -> via (sing (fun t => ~ In t xs)) (p_none_of token_eqb eoi xs).
Proof.
  intros N [|[t sp] st]; unfold p_none_of; [apply (reach_here _ [] _ N)|]. destruct (existsb (token_eqb t) xs) eqn:E; [apply (reach_here _ ((t, sp) :: st) _ N)|].
  split; [|apply areach_none]. exists [(t, sp)]. split; [reflexivity|]. exists (t, sp). split; [reflexivity|]. cbn [fst]. intros H.
  rewrite (proj2 (existsb_exists _ _)) in E; [discriminate|]. exists t. split; [exact H|]. destruct (token_eqb_spec t t); congruence.
Qed.
Lemma via_any : via (sing (fun _ => True)) (p_any eoi).
Proof.
  assert (N : inh (sing (fun _ => True))) by (exists [(TNewline, mkSpan 0 0)], (TNewline, mkSpan 0 0); auto).
  intros [|[t sp] st]; unfold p_any, p_filter; [apply (reach_here _ [] _ N)|]. split; [|apply areach_none]. exists [(t, sp)]. split; [reflexivity|]. exists (t, sp). auto.
Qed.
Lemma via_end : via eps (p_end eoi).
Proof.
  intros [|[t sp] st]; unfold p_end; [split; [exists []; split; reflexivity|apply areach_none]|]. apply (reach_here _ ((t, sp) :: st)), inh_eps.
Qed.
Lemma via_map {A B} L (p : pp A) (g : A -> B) : via L p -> via L (p_map p g).
Proof. intros V st. specialize (V st). unfold p_map. destruct (p st); exact V. Qed.
Lemma via_span {A B} L (p : pp A) (g : A -> span -> B) : via L p -> via L (p_map_with_span eoi p g).
Proof. intros V st. specialize (V st). unfold p_map_with_span. destruct (p st); exact V. Qed.
Lemma via_validate {A} L (p : pp A) g : via L p -> via L (p_validate eoi p g).
Proof. intros V st. specialize (V st). unfold p_validate. destruct (p st); [|exact V|exact I]. destruct (g out); exact V. Qed.
Lemma via_then {A B} K L (p : pp A) (q : pp B) : via K p -> via L q -> inh L -> via (cat K L) (p_then p q).
Proof.
  intros P Q N st. specialize (P st). unfold p_then. destruct (p st) as [es v al r|es e|]; [|apply reach_then; assumption|exact I].
  destruct P as ((pre & -> & X) & P). specialize (Q r). destruct (q r) as [es' v' al' r'|es' e'|]; [| |exact I].
  - destruct Q as ((pre' & -> & Y) & Q). split; [exists (pre ++ pre'); split; [apply app_assoc|exists pre, pre'; auto]|].
    apply areach_alts; [intros l E; apply reach_then; auto|]. intros l E. apply reach_after; auto.
  - apply reach_max; [apply reach_after; assumption|]. intros l E. apply reach_then; auto.
Qed.
Lemma via_or {A} K L (p q : pp A) : via K p -> via L q -> via (alt K L) (p_or p q).
Proof.
  intros P Q st. apply (via_weak _ (alt K L)) in P; [|unfold alt; auto]. apply (via_weak _ (alt K L)) in Q; [|unfold alt; auto]. specialize (P st). specialize (Q st). unfold p_or.
  destruct (p st) as [[|y es] v al r|es e|]; [exact P| | |exact I].
  - destruct (q st) as [[|y' es'] v' al' r'|es' e'|]; [exact Q| | |exact I].
    + destruct (_ <? _); [exact Q|exact P].
    + destruct P as [P1 P2]. split; [exact P1|]. apply areach_alts; [exact P2|apply areach_some; exact Q].
  - destruct (q st) as [[|y' es'] v' al' r'|es' e'|]; [exact Q| | |exact I].
    + destruct Q as [Q1 Q2]. split; [exact Q1|]. apply areach_alts; [exact Q2|apply areach_some; exact P].
    + destruct (l_rem e' <? l_rem e); [exact Q|]. destruct (l_rem e <? l_rem e'); [exact P|]. apply reach_max; [exact P|apply areach_some; exact Q].
Qed.
Lemma via_or_not {A} L (p : pp A) : via L p -> via (alt eps L) (p_or_not p).
Proof.
  intros P st. apply (via_weak _ (alt eps L)) in P; [|unfold alt; auto]. specialize (P st). unfold p_or_not. destruct (p st) as [es v al r|es e|]; [exact P| |exact I].
  split; [exists []; split; [reflexivity|left; reflexivity]|apply areach_some; exact P].
Qed.
(** looking ahead reads nothing *)
Lemma via_rewind {A} f (p : pp A) : via (sing f) p -> (forall st es v al r, p st = POk es v al r -> al = None) -> (forall st es e, p st = PErr es e -> l_rem e = length st) -> via eps (p_rewind p).
Proof.
  intros P S F st. specialize (P st). specialize (S st). specialize (F st). unfold p_rewind. destruct (p st) as [es v al r|es e|]; [| |exact I].
  - rewrite (S _ _ _ _ eq_refl). split; [exists []; split; reflexivity|apply areach_none].
  - apply reach_start; [apply inh_eps|]. eapply F; reflexivity.
Qed.
Lemma reach_star L a st e : star L a -> reach L st e -> reach (star L) (a ++ st) e.
Proof.
  intros H (pre & y & w & -> & R & X). exists (a ++ pre), y, w. split; [apply app_assoc|]. split; [exact R|]. rewrite <- app_assoc. apply star_app; [exact H|].
  rewrite <- (app_nil_r (pre ++ w)). constructor; [exact X|constructor].
Qed.
Lemma rep_via {A} L (p : pp A) n : via L p -> forall fuel old errs outs al st0 a st, st0 = a ++ st -> star L a -> areach (star L) st0 al ->
  match p_rep fuel p n old errs outs al st with
  | POk _ _ al' r => (exists pre, st0 = pre ++ r /\ star L pre) /\ areach (star L) st0 al'
  | PErr _ e => reach (star L) st0 e
  | PPanic => True
  end.
Proof.
  intros P. induction fuel as [|fuel IH]; intros old errs outs al st0 a st E H R; [exact I|]. cbn [p_rep]. specialize (P st). destruct (p st) as [es v al' r|es e|]; [| |exact I].
  - destruct (match old with Some k => k =? length r | None => false end); [exact I|]. destruct P as ((pre & -> & X) & P).
    apply (IH _ _ _ _ st0 (a ++ pre) r); [subst st0; apply app_assoc| |].
    + apply star_app; [exact H|]. rewrite <- (app_nil_r pre). constructor; [exact X|constructor].
    + apply areach_alts; [exact R|]. intros l El. subst st0. apply reach_star; auto.
  - assert (Q : reach (star L) st0 e) by (subst st0; apply reach_star; assumption). destruct (_ <? _); [apply reach_max; assumption|].
    split; [exists a; auto|]. apply areach_alts; [exact R|apply areach_some; exact Q].
Qed.
Lemma via_repeated {A} L (p : pp A) : via L p -> via (star L) (p_repeated p).
Proof. intros P st. unfold p_repeated, p_repeated_at_least. apply (rep_via L p 0 P _ _ _ _ _ st [] st eq_refl); [constructor|apply areach_none]. Qed.
Lemma plus_of L a : star L a -> a <> [] -> plus L a.
Proof. intros [|x y X Y] N; [congruence|]. exists x, y. auto. Qed.
Lemma star_plus (L : lang) a z : star L a -> L z -> plus L (a ++ z).
Proof. intros H Z. destruct H as [|x y X Y]; [exists z, []; split; [rewrite app_nil_r; reflexivity|split; [exact Z|constructor]]|]. exists x, (y ++ z). split; [rewrite app_assoc; reflexivity|]. split; [exact X|]. apply star_app; [exact Y|]. rewrite <- (app_nil_r z). constructor; [exact Z|constructor]. Qed.
Lemma reach_plus L st e : inh L -> reach (star L) st e -> reach (plus L) st e.
Proof. intros [z Z] (pre & y & w & E & R & X). exists pre, y, (w ++ z). split; [exact E|]. split; [exact R|]. rewrite app_assoc. apply star_plus; assumption. Qed.
Lemma rep1_some {A} (p : pp A) : forall fuel old errs outs al st es v al' r, p_rep fuel p 1 old errs outs al st = POk es v al' r ->
  (outs = [] -> exists es1 a al1 r1, p st = POk es1 a al1 r1).
Proof.
  intros [|fuel] old errs outs al st es v al' r H N; [discriminate|]. cbn [p_rep] in H. destruct (p st) as [es1 a al1 r1|es1 e|]; [eauto| |discriminate]. subst outs. discriminate.
Qed.
Lemma via_repeated1 {A} L (p : pp A) : via L p -> inh L -> via (plus L) (p_repeated_at_least 1 p).
Proof.
  intros P N st. unfold p_repeated_at_least. match goal with |- context [p_rep ?f _ _ _ _ _ _ _] => generalize f end. intros [|fuel]; [exact I|]. cbn [p_rep]. pose proof (P st) as P1. destruct (p st) as [es v al r|es e|]; [| |exact I].
  - destruct P1 as ((pre & -> & X) & P1). assert (X1 : star L pre) by (rewrite <- (app_nil_r pre); constructor; [exact X|constructor]).
    assert (Q2 : forall fuel old errs outs al' st2 a, r = a ++ st2 -> star L a -> outs <> [] -> areach (plus L) (pre ++ r) al' ->
      match p_rep fuel p 1 old errs outs al' st2 with
      | POk _ _ al'' r' => (exists pre', pre ++ r = pre' ++ r' /\ plus L pre') /\ areach (plus L) (pre ++ r) al''
      | PErr _ e => reach (plus L) (pre ++ r) e
      | PPanic => True end).
    { clear fuel. induction fuel as [|fuel IH]; intros old errs outs al' st2 a E H Ho R; [exact I|]. cbn [p_rep]. pose proof (P st2) as P2. destruct (p st2) as [es2 v2 al2 r2|es2 e2|]; [| |exact I].
      - destruct (match old with Some k => k =? length r2 | None => false end); [exact I|]. destruct P2 as ((pre2 & -> & X2) & P2).
        apply (IH _ _ _ _ r2 (a ++ pre2)); [subst r; apply app_assoc| |destruct outs; discriminate|].
        + apply star_app; [exact H|]. rewrite <- (app_nil_r pre2). constructor; [exact X2|constructor].
        + apply areach_alts; [exact R|]. intros l El. subst r. apply reach_plus; [exact N|]. rewrite app_assoc. apply reach_star; [apply star_app; assumption|auto].
      - assert (Q : reach (plus L) (pre ++ r) e2) by (subst r; apply reach_plus; [exact N|]; rewrite app_assoc; apply reach_star; [apply star_app; assumption|exact P2]).
        destruct outs as [|o outs]; [congruence|]. cbn [length Nat.ltb Nat.leb]. split; [exists (pre ++ a); split; [subst r; apply app_assoc|exists pre, a; auto]|].
        apply areach_alts; [exact R|apply areach_some; exact Q]. }
    apply (Q2 fuel (Some (length r)) es [v] (merge_alts None al) r [] eq_refl (star_nil _)); [discriminate|].
    apply areach_alts; [apply areach_none|]. intros l El. apply reach_plus; [exact N|]. apply (reach_star L [] (pre ++ r)); [constructor|auto].
  - cbn [length Nat.ltb Nat.leb]. apply reach_max; [|apply areach_none]. apply reach_plus; [exact N|]. apply (reach_star L [] st); [constructor|exact P1].
Qed.

(** lists with separators *)
Definition seps (I S : lang) : lang := alt eps (cat I (star (cat S I))).
Lemma sep_via {A B} I S (item : pp A) (sep : pp B) : via I item -> via S sep -> inh I -> forall fuel errs outs al st0 a st, st0 = a ++ st ->
  cat I (star (cat S I)) a -> areach (cat I (star (cat S I))) st0 al ->
  match p_sep_tail fuel item sep errs outs al st with
  | POk _ _ al' r => (exists pre, st0 = pre ++ r /\ cat I (star (cat S I)) pre) /\ areach (cat I (star (cat S I))) st0 al'
  | PErr _ e => reach (cat I (star (cat S I))) st0 e
  | PPanic => True
  end.
Proof.
  intros P Q N. assert (G : forall a x, cat I (star (cat S I)) a -> cat S I x -> cat I (star (cat S I)) (a ++ x)).
  { intros a x (b & c & -> & B1 & C1) X. exists b, (c ++ x). split; [rewrite app_assoc; reflexivity|]. split; [exact B1|]. apply star_app; [exact C1|]. rewrite <- (app_nil_r x). constructor; [exact X|constructor]. }
  assert (G2 : forall a st e, cat I (star (cat S I)) a -> reach (cat S I) st e -> reach (cat I (star (cat S I))) (a ++ st) e).
  { intros a st e H (pre & y & w & -> & R & X). exists (a ++ pre), y, w. split; [apply app_assoc|]. split; [exact R|]. rewrite <- app_assoc. apply G; assumption. }
  induction fuel as [|fuel IH]; intros errs outs al st0 a st E H R; [exact Logic.I|]. cbn [p_sep_tail]. specialize (Q st). destruct (sep st) as [es v al1 r|es e|]; [| |exact Logic.I].
  - destruct Q as ((pre & -> & X) & Q). specialize (P r). destruct (item r) as [es' v' al2 r'|es' e'|]; [| |exact Logic.I].
    + destruct P as ((pre' & -> & Y) & P). apply (IH _ _ _ st0 (a ++ pre ++ pre') r'); [subst st0; rewrite <- !app_assoc; reflexivity|apply G; [exact H|exists pre, pre'; auto]|].
      subst st0. apply areach_alts; [apply areach_alts; [exact R|]|]; intros l El; (apply G2; [exact H|]); [apply reach_then; auto|apply reach_after; auto].
    + split; [exists a; auto|]. subst st0. apply areach_alts; [apply areach_alts; [exact R|]|]; [intros l El|apply areach_some]; (apply G2; [exact H|]); [apply reach_then; auto|apply reach_after; auto].
  - split; [exists a; auto|]. subst st0. apply areach_alts; [exact R|apply areach_some]. apply G2; [exact H|]. apply reach_then; assumption.
Qed.
Lemma via_separated {A B} I S (item : pp A) (sep : pp B) : via I item -> via S sep -> inh I -> via (seps I S) (p_separated_by item sep).
Proof.
  intros P Q N st. unfold p_separated_by. pose proof (P st) as P1. assert (W : forall x, I x -> seps I S x) by (intros x X; right; exists x, []; split; [rewrite app_nil_r; reflexivity|split; [exact X|constructor]]).
  destruct (item st) as [es v al r|es e|]; [| |exact Logic.I].
  - destruct P1 as ((pre & -> & X) & P1). pose proof (sep_via I S item sep P Q N (length (pre ++ r) + 3) es [v] al (pre ++ r) pre r eq_refl) as V.
    assert (X1 : cat I (star (cat S I)) pre) by (exists pre, []; split; [rewrite app_nil_r; reflexivity|split; [exact X|constructor]]). specialize (V X1).
    assert (R : areach (cat I (star (cat S I))) (pre ++ r) al) by (intros l El; apply (reach_weak I); [|auto]; intros x Hx; exists x, []; split; [rewrite app_nil_r; reflexivity|split; [exact Hx|constructor]]).
    specialize (V R). destruct (p_sep_tail _ _ _ _ _ _ _) as [es' v' al' r'|es' e'|]; [| |exact Logic.I].
    + destruct V as ((pre' & E & Y) & V). split; [exists pre'; split; [exact E|right; exact Y]|]. intros l El. apply (reach_weak (cat I (star (cat S I)))); [right; assumption|auto].
    + apply (reach_weak (cat I (star (cat S I)))); [right; assumption|auto].
  - split; [exists []; split; [reflexivity|left; reflexivity]|]. apply areach_some. apply (reach_weak I); assumption.
Qed.

(** ** The grammar *)
Definition isg (t : token) := exists x, t = TGlobalName x.
Definition isl (t : token) := exists x, t = TLocalName x.
Definition ist (t : token) := exists x, t = TType x.
Definition isi (t : token) := exists x, t = TIdent x.
Definition isd (t : token) := exists x, t = TDebugRef x.
Definition ish (t : token) := exists x, t = THexNum x.
Definition ism (t : token) := exists x, t = TFuncModifier x.
Lemma inh_sing (f : token -> Prop) t : f t -> inh (sing f). Proof. intros H. exists [(t, mkSpan 0 0)], (t, mkSpan 0 0). auto. Qed.
Lemma inh_isg : inh (sing isg). Proof. apply (inh_sing _ (TGlobalName [])). eexists; reflexivity. Qed.
Lemma inh_isl : inh (sing isl). Proof. apply (inh_sing _ (TLocalName [])). eexists; reflexivity. Qed.
Lemma inh_ist : inh (sing ist). Proof. apply (inh_sing _ (TType [])). eexists; reflexivity. Qed.
Lemma inh_isi : inh (sing isi). Proof. apply (inh_sing _ (TIdent [])). eexists; reflexivity. Qed.
Lemma inh_isd : inh (sing isd). Proof. apply (inh_sing _ (TDebugRef [])). eexists; reflexivity. Qed.
Lemma inh_ish : inh (sing ish). Proof. apply (inh_sing _ (THexNum [])). eexists; reflexivity. Qed.
Lemma inh_ism : inh (sing ism). Proof. apply (inh_sing _ (TFuncModifier [])). eexists; reflexivity. Qed.
Lemma inh_eq y : inh (sing (eq y)). Proof. apply (inh_sing _ y). reflexivity. Qed.
Lemma inh_true : inh (sing (fun _ => True)). Proof. apply (inh_sing _ TNewline). exact I. Qed.
Lemma inh_alt_l K L : inh K -> inh (alt K L). Proof. intros [x X]. exists x. left. exact X. Qed.
Lemma inh_none (xs : list token) t : ~ In t xs -> inh (sing (fun t => ~ In t xs)). Proof. intros H. apply (inh_sing _ t). exact H. Qed.
Definition key (k : text) : lang := fun x => exists m, x = [tident m] /\ fst m = k.
Lemma inh_key k : inh (key k). Proof. exists [tident (k, mkSpan 0 0)], (k, mkSpan 0 0). auto. Qed.
Lemma via_key k : via (key k) (g_kw_spanned eoi k).
Proof. eapply via_weak; [|apply via_span, via_just]. intros x ([t sp] & -> & E). cbn [fst] in E. subst t. exists (k, sp). auto. Qed.
Ltac inh :=
  lazymatch goal with
  | |- inh (sing isg) => apply inh_isg
  | |- inh (sing isl) => apply inh_isl
  | |- inh (sing ist) => apply inh_ist
  | |- inh (sing isi) => apply inh_isi
  | |- inh (sing isd) => apply inh_isd
  | |- inh (sing ish) => apply inh_ish
  | |- inh (sing ism) => apply inh_ism
  | |- inh (sing (eq _)) => apply inh_eq
  | |- inh (sing (fun _ => True)) => apply inh_true
  | |- inh (sing (fun t => ~ In t _)) => first [apply (inh_none _ (TNum [])); intros [H|H]; (repeat destruct H as [H|H]); try discriminate; try contradiction]
  | |- inh (key _) => apply inh_key
  | |- inh (star _) => apply inh_star
  | |- inh eps => apply inh_eps
  | |- inh (plus _) => apply inh_cat; [inh|apply inh_star]
  | |- inh (cat _ _) => apply inh_cat; inh
  | |- inh (alt _ _) => apply inh_alt_l; inh
  | |- inh (seps _ _) => apply inh_alt_l; inh
  end.
Ltac fm := apply via_filter_map; [inh|]; intros sp t v H; destruct t; try discriminate; eexists; reflexivity.
Lemma via_modifier : via (sing ism) (g_func_modifier eoi). Proof. fm. Qed.
Lemma via_global : via (sing isg) (g_global_name eoi). Proof. fm. Qed.
Lemma via_local : via (sing isl) (g_local_name eoi). Proof. fm. Qed.
Lemma via_type : via (sing ist) (g_type eoi). Proof. fm. Qed.
Lemma via_ident : via (sing isi) (g_ident eoi). Proof. fm. Qed.
Lemma via_dbg : via (sing isd) (g_dbg_ref eoi). Proof. fm. Qed.
Lemma via_hex : via (sing ish) (g_hexnum eoi). Proof. fm. Qed.
Lemma via_eol : via (alt (sing (eq TNewline)) eps) (g_eol eoi).
Proof. apply via_or; [apply via_just|apply via_map, via_end]. Qed.
Lemma via_ahead : via eps (g_nl_ahead eoi).
Proof.
  apply (via_rewind (eq TNewline)); [apply via_just| |].
  - intros [|[t sp] st] es v al r E; unfold p_just in E; [discriminate|]. destruct (token_eqb t TNewline); [injection E as _ _ <- _; reflexivity|discriminate].
  - intros [|[t sp] st] es e E; unfold p_just in E; [injection E as _ <-; reflexivity|]. destruct (token_eqb t TNewline); [discriminate|injection E as _ <-; reflexivity].
Qed.
Ltac via :=
  lazymatch goal with
  | |- via _ (g_func_modifier _) => apply via_modifier
  | |- via _ (g_global_name _) => apply via_global
  | |- via _ (g_local_name _) => apply via_local
  | |- via _ (g_type _) => apply via_type
  | |- via _ (g_ident _) => apply via_ident
  | |- via _ (g_dbg_ref _) => apply via_dbg
  | |- via _ (g_hexnum _) => apply via_hex
  | |- via _ (g_eol _) => apply via_eol
  | |- via _ (g_nl_ahead _) => apply via_ahead
  | |- via _ (g_kw_spanned _ _) => apply via_key
  | |- via _ (p_just _ _ _) => apply via_just
  | |- via _ (p_none_of _ _ _) => apply via_none_of; inh
  | |- via _ (p_any _) => apply via_any
  | |- via _ (p_map _ _) => apply via_map; via
  | |- via _ (p_map_with_span _ _ _) => apply via_span; via
  | |- via _ (p_validate _ _ _) => apply via_validate; via
  | |- via _ (p_then_ignore _ _) => apply via_map; via
  | |- via _ (p_ignore_then _ _) => apply via_map; via
  | |- via _ (p_delimited_by _ _ _) => apply via_map; via
  | |- via _ (p_padded_by _ _) => apply via_map; via
  | |- via _ (p_then _ _) => eapply via_then; [via|via|inh]
  | |- via _ (p_or _ _) => eapply via_or; [via|via]
  | |- via _ (p_or_not _) => eapply via_or_not; via
  | |- via _ (p_repeated _) => eapply via_repeated; via
  | |- via _ (p_repeated_at_least 1 _) => eapply via_repeated1; [via|inh]
  | |- via _ (p_separated_by _ _) => eapply via_separated; [via|via|inh]
  | |- via _ ?p => let h := head_of p in unfold h; via
  end
with head_of p := lazymatch p with ?f _ => head_of f | ?f => f end.
Lemma get_g x : sing isg x -> exists n, x = [tglobal n]. Proof. intros ([t sp] & -> & n & E). cbn [fst] in E. subst t. exists (n, sp). reflexivity. Qed.
Lemma get_l x : sing isl x -> exists n, x = [tlocal n]. Proof. intros ([t sp] & -> & n & E). cbn [fst] in E. subst t. exists (n, sp). reflexivity. Qed.
Lemma get_t x : sing ist x -> exists n, x = [ttype n]. Proof. intros ([t sp] & -> & n & E). cbn [fst] in E. subst t. exists (n, sp). reflexivity. Qed.
Lemma get_i x : sing isi x -> exists n, x = [tident n]. Proof. intros ([t sp] & -> & n & E). cbn [fst] in E. subst t. exists (n, sp). reflexivity. Qed.
Lemma get_d x : sing isd x -> exists n, x = [tdbg n]. Proof. intros ([t sp] & -> & n & E). cbn [fst] in E. subst t. exists (n, sp). reflexivity. Qed.
Lemma get_h x : sing ish x -> exists n, x = [thex n]. Proof. intros ([t sp] & -> & n & E). cbn [fst] in E. subst t. exists (n, sp). reflexivity. Qed.
Lemma get_eq y x : sing (eq y) x -> exists sp, x = [(y, sp)]. Proof. intros ([t sp] & -> & E). cbn [fst] in E. subst t. exists sp. reflexivity. Qed.
Ltac unl := repeat match goal with
  | H : cat _ _ _ |- _ => let a := fresh "a" in let b := fresh "b" in let A := fresh "A" in let B := fresh "B" in destruct H as (a & b & -> & A & B)
  | H : sing isg _ |- _ => apply get_g in H as [? ->]
  | H : sing isl _ |- _ => apply get_l in H as [? ->]
  | H : sing ist _ |- _ => apply get_t in H as [? ->]
  | H : sing isi _ |- _ => apply get_i in H as [? ->]
  | H : sing ish _ |- _ => apply get_h in H as [? ->]
  | H : sing (eq _) _ |- _ => apply get_eq in H as [? ->]
  | H : sing (fun _ => True) _ |- _ => destruct H as (? & -> & _)
  | H : eps _ |- _ => unfold eps in H; subst
  | H : key _ _ |- _ => destruct H as (? & -> & ?)
  end.
(** what the languages are made of *)
Lemma star_class f x : star (sing f) x -> Forall (fun t : stoken => f (fst t)) x.
Proof. induction 1 as [|a b (t & -> & F) _ IH]; [constructor|]. constructor; assumption. Qed.
Lemma star_newlines x : star (sing (eq TNewline)) x -> newlines x.
Proof. intros H. apply star_class in H. eapply Forall_impl; [|exact H]. intros t E. symmetry. exact E. Qed.
Lemma star_modifiers x : star (sing ism) x -> exists l, x = map tmod l.
Proof. induction 1 as [|a b ([t sp] & -> & F) _ [l ->]]; [exists []; reflexivity|]. destruct F as [m F]. cbn [fst] in F. subst t. exists ((m, sp) :: l). reflexivity. Qed.
Lemma dbg_opt x : alt eps (sing isd) x -> exists o, x = opt_seg tdbg o.
Proof. intros [->|([t sp] & -> & [m F])]; [exists None; reflexivity|]. cbn [fst] in F. subst t. exists (Some (m, sp)). reflexivity. Qed.
Lemma seps_comma {A} (I : lang) (item : A -> list stoken -> Prop) x : seps I (sing (eq (TPunct (ch ",")))) x -> (forall y, I y -> exists a, item a y) -> exists l, comma_sep item l x.
Proof.
  intros [->|(a & b & -> & HI & HS)] H; [exists []; constructor|]. assert (exists v l, comma_sep item (v :: l) (a ++ b)) as (v & l & E); [|eauto].
  revert a HI. induction HS as [|c d C D IH]; intros a HI; destruct (H _ HI) as [v V].
  - exists v, []. rewrite app_nil_r. constructor. exact V.
  - destruct C as (s & i & -> & ([t sp] & -> & F) & CI). cbn [fst] in F. subst t. destruct (IH i CI) as (v2 & l & Hl).
    exists v, (v2 :: l). cbn [app]. apply (cs_more item v a sp v2 l (i ++ d)); assumption.
Qed.

(** ** Instructions *)
Definition lbody : lang := fun x => exists f m refs body dbg, body_seg f m refs body /\ x = body ++ opt_seg tdbg dbg.
Lemma lbody_intro f m refs body x : body_seg f m refs body -> alt eps (sing isd) x -> lbody (body ++ x).
Proof. intros H D. apply dbg_opt in D as [o ->]. exists f, m, refs, body, o. auto. Qed.
Ltac start0 := eapply via_weak; cycle 1; [via|]; intros x X; unl; rewrite ?app_nil_r.
Ltac start := (eapply lbody_intro; [|eassumption]); repeat (rewrite <- app_assoc || cbn [app]).
Lemma via_br : via lbody (g_br eoi).
Proof. start0. start. apply bs_br. assumption. Qed.
Lemma via_condbr : via lbody (g_condbr eoi).
Proof. start0. start. apply bs_cond. assumption. Qed.
Lemma skip_language word x : star (alt (sing (fun t => ~ In t [TPunct (ch ","); TNewline])) (cat (sing (eq (TPunct (ch ",")))) (sing (fun t => ~ In t [TIdent word])))) x -> skip_seg word x.
Proof.
  induction 1 as [|a b [(t & -> & F)|H] _ IH]; [constructor| |].
  - cbn [app]. constructor; [| |exact IH]; intros E; apply F; rewrite E; cbn [In]; auto.
  - destruct H as (p & q & -> & H & (t & -> & F)). apply get_eq in H as [sp ->]. cbn [app]. apply (sk_comma word sp t b); [|exact IH]. intros E. apply F. left. symmetry. exact E.
Qed.
Lemma via_overflowbr : via lbody (g_overflowbr eoi).
Proof. start0. start. match goal with H : star _ _ |- _ => apply skip_language in H end. eapply bs_overflow. assumption. Qed.
Lemma via_switch : via lbody (g_switch eoi).
Proof.
  start0. match goal with H : star _ _ |- _ => apply skip_language in H end. match goal with H : seps _ _ _ |- _ => apply (seps_comma _ case_seg) in H as [l Hl] end.
  - start. eapply bs_switch; eassumption.
  - intros y Y. unl. eexists. do 4 eexists. repeat (rewrite <- app_assoc || cbn [app]). reflexivity.
Qed.
Lemma via_phi : via lbody (g_phi eoi).
Proof.
  start0. match goal with H : seps _ _ _ |- _ => apply (seps_comma _ phi_seg) in H as [l Hl] end.
  - start. eapply bs_phi; eassumption.
  - intros y Y. unl. match goal with H : star _ _ |- _ => apply star_class in H; rename H into V end. repeat (rewrite <- app_assoc || cbn [app]). match goal with |- exists a, phi_seg a (_ :: tident ?t :: _ :: ?v ++ _) => exists t; do 2 eexists; exists v; eexists end. split; [|reflexivity].
    eapply Forall_impl; [|exact V]. intros t T. split; intros E; apply T; rewrite E; cbn [In]; auto.
Qed.
(** other instructions: no colon behind the first word *)
Definition lword : lang := fun x => exists m soup, x = tident m :: soup /\ Forall (fun t : stoken => fst t <> TNewline /\ ~ SpecParse.is_dbg (fst t)) soup /\
  forall t r, soup = t :: r -> fst t <> TPunct (ch ":").
Lemma via_soup : via (star (sing (fun t => t <> TNewline /\ ~ SpecParse.is_dbg t))) (p_repeated (p_not eoi (p_or (p_to (p_just token_eqb eoi TNewline) tt) (p_to (g_dbg_ref eoi) tt)))).
Proof.
  assert (N : inh (sing (fun t => t <> TNewline /\ ~ SpecParse.is_dbg t))) by (apply (inh_sing _ (TNum [])); split; [discriminate|intros [y Y]; discriminate]).
  apply via_repeated. intros [|[t sp] st]; unfold p_not, p_or, p_to, p_map, p_just, g_dbg_ref, p_filter_map; [apply (reach_here _ [] _ N)|].
  destruct (token_eqb_spec t TNewline) as [->|E]; [apply (reach_here _ ((TNewline, sp) :: st) _ N)|].
  destruct t; try (apply (reach_here _ ((TDebugRef n, sp) :: st) _ N)); cbn [err_here l_rem]; rewrite ?Nat.ltb_irrefl; (split; [|apply areach_none]); eexists [(_, _)]; (split; [reflexivity|]); eexists; (split; [reflexivity|]); (split; [exact E|intros [y Y]; discriminate]).
Qed.

Lemma via_words : via lword (p_then_ignore (p_then_ignore (g_ident eoi) (p_rewind (p_none_of token_eqb eoi [TPunct (ch ":")]))) (p_repeated (p_not eoi (p_or (p_to (p_just token_eqb eoi TNewline) tt) (p_to (g_dbg_ref eoi) tt))))).
Proof.
  assert (W : forall m, lword [tident m]) by (intros m; exists m, []; split; [reflexivity|]; split; [constructor|discriminate]).
  assert (N : inh lword) by (eexists; apply (W ([], mkSpan 0 0))).
  intros [|[t sp] st]; unfold p_then_ignore at 1 2, p_map, p_then at 1 2.
  - apply (reach_here _ [] _ N).
  - unfold g_ident, p_filter_map. destruct t; try (apply reach_start; [exact N|reflexivity]).
    assert (S : forall e, l_rem e = length st -> reach lword ((TIdent n, sp) :: st) e).
    { intros e E. exists [(TIdent n, sp)], st, []. split; [reflexivity|]. split; [exact E|]. apply (W (n, sp)). }
    unfold p_rewind, p_none_of. destruct st as [|[t2 sp2] st]; [apply S; reflexivity|]. cbn [existsb]. rewrite orb_false_r. destruct (token_eqb_spec t2 (TPunct (ch ":"))) as [->|C]; [apply S; reflexivity|].
    assert (G : forall pre w, star (sing (fun t => t <> TNewline /\ ~ SpecParse.is_dbg t)) (pre ++ w) -> (exists y, (t2, sp2) :: st = pre ++ y) -> exists w', lword ((TIdent n, sp) :: pre ++ w') /\ (w = [] -> w' = [])).
    { intros pre w H [y Y]. destruct pre as [|p pre]; [exists []; split; [apply (W (n, sp))|auto]|]. exists w. split; [|auto]. apply star_class in H. exists (n, sp), ((p :: pre) ++ w). split; [reflexivity|]. split; [exact H|].
      intros q r E. cbn [app] in Y, E. injection E as <- _. injection Y as <- _. exact C. }
    pose proof (via_soup ((t2, sp2) :: st)) as V.
    assert (R : forall e, reach (star (sing (fun t => t <> TNewline /\ ~ SpecParse.is_dbg t))) ((t2, sp2) :: st) e -> reach lword ((TIdent n, sp) :: (t2, sp2) :: st) e).
    { intros e (pre & y & w & E & L & X). destruct (G pre w X (ex_intro _ y E)) as (w' & X' & _). exists ((TIdent n, sp) :: pre), y, w'. split; [cbn [app]; rewrite <- E; reflexivity|]. split; [exact L|]. exact X'. }
    destruct (p_repeated _ _) as [es v al r|es e|]; [| |exact I].
    + destruct V as ((pre & E & X) & V). split.
      * rewrite <- (app_nil_r pre) in X. destruct (G pre [] X (ex_intro _ r E)) as (w' & X' & Ew). rewrite (Ew eq_refl), app_nil_r in X'. exists ((TIdent n, sp) :: pre). split; [cbn [app]; rewrite <- E; reflexivity|exact X'].
      * apply areach_alts; [apply areach_alts; apply areach_none|]. intros l El. apply R. auto.
    + apply reach_max; [apply R; exact V|]. apply areach_alts; apply areach_none.
Qed.
Lemma inh_lword : inh lword.
Proof. exists [tident ([], mkSpan 0 0)], ([], mkSpan 0 0), []. split; [reflexivity|]. split; [constructor|discriminate]. Qed.
Lemma via_any_instr : via lbody (g_any_instr eoi).
Proof.
  eapply via_weak; cycle 1.
  - unfold g_any_instr. apply via_span. apply via_map. eapply via_then; [eapply via_then; [apply via_words|via|inh]|via|inh].
  - intros x X. unl. rewrite app_nil_r. match goal with H : lword _ |- _ => destruct H as (m & soup & -> & H1 & H2) end. start. apply bs_other; assumption.
Qed.
Lemma inh_lbody : inh lbody.
Proof. exists [tident (str "br", mkSpan 0 0); tident ([], mkSpan 0 0)], FBr, (str "br", mkSpan 0 0), [([], mkSpan 0 0)], [tident (str "br", mkSpan 0 0); tident ([], mkSpan 0 0)], None. split; [apply bs_br; reflexivity|reflexivity]. Qed.
Lemma via_alternatives : via lbody (g_instr_alternatives eoi).
Proof.
  eapply via_weak; cycle 1; [unfold g_instr_alternatives; repeat eapply via_or; [apply via_br|apply via_condbr|apply via_overflowbr|apply via_switch|apply via_phi|apply via_any_instr]|].
  unfold alt. intros x X. repeat destruct X as [X|X]; exact X.
Qed.
Definition linstr : lang := fun x => exists i n, instr_seg any_form i n x.
Lemma via_instruction : via linstr (g_instruction eoi).
Proof.
  eapply via_weak; cycle 1.
  - unfold g_instruction. apply via_span. eapply via_then; [via|apply via_alternatives|apply inh_lbody].
  - intros x (a & b & -> & A & f & m & refs & body & dbg & H & ->).
    assert (exists tgt, target_seg tgt a) as [tgt T].
    { destruct A as [->|A]; [exists None; reflexivity|]. unl. eexists (Some _). do 2 eexists. repeat (rewrite <- app_assoc || cbn [app]). reflexivity. }
    exists (mkInstr tgt m refs dbg (cover (a ++ body ++ opt_seg tdbg dbg))), (form_errors f (fst m)). exists f, a, body. cbn [i_target i_instr i_refs i_dbg i_span]. repeat split; assumption.
Qed.
Lemma inh_linstr : inh linstr.
Proof.
  exists [tident (str "br", mkSpan 0 0); tident ([], mkSpan 0 0)], (mkInstr None (str "br", mkSpan 0 0) [([], mkSpan 0 0)] None (mkSpan 0 0)), 0, FBr, [], [tident (str "br", mkSpan 0 0); tident ([], mkSpan 0 0)].
  cbn [i_target i_instr i_refs i_dbg i_span]. split; [reflexivity|]. split; [apply bs_br; reflexivity|]. repeat split.
Qed.
Lemma via_nls : via (star (sing (eq TNewline))) (g_nls eoi).
Proof. unfold g_nls. apply via_repeated, via_just. Qed.
Definition lline : lang := fun x => exists pre i n seg post, newlines pre /\ instr_seg any_form i n seg /\ newlines post /\ post <> [] /\ x = pre ++ seg ++ post.
Lemma via_line : via lline (p_padded_by (g_instruction eoi) (g_nls eoi)).
Proof.
  assert (V : via (cat (cat (star (sing (eq TNewline))) linstr) (star (sing (eq TNewline)))) (p_padded_by (g_instruction eoi) (g_nls eoi))).
  { unfold p_padded_by. apply via_map. apply via_then; [apply via_map, via_then; [apply via_nls|apply via_instruction|apply inh_linstr]|apply via_nls|inh]. }
  assert (R : forall st e, reach (cat (cat (star (sing (eq TNewline))) linstr) (star (sing (eq TNewline)))) st e -> reach lline st e).
  { intros st e (pre & y & w & E & L & (ab & c & X & (a & b & -> & A & i & n & B) & D)). exists pre, y, (w ++ [(TNewline, mkSpan 0 0)]). split; [exact E|]. split; [exact L|]. rewrite app_assoc, X.
    apply star_newlines in A. apply star_newlines in D. exists a, i, n, b, (c ++ [(TNewline, mkSpan 0 0)]). split; [exact A|]. split; [exact B|]. split; [apply Forall_app; split; [exact D|constructor; [reflexivity|constructor]]|].
    split; [destruct c; discriminate|]. rewrite <- !app_assoc. reflexivity. }
  intros st. specialize (V st). pose proof (inv_padded_instruction eoi st) as IV. destruct (p_padded_by _ _ st) as [es v al r|es e|]; [|apply R; exact V|exact I].
  destruct V as (_ & V). split; [|intros l El; apply R; auto]. cbn [vw] in IV. destruct (IV _ _ _ eq_refl) as (pre & seg & post & H1 & H2 & H3 & H4 & ->).
  exists (pre ++ seg ++ post). split; [rewrite <- !app_assoc; reflexivity|]. exists pre, v, (length es), seg, post. auto.
Qed.
Lemma star_lines x : star lline x -> exists l n, instrs_seg any_form l n x.
Proof.
  induction 1 as [|a b (pre & i & n & seg & post & H1 & H2 & H3 & H4 & ->) _ (l & m & IH)]; [exists [], 0; constructor|].
  exists (i :: l), (n + m). rewrite <- !app_assoc. constructor; assumption.
Qed.
Lemma plus_lines x : plus lline x -> exists i l n, instrs_seg any_form (i :: l) n x.
Proof.
  intros (a & b & -> & (pre & i & n & seg & post & H1 & H2 & H3 & H4 & ->) & H). apply star_lines in H as (l & m & H). exists i, l, (n + m). rewrite <- !app_assoc. constructor; assumption.
Qed.
Lemma inh_lline : inh lline.
Proof. destruct inh_linstr as (x & i & n & H). exists (x ++ [(TNewline, mkSpan 0 0)]), [], i, n, x, [(TNewline, mkSpan 0 0)]. split; [constructor|]. split; [exact H|]. split; [constructor; [reflexivity|constructor]|]. split; [discriminate|reflexivity]. Qed.
Lemma plus_newlines x : plus (sing (eq TNewline)) x -> newlines x /\ x <> [].
Proof. intros (a & b & -> & A & B). apply get_eq in A as [sp ->]. apply star_newlines in B. split; [constructor; [reflexivity|exact B]|discriminate]. Qed.
Definition lblock : lang := fun x => exists b n, block_seg any_form b n x.
Lemma via_block : via lblock (g_basic_block eoi).
Proof.
  eapply via_weak; cycle 1.
  - unfold g_basic_block. apply via_map. eapply via_then; [via|apply via_repeated, via_line|inh].
  - intros x X. unl. match goal with H : plus _ _ |- _ => apply plus_newlines in H as [N1 N2] end. match goal with H : star lline _ |- _ => apply star_lines in H as (l & n & H) end.
    match goal with |- lblock (((([tident ?a] ++ [(?c, ?s)]) ++ ?b) ++ ?r)) => exists (mkBB (Some a) (Some s) l (mkSpan (sp_start (snd a)) (last_end_of l (sp_end (snd a))))), n; exists a, s, b, r end.
    repeat (rewrite <- app_assoc || cbn [app]). cbn [bb_label bb_label_comma bb_instrs bb_span]. split; [reflexivity|]. split; [reflexivity|]. split; [exact N1|]. split; [exact N2|]. split; [assumption|]. split; reflexivity.
Qed.
Lemma star_blocks x : star lblock x -> exists l n, blocks_seg any_form l n x.
Proof. induction 1 as [|a b (v & n & H) _ (l & m & IH)]; [exists [], 0; constructor|]. exists (v :: l), (n + m). constructor; assumption. Qed.
Definition lfbody : lang := fun x => exists b n, fbody_seg any_form b n x.
Lemma via_body : via lfbody (g_func_body eoi).
Proof.
  eapply via_weak; cycle 1.
  - unfold g_func_body. apply via_map. eapply via_then; [eapply via_then; [eapply via_then; [via|apply via_or_not, via_map, via_repeated1; [apply via_line|apply inh_lline]|inh]|apply via_repeated, via_block|inh]|via|inh].
  - intros x X. unl. match goal with H : plus _ _ |- _ => apply plus_newlines in H as [N1 N2] end. match goal with H : star lblock _ |- _ => apply star_blocks in H as (bbs & n2 & H2) end.
    match goal with H : alt eps (plus lline) ?a |- _ => assert (exists o n1, first_block_seg any_form o n1 a) as (o & n1 & H1) end.
    { match goal with H : alt eps (plus lline) _ |- _ => rename H into HL end. destruct HL as [->|HL]; [exists None, 0; split; reflexivity|]. apply plus_lines in HL as (i & l & n & H).
      exists (Some (mkBB None None (i :: l) (mkSpan (sp_start (i_span i)) (last_end_of (i :: l) 0)))), n. split; [reflexivity|]. split; [reflexivity|]. split; [exact H|]. exists i, l. split; reflexivity. }
    match goal with |- lfbody ((((([(_, ?s)] ++ ?nls) ++ ?a) ++ ?b) ++ [(_, ?t)])) => exists (mkBody s t (match o with Some x => x :: bbs | None => bbs end)), (n1 + n2); exists nls, o, n1, a, bbs, n2, b end.
    cbn [fb_open fb_close fb_blocks]. split; [exact N1|]. split; [exact N2|]. split; [exact H1|]. split; [exact H2|]. split; [reflexivity|]. split; [reflexivity|]. repeat (rewrite <- app_assoc || cbn [app]). reflexivity.
Qed.
Lemma inh_lfbody : inh lfbody.
Proof.
  exists (tp (ch "{") (mkSpan 0 0) :: [tnl (mkSpan 0 0)] ++ [] ++ [] ++ [tp (ch "}") (mkSpan 0 0)]), (mkBody (mkSpan 0 0) (mkSpan 0 0) []), 0, [tnl (mkSpan 0 0)], None, 0, [], [], 0, [].
  split; [constructor; [reflexivity|constructor]|]. split; [discriminate|]. split; [split; reflexivity|]. split; [constructor|]. split; [reflexivity|]. split; reflexivity.
Qed.
Definition lsig : lang := fun x => exists s, sig_seg s x.
Lemma via_sig : via lsig (g_func_signature eoi).
Proof.
  eapply via_weak; cycle 1; [unfold g_func_signature; via|]. intros x X. unl. match goal with H : star (sing ism) _ |- _ => apply star_modifiers in H as [ms ->] end.
  match goal with H : seps _ _ _ |- _ => apply (seps_comma _ arg_seg) in H as [args H] end.
  - match goal with |- lsig ((((_ ++ [ttype ?t]) ++ [tglobal ?g]) ++ ([(_, ?o)] ++ ?a) ++ [(_, ?c)])) => exists (mkSig ms t g args), o, c, a end. cbn [fs_args fs_modifiers fs_ret fs_name]. split; [assumption|].
    repeat (rewrite <- app_assoc || cbn [app]). reflexivity.
  - intros y Y. unl. match goal with |- exists a, arg_seg a ([ttype ?t] ++ [tlocal ?n]) => exists (mkArg t n) end. reflexivity.
Qed.
Lemma inh_lsig : inh lsig.
Proof. eexists. exists (mkSig [] ([], mkSpan 0 0) ([], mkSpan 0 0) []), (mkSpan 0 0), (mkSpan 0 0), []. split; [constructor|reflexivity]. Qed.
Definition lstmt : lang := fun x => exists s n, stmt_seg any_form s n x [].
Lemma eol_language x : alt (sing (eq TNewline)) eps x -> eol_seg x [].
Proof. intros [H| ->]; [apply get_eq in H as [sp ->]; left; exists sp; reflexivity|right; split; reflexivity]. Qed.
Lemma soup_language x : star (sing (fun t => ~ In t [TNewline])) x -> no_newline x.
Proof. intros H. apply star_class in H. eapply Forall_impl; [|exact H]. intros t T E. apply T. left. symmetry. exact E. Qed.
Ltac fin := repeat (rewrite <- app_assoc || cbn [app]).
Lemma via_var : via lstmt (g_global_var eoi).
Proof.
  eapply via_weak; cycle 1; [unfold g_global_var; via|]. intros x X. unl. match goal with H : alt _ _ _ |- _ => apply eol_language in H end. match goal with H : star _ _ |- _ => apply soup_language in H end.
  do 2 eexists. fin. eapply ss_var; eassumption.
Qed.
Lemma via_ann : via lstmt (g_dbg_annotation eoi).
Proof.
  eapply via_weak; cycle 1; [unfold g_dbg_annotation; via|]. intros x X. unl. match goal with H : alt _ _ _ |- _ => apply eol_language in H end. match goal with H : star _ _ |- _ => apply soup_language in H end.
  match goal with H : sing isd _ |- _ => apply get_d in H as [? ->] end. do 2 eexists. fin. eapply ss_dbg; eassumption.
Qed.
Lemma via_deps : via lstmt (g_func_deps eoi).
Proof.
  eapply via_weak; cycle 1; [unfold g_func_deps; via|]. intros x X. unl. match goal with H : seps _ _ _ |- _ => apply (seps_comma _ (fun a s => s = [tglobal a])) in H as [ds H] end.
  - do 2 eexists. fin. eapply ss_deps; [eassumption|]. destruct ds; cbn [deps_stop]; discriminate.
  - intros y Y. apply get_g in Y as [n ->]. exists n. reflexivity.
Qed.
Lemma via_decl : via lstmt (g_func_decl eoi).
Proof.
  eapply via_weak; cycle 1.
  - unfold g_func_decl. apply via_map, via_map. eapply via_then; [eapply via_then; [eapply via_then; [apply via_map; eapply via_then; [via|apply via_sig|apply inh_lsig]|via|inh]|via|inh]|via|inh].
  - intros x X. unl. match goal with H : alt (sing (eq TNewline)) eps _ |- _ => apply eol_language in H end. match goal with H : lsig _ |- _ => destruct H as [sg Hs] end. match goal with H : alt eps (sing isd) _ |- _ => apply dbg_opt in H as [d ->] end.
    match goal with H : alt eps ?L ?a |- _ => assert (exists addr, match addr with Some h => exists eq, a = [tp (ch "=") eq; thex h] | None => a = [] end) as [addr Ha] end.
    { match goal with H : alt eps _ _ |- _ => destruct H as [->|H] end; [exists None; reflexivity|]. unl. match goal with |- context [thex ?h] => exists (Some h) end. eexists. reflexivity. }
    do 2 eexists. fin. eapply ss_decl; eassumption.
Qed.
Lemma via_def : via lstmt (g_func_def eoi).
Proof.
  eapply via_weak; cycle 1.
  - unfold g_func_def. apply via_map, via_map. eapply via_then; [eapply via_then; [eapply via_then; [via|apply via_sig|apply inh_lsig]|apply via_body|apply inh_lfbody]|via|inh].
  - intros x X. unl. match goal with H : alt (sing (eq TNewline)) eps _ |- _ => apply eol_language in H end. match goal with H : lsig _ |- _ => destruct H as [sg Hs] end. match goal with H : lfbody _ |- _ => destruct H as (bd & n & Hb) end.
    do 2 eexists. fin. eapply ss_def; eassumption.
Qed.
Lemma inh_lstmt : inh lstmt.
Proof. eexists. exists (SGlobalVar ([], mkSpan 0 0) []), 0. apply (ss_var any_form ([], mkSpan 0 0) [] (mkSpan 0 0) [] []); [constructor|right; split; reflexivity]. Qed.
Lemma via_choices : via lstmt (g_stmt_alternatives eoi).
Proof.
  eapply via_weak; cycle 1; [unfold g_stmt_alternatives; repeat eapply via_or; [apply via_var|apply via_decl|apply via_def|apply via_deps|apply via_ann]|]. unfold alt. intros x X. repeat destruct X as [X|X]; exact X.
Qed.
End One.
