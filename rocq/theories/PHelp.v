(** What a syntax error asks for would be right there. *)
From Verif Require Import Text Chumsky Tokenizer Parser SpecParse SpecExact SpecFault SpecViable SpecHelp PText PChumsky PSound PComplete PPlace PViable.

(** Expectations that a parser may have about what follows it. *)
Definition follow := option token -> Prop.
Definition f_none : follow := fun _ => False.
Definition f_nl : follow := fun x => x = Some TNewline.
Definition f_end : follow := fun x => x = None.

Section One.
Variable eoi : span.

(** ** Parsers of languages: what their errors ask for continues a word *)
Definition goes (X : follow) (L : lang) (pre : list stoken) (o : option token) : Prop :=
  (X o /\ L pre) \/ match o with Some y => forall sp, exists w, L (pre ++ (y, sp) :: w) | None => False end.
Definition hopes (X : follow) (L : lang) (pre : list stoken) (e : simple token) : Prop :=
  Forall (goes X L pre) (e_expected e) /\
  match e_reason e with CustomMsg m => exists good, demand m good /\ forall tk sp, good tk -> exists w, L (pre ++ (tk, sp) :: w) | Unexpected => True end.
Definition hreach (X : follow) (L : lang) (st : strm) (e : located token) : Prop := exists pre y, st = pre ++ y /\ l_rem e = length y /\ hopes X L pre (l_err e).
Definition ahreach X L st (al : option (located token)) : Prop := forall l, al = Some l -> hreach X L st l.
Definition hvia {A} (X : follow) (L : lang) (p : pp A) : Prop := forall st : strm,
  match p st with
  | POk _ _ al r => (exists pre, st = pre ++ r /\ L pre) /\ ahreach X L st al
  | PErr _ e => hreach X L st e
  | PPanic => True
  end.

Lemma same_split {A} (a b c d : list A) : a ++ b = c ++ d -> length b = length d -> a = c /\ b = d.
Proof.
  revert c. induction a as [|x a IH]; intros [|y c] E H; cbn [app] in E.
  - auto.
  - exfalso. apply (f_equal (@length _)) in E. cbn [length] in E. rewrite app_length in E. lia.
  - exfalso. apply (f_equal (@length _)) in E. cbn [length] in E. rewrite app_length in E. lia.
  - injection E as <- E. destruct (IH _ E H) as [-> ->]. auto.
Qed.
Lemma hopes_map (X Y : follow) (K L : lang) pre pre' e :
  (forall o, X o -> K pre -> goes Y L pre' o) -> (forall y sp w, K (pre ++ (y, sp) :: w) -> exists w', L (pre' ++ (y, sp) :: w')) -> hopes X K pre e -> hopes Y L pre' e.
Proof.
  intros F H [H1 H2]. split.
  - eapply Forall_impl; [|exact H1]. intros o [[O P]|O]; [apply F; assumption|]. destruct o as [y|]; [|contradiction]. right. intros sp. destruct (O sp) as [w W]. eapply H; exact W.
  - destruct (e_reason e); [exact I|]. destruct H2 as (good & D & G). exists good. split; [exact D|]. intros tk sp T. destruct (G tk sp T) as [w W]. eapply H; exact W.
Qed.
Lemma hreach_weak X (K L : lang) st e : (forall x, K x -> L x) -> hreach X K st e -> hreach X L st e.
Proof. intros H (pre & y & E & R & O). exists pre, y. split; [exact E|]. split; [exact R|]. eapply hopes_map; [| |exact O]; [intros o P Q; left; auto|intros z sp w W; exists w; auto]. Qed.
Lemma hvia_weak {A} X (K L : lang) (p : pp A) : (forall x, K x -> L x) -> hvia X K p -> hvia X L p.
Proof.
  intros H V st. specialize (V st). destruct (p st); [|eapply hreach_weak; eassumption|exact I]. destruct V as ((pre & -> & P) & V).
  split; [exists pre; auto|]. intros l E. eapply hreach_weak; [exact H|auto].
Qed.
Lemma hreach_free (X Y : follow) L st e : (forall o, X o -> Y o) -> hreach X L st e -> hreach Y L st e.
Proof. intros H (pre & y & E & R & O). exists pre, y. split; [exact E|]. split; [exact R|]. eapply hopes_map; [| |exact O]; [intros o P Q; left; auto|intros z sp w W; exists w; auto]. Qed.
Lemma hvia_free {A} (X Y : follow) L (p : pp A) : (forall o, X o -> Y o) -> hvia X L p -> hvia Y L p.
Proof. intros H V st. specialize (V st). destruct (p st); [|eapply hreach_free; eassumption|exact I]. destruct V as (P & V). split; [exact P|]. intros l E. eapply hreach_free; [exact H|auto]. Qed.
(** [L] begins with all that is expected behind [K] *)
Definition takes (X Y : follow) (L : lang) : Prop := forall o, Y o -> (X o /\ L []) \/ match o with Some y => forall sp, exists w, L ((y, sp) :: w) | None => False end.
Lemma takes_none X L : takes X f_none L. Proof. intros o []. Qed.
Lemma hreach_then X Y (K L : lang) st e : takes X Y L -> hreach Y K st e -> inh L -> hreach X (cat K L) st e.
Proof.
  intros T (pre & y & -> & R & O) [z Z]. exists pre, y. split; [reflexivity|]. split; [exact R|]. eapply hopes_map; [| |exact O].
  - intros o P Q. destruct (T o P) as [[P1 P2]|P1].
    + left. split; [exact P1|]. exists pre, []. rewrite app_nil_r. auto.
    + right. destruct o as [t|]; [|contradiction]. intros sp. destruct (P1 sp) as [w W]. exists w, pre, ((t, sp) :: w). auto.
  - intros t sp w W. exists (w ++ z), (pre ++ (t, sp) :: w), z. rewrite <- app_assoc. auto.
Qed.
Lemma hreach_after X (K L : lang) a st e : K a -> hreach X L st e -> hreach X (cat K L) (a ++ st) e.
Proof.
  intros H (pre & y & -> & R & O). exists (a ++ pre), y. split; [apply app_assoc|]. split; [exact R|]. eapply hopes_map; [| |exact O].
  - intros o P Q. left. split; [exact P|]. exists a, pre. auto.
  - intros t sp w W. exists w, a, (pre ++ (t, sp) :: w). rewrite <- app_assoc. auto.
Qed.
Lemma hopes_merge X L pre a b : hopes X L pre a -> hopes X L pre b -> hopes X L pre (merge a b).
Proof. intros [A1 A2] [B1 B2]. split; [apply Forall_app; split; assumption|exact A2]. Qed.
Lemma hreach_max X L st a b : hreach X L st a -> ahreach X L st b -> hreach X L st (loc_max a b).
Proof.
  intros H K. destruct b as [b|]; [|exact H]. specialize (K b eq_refl). unfold loc_max. destruct (Nat.ltb_spec (l_rem a) (l_rem b)); [exact H|]. destruct (Nat.ltb_spec (l_rem b) (l_rem a)); [exact K|].
  destruct H as (pre & y & E & R & O). destruct K as (pre' & y' & E' & R' & O'). subst st. destruct (same_split _ _ _ _ E') as [-> ->]; [lia|].
  exists pre', y'. split; [reflexivity|]. split; [exact R|]. apply hopes_merge; assumption.
Qed.
Lemma ahreach_none X L st : ahreach X L st None. Proof. discriminate. Qed.
Lemma ahreach_some X L st e : hreach X L st e -> ahreach X L st (Some e). Proof. intros H l E. injection E as <-. exact H. Qed.
Lemma ahreach_alts X L st a b : ahreach X L st a -> ahreach X L st b -> ahreach X L st (merge_alts a b).
Proof. intros H K. destruct a as [a|]; [|exact K]. apply ahreach_some, hreach_max; [apply H; reflexivity|exact K]. Qed.
Lemma hreach_here X (L : lang) (st : strm) ex : Forall (goes X L []) ex -> hreach X L st (err_here eoi st ex).
Proof. intros H. exists [], st. split; [reflexivity|]. destruct st as [|[t sp] st]; (split; [reflexivity|split; [exact H|exact I]]). Qed.

Lemma hvia_just y : hvia f_none (sing (eq y)) (p_just token_eqb eoi y).
Proof.
  assert (N : Forall (goes f_none (sing (eq y)) []) [Some y]) by (constructor; [right; intros sp; exists [], (y, sp); auto|constructor]).
  intros [|[t sp] st]; unfold p_just; [apply (hreach_here _ _ [] _ N)|]. destruct (token_eqb_spec t y) as [->|E]; [|apply (hreach_here _ _ ((t, sp) :: st) _ N)].
  split; [|apply ahreach_none]. exists [(y, sp)]. split; [reflexivity|]. exists (y, sp). auto.
Qed.
Lemma hvia_filter_map {A} (f : span -> token -> A + text) (g : token -> Prop) : (forall sp t v, f sp t = inl v -> g t) -> (forall sp t m, f sp t = inr m -> demand m g) -> hvia f_none (sing g) (p_filter_map eoi f).
Proof.
  intros H D [|[t sp] st]; unfold p_filter_map; [apply (hreach_here _ _ [] _ (Forall_nil _))|]. destruct (f sp t) as [v|m] eqn:E.
  - split; [|apply ahreach_none]. exists [(t, sp)]. split; [reflexivity|]. exists (t, sp). split; [reflexivity|]. eapply H; exact E.
  - exists [], ((t, sp) :: st). split; [reflexivity|]. split; [reflexivity|]. split; [constructor|]. cbn [l_err e_reason]. exists g. split; [eapply D; exact E|]. intros tk s G. exists [], (tk, s). auto.
Qed.
Lemma hvia_none_of xs : hvia f_none (sing (fun t => ~ In t xs)) (p_none_of token_eqb eoi xs).
Proof.
  intros [|[t sp] st]; unfold p_none_of; [apply (hreach_here _ _ [] _ (Forall_nil _))|]. destruct (existsb (token_eqb t) xs) eqn:E; [apply (hreach_here _ _ ((t, sp) :: st) _ (Forall_nil _))|].
  split; [|apply ahreach_none]. exists [(t, sp)]. split; [reflexivity|]. exists (t, sp). split; [reflexivity|]. cbn [fst]. intros H.
  rewrite (proj2 (existsb_exists _ _)) in E; [discriminate|]. exists t. split; [exact H|]. destruct (token_eqb_spec t t); congruence.
Qed.
Lemma hvia_any : hvia f_none (sing (fun _ => True)) (p_any eoi).
Proof.
  intros [|[t sp] st]; unfold p_any, p_filter; [apply (hreach_here _ _ [] _ (Forall_nil _))|]. split; [|apply ahreach_none]. exists [(t, sp)]. split; [reflexivity|]. exists (t, sp). auto.
Qed.
Lemma hvia_end : hvia f_end eps (p_end eoi).
Proof.
  intros [|[t sp] st]; unfold p_end; [split; [exists []; split; reflexivity|apply ahreach_none]|]. apply (hreach_here _ _ ((t, sp) :: st)). constructor; [left; split; reflexivity|constructor].
Qed.
Lemma hvia_map {A B} X L (p : pp A) (g : A -> B) : hvia X L p -> hvia X L (p_map p g).
Proof. intros V st. specialize (V st). unfold p_map. destruct (p st); exact V. Qed.
Lemma hvia_span {A B} X L (p : pp A) (g : A -> span -> B) : hvia X L p -> hvia X L (p_map_with_span eoi p g).
Proof. intros V st. specialize (V st). unfold p_map_with_span. destruct (p st); exact V. Qed.
Lemma hvia_validate {A} X L (p : pp A) g : hvia X L p -> hvia X L (p_validate eoi p g).
Proof. intros V st. specialize (V st). unfold p_validate. destruct (p st); [|exact V|exact I]. destruct (g out); exact V. Qed.
Lemma hvia_then' {A B} X Y K L (p : pp A) (q : pp B) : takes X Y L -> hvia Y K p -> hvia X L q -> inh L -> hvia X (cat K L) (p_then p q).
Proof.
  intros T P Q N st. specialize (P st). unfold p_then. destruct (p st) as [es v al r|es e|]; [|eapply hreach_then; eassumption|exact I].
  destruct P as ((pre & -> & P1) & P). specialize (Q r). destruct (q r) as [es' v' al' r'|es' e'|]; [| |exact I].
  - destruct Q as ((pre' & -> & Q1) & Q). split; [exists (pre ++ pre'); split; [apply app_assoc|exists pre, pre'; auto]|].
    apply ahreach_alts; [intros l E; eapply hreach_then; eauto|]. intros l E. apply hreach_after; auto.
  - apply hreach_max; [apply hreach_after; assumption|]. intros l E. eapply hreach_then; eauto.
Qed.
Lemma hvia_then {A B} X K L (p : pp A) (q : pp B) : hvia f_none K p -> hvia X L q -> inh L -> hvia X (cat K L) (p_then p q).
Proof. apply hvia_then', takes_none. Qed.
Lemma hvia_or {A} X K L (p q : pp A) : hvia X K p -> hvia X L q -> hvia X (alt K L) (p_or p q).
Proof.
  intros P Q st. apply (hvia_weak _ _ (alt K L)) in P; [|unfold alt; auto]. apply (hvia_weak _ _ (alt K L)) in Q; [|unfold alt; auto]. specialize (P st). specialize (Q st). unfold p_or.
  destruct (p st) as [[|y es] v al r|es e|]; [exact P| | |exact I].
  - destruct (q st) as [[|y' es'] v' al' r'|es' e'|]; [exact Q| | |exact I].
    + destruct (_ <? _); [exact Q|exact P].
    + destruct P as [P1 P2]. split; [exact P1|]. apply ahreach_alts; [exact P2|apply ahreach_some; exact Q].
  - destruct (q st) as [[|y' es'] v' al' r'|es' e'|]; [exact Q| | |exact I].
    + destruct Q as [Q1 Q2]. split; [exact Q1|]. apply ahreach_alts; [exact Q2|apply ahreach_some; exact P].
    + destruct (l_rem e' <? l_rem e); [exact Q|]. destruct (l_rem e <? l_rem e'); [exact P|]. apply hreach_max; [exact P|apply ahreach_some; exact Q].
Qed.
Lemma hvia_or_not {A} X L (p : pp A) : hvia X L p -> hvia X (alt eps L) (p_or_not p).
Proof.
  intros P st. apply (hvia_weak _ _ (alt eps L)) in P; [|unfold alt; auto]. specialize (P st). unfold p_or_not. destruct (p st) as [es v al r|es e|]; [exact P| |exact I].
  split; [exists []; split; [reflexivity|left; reflexivity]|apply ahreach_some; exact P].
Qed.
(** looking ahead for the end of the line *)
Lemma hvia_ahead : hvia f_nl eps (g_nl_ahead eoi).
Proof.
  assert (N : Forall (goes f_nl eps []) [Some TNewline]) by (constructor; [left; split; reflexivity|constructor]).
  intros [|[t sp] st]; unfold g_nl_ahead, p_rewind, p_just; [apply (hreach_here _ _ [] _ N)|]. destruct (token_eqb t TNewline); [|apply (hreach_here _ _ ((t, sp) :: st) _ N)].
  split; [exists []; split; reflexivity|apply ahreach_none].
Qed.
Lemma star_one (L : lang) x : L x -> star L x.
Proof. intros H. rewrite <- (app_nil_r x). constructor; [exact H|constructor]. Qed.
Lemma hreach_star X L a st e : star L a -> hreach X L st e -> hreach X (star L) (a ++ st) e.
Proof.
  intros H (pre & y & -> & R & O). exists (a ++ pre), y. split; [apply app_assoc|]. split; [exact R|]. eapply hopes_map; [| |exact O].
  - intros o P Q. left. split; [exact P|]. apply star_app; [exact H|apply star_one; exact Q].
  - intros t sp w W. exists w. rewrite <- app_assoc. apply star_app; [exact H|apply star_one; exact W].
Qed.
Lemma rep_hvia {A} L (p : pp A) n : hvia f_none L p -> forall fuel old errs outs al st0 a st, st0 = a ++ st -> star L a -> ahreach f_none (star L) st0 al ->
  match p_rep fuel p n old errs outs al st with
  | POk _ _ al' r => (exists pre, st0 = pre ++ r /\ star L pre) /\ ahreach f_none (star L) st0 al'
  | PErr _ e => hreach f_none (star L) st0 e
  | PPanic => True
  end.
Proof.
  intros P. induction fuel as [|fuel IH]; intros old errs outs al st0 a st E H R; [exact I|]. cbn [p_rep]. specialize (P st). destruct (p st) as [es v al' r|es e|]; [| |exact I].
  - destruct (match old with Some k => k =? length r | None => false end); [exact I|]. destruct P as ((pre & -> & P1) & P).
    apply (IH _ _ _ _ st0 (a ++ pre) r); [subst st0; apply app_assoc| |].
    + apply star_app; [exact H|apply star_one; exact P1].
    + apply ahreach_alts; [exact R|]. intros l El. subst st0. apply hreach_star; auto.
  - assert (Q : hreach f_none (star L) st0 e) by (subst st0; apply hreach_star; assumption). destruct (_ <? _); [apply hreach_max; assumption|].
    split; [exists a; auto|]. apply ahreach_alts; [exact R|apply ahreach_some; exact Q].
Qed.
Lemma hvia_repeated {A} L (p : pp A) : hvia f_none L p -> hvia f_none (star L) (p_repeated p).
Proof. intros P st. unfold p_repeated, p_repeated_at_least. apply (rep_hvia L p 0 P _ _ _ _ _ st [] st eq_refl); [constructor|apply ahreach_none]. Qed.
Lemma hreach_plus L st e : inh L -> hreach f_none (star L) st e -> hreach f_none (plus L) st e.
Proof.
  intros [z Z] (pre & y & E & R & O). exists pre, y. split; [exact E|]. split; [exact R|]. eapply hopes_map; [| |exact O]; [intros o []|].
  intros t sp w W. exists (w ++ z). change (pre ++ (t, sp) :: w ++ z) with (pre ++ ((t, sp) :: w) ++ z). rewrite app_assoc. apply star_plus; assumption.
Qed.
Lemma hvia_repeated1 {A} L (p : pp A) : hvia f_none L p -> inh L -> hvia f_none (plus L) (p_repeated_at_least 1 p).
Proof.
  intros P N st. unfold p_repeated_at_least. match goal with |- context [p_rep ?f _ _ _ _ _ _ _] => generalize f end. intros [|fuel]; [exact I|]. cbn [p_rep]. pose proof (P st) as P1. destruct (p st) as [es v al r|es e|]; [| |exact I].
  - destruct P1 as ((pre & -> & X) & P1).
    assert (Q2 : forall fuel old errs outs al' st2 a, r = a ++ st2 -> star L a -> outs <> [] -> ahreach f_none (plus L) (pre ++ r) al' ->
      match p_rep fuel p 1 old errs outs al' st2 with
      | POk _ _ al'' r' => (exists pre', pre ++ r = pre' ++ r' /\ plus L pre') /\ ahreach f_none (plus L) (pre ++ r) al''
      | PErr _ e => hreach f_none (plus L) (pre ++ r) e
      | PPanic => True end).
    { clear fuel. induction fuel as [|fuel IH]; intros old errs outs al' st2 a E H Ho R; [exact I|]. cbn [p_rep]. pose proof (P st2) as P2. destruct (p st2) as [es2 v2 al2 r2|es2 e2|]; [| |exact I].
      - destruct (match old with Some k => k =? length r2 | None => false end); [exact I|]. destruct P2 as ((pre2 & -> & X2) & P2).
        apply (IH _ _ _ _ r2 (a ++ pre2)); [subst r; apply app_assoc| |destruct outs; discriminate|].
        + apply star_app; [exact H|apply star_one; exact X2].
        + apply ahreach_alts; [exact R|]. intros l El. subst r. apply hreach_plus; [exact N|]. rewrite app_assoc. apply hreach_star; [apply star_app; [apply star_one|]; assumption|auto].
      - assert (Q : hreach f_none (plus L) (pre ++ r) e2) by (subst r; apply hreach_plus; [exact N|]; rewrite app_assoc; apply hreach_star; [apply star_app; [apply star_one|]; assumption|exact P2]).
        destruct outs as [|o outs]; [congruence|]. cbn [length Nat.ltb Nat.leb]. split; [exists (pre ++ a); split; [subst r; apply app_assoc|exists pre, a; auto]|].
        apply ahreach_alts; [exact R|apply ahreach_some; exact Q]. }
    apply (Q2 fuel (Some (length r)) es [v] (merge_alts None al) r [] eq_refl (star_nil _)); [discriminate|].
    apply ahreach_alts; [apply ahreach_none|]. intros l El. apply hreach_plus; [exact N|]. apply (hreach_star _ L [] (pre ++ r)); [constructor|auto].
  - cbn [length Nat.ltb Nat.leb]. apply hreach_max; [|apply ahreach_none]. apply hreach_plus; [exact N|]. apply (hreach_star _ L [] st); [constructor|exact P1].
Qed.

(** lists with separators *)
Lemma sep_hvia {A B} I S (item : pp A) (sep : pp B) : hvia f_none I item -> hvia f_none S sep -> inh I -> forall fuel errs outs al st0 a st, st0 = a ++ st ->
  cat I (star (cat S I)) a -> ahreach f_none (cat I (star (cat S I))) st0 al ->
  match p_sep_tail fuel item sep errs outs al st with
  | POk _ _ al' r => (exists pre, st0 = pre ++ r /\ cat I (star (cat S I)) pre) /\ ahreach f_none (cat I (star (cat S I))) st0 al'
  | PErr _ e => hreach f_none (cat I (star (cat S I))) st0 e
  | PPanic => True
  end.
Proof.
  intros P Q N. assert (G : forall a x, cat I (star (cat S I)) a -> cat S I x -> cat I (star (cat S I)) (a ++ x)).
  { intros a x (b & c & -> & B1 & C1) X. exists b, (c ++ x). split; [rewrite app_assoc; reflexivity|]. split; [exact B1|]. apply star_app; [exact C1|apply star_one; exact X]. }
  assert (G2 : forall a st e, cat I (star (cat S I)) a -> hreach f_none (cat S I) st e -> hreach f_none (cat I (star (cat S I))) (a ++ st) e).
  { intros a st e H (pre & y & -> & R & O). exists (a ++ pre), y. split; [apply app_assoc|]. split; [exact R|]. eapply hopes_map; [| |exact O]; [intros o []|]. intros t sp w W. exists w. rewrite <- app_assoc. apply G; assumption. }
  assert (T : forall st e, hreach f_none S st e -> hreach f_none (cat S I) st e) by (intros st e H; eapply hreach_then; [apply takes_none|exact H|exact N]).
  induction fuel as [|fuel IH]; intros errs outs al st0 a st E H R; [exact Logic.I|]. cbn [p_sep_tail]. specialize (Q st). destruct (sep st) as [es v al1 r|es e|]; [| |exact Logic.I].
  - destruct Q as ((pre & -> & X) & Q). specialize (P r). destruct (item r) as [es' v' al2 r'|es' e'|]; [| |exact Logic.I].
    + destruct P as ((pre' & -> & Y) & P). apply (IH _ _ _ st0 (a ++ pre ++ pre') r'); [subst st0; rewrite <- !app_assoc; reflexivity|apply G; [exact H|exists pre, pre'; auto]|].
      subst st0. apply ahreach_alts; [apply ahreach_alts; [exact R|]|]; intros l El; (apply G2; [exact H|]); [apply T; auto|apply hreach_after; auto].
    + split; [exists a; auto|]. subst st0. apply ahreach_alts; [apply ahreach_alts; [exact R|]|]; [intros l El|apply ahreach_some]; (apply G2; [exact H|]); [apply T; auto|apply hreach_after; auto].
  - split; [exists a; auto|]. subst st0. apply ahreach_alts; [exact R|apply ahreach_some]. apply G2; [exact H|]. apply T; assumption.
Qed.
Lemma hvia_separated {A B} I S (item : pp A) (sep : pp B) : hvia f_none I item -> hvia f_none S sep -> inh I -> hvia f_none (seps I S) (p_separated_by item sep).
Proof.
  intros P Q N st. unfold p_separated_by. pose proof (P st) as P1. assert (W0 : forall x, I x -> cat I (star (cat S I)) x) by (intros x X; exists x, []; split; [rewrite app_nil_r; reflexivity|split; [exact X|constructor]]).
  assert (W : forall x, I x -> seps I S x) by (intros x X; right; apply W0; exact X).
  destruct (item st) as [es v al r|es e|]; [| |exact Logic.I].
  - destruct P1 as ((pre & -> & X) & P1). pose proof (sep_hvia I S item sep P Q N (length (pre ++ r) + 3) es [v] al (pre ++ r) pre r eq_refl (W0 _ X)) as V.
    assert (R : ahreach f_none (cat I (star (cat S I))) (pre ++ r) al) by (intros l El; apply (hreach_weak _ I); [exact W0|auto]).
    specialize (V R). destruct (p_sep_tail _ _ _ _ _ _ _) as [es' v' al' r'|es' e'|]; [| |exact Logic.I].
    + destruct V as ((pre' & E & Y) & V). split; [exists pre'; split; [exact E|right; exact Y]|]. intros l El. apply (hreach_weak _ (cat I (star (cat S I)))); [right; assumption|auto].
    + apply (hreach_weak _ (cat I (star (cat S I)))); [right; assumption|auto].
  - split; [exists []; split; [reflexivity|left; reflexivity]|]. apply ahreach_some. apply (hreach_weak _ I); assumption.
Qed.

(** ** The grammar *)
Lemma hvia_key k : hvia f_none (key k) (g_kw_spanned eoi k).
Proof. eapply hvia_weak; [|apply hvia_span, hvia_just]. intros x ([t sp] & -> & E). cbn [fst] in E. subst t. exists (k, sp). auto. Qed.
Ltac fm := apply hvia_filter_map; [intros sp t v H; destruct t; try discriminate; eexists; reflexivity|]; intros sp t m H; destruct t; try discriminate; injection H as <-; constructor.
Lemma hvia_modifier : hvia f_none (sing ism) (g_func_modifier eoi). Proof. fm. Qed.
Lemma hvia_global : hvia f_none (sing isg) (g_global_name eoi). Proof. fm. Qed.
Lemma hvia_local : hvia f_none (sing isl) (g_local_name eoi). Proof. fm. Qed.
Lemma hvia_type : hvia f_none (sing ist) (g_type eoi). Proof. fm. Qed.
Lemma hvia_ident : hvia f_none (sing isi) (g_ident eoi). Proof. fm. Qed.
Lemma hvia_dbg : hvia f_none (sing isd) (g_dbg_ref eoi). Proof. fm. Qed.
Lemma hvia_hex : hvia f_none (sing ish) (g_hexnum eoi). Proof. fm. Qed.
Lemma hvia_eol : hvia f_end (alt (sing (eq TNewline)) eps) (g_eol eoi).
Proof. apply hvia_or; [apply (hvia_free f_none); [intros o []|apply hvia_just]|apply hvia_map, hvia_end]. Qed.
Ltac inh :=
  lazymatch goal with
  | |- inh (sing isg) => apply inh_isg
  | |- inh (sing isl) => apply inh_isl
  | |- inh (sing ist) => apply inh_ist
  | |- inh (sing isi) => apply inh_isi
  | |- inh (sing isd) => apply inh_isd
  | |- inh (sing ish) => apply inh_ish
  | |- inh (sing ism) => apply inh_ism
  | |- inh (sing (eq _)) => apply inh_eq
  | |- inh (sing (fun _ => True)) => apply inh_true
  | |- inh (sing (fun t => ~ In t _)) => first [apply (inh_none _ (TNum [])); intros [H|H]; (repeat destruct H as [H|H]); try discriminate; try contradiction]
  | |- inh (key _) => apply inh_key
  | |- inh (star _) => apply inh_star
  | |- inh eps => apply inh_eps
  | |- inh (plus _) => apply inh_cat; [inh|apply inh_star]
  | |- inh (cat _ _) => apply inh_cat; inh
  | |- inh (alt _ _) => apply inh_alt_l; inh
  | |- inh (seps _ _) => apply inh_alt_l; inh
  end.
Ltac unl := repeat match goal with
  | H : cat _ _ _ |- _ => let a := fresh "a" in let b := fresh "b" in let A := fresh "A" in let B := fresh "B" in destruct H as (a & b & -> & A & B)
  | H : sing isg _ |- _ => apply get_g in H as [? ->]
  | H : sing isl _ |- _ => apply get_l in H as [? ->]
  | H : sing ist _ |- _ => apply get_t in H as [? ->]
  | H : sing isi _ |- _ => apply get_i in H as [? ->]
  | H : sing ish _ |- _ => apply get_h in H as [? ->]
  | H : sing (eq _) _ |- _ => apply get_eq in H as [? ->]
  | H : sing (fun _ => True) _ |- _ => destruct H as (? & -> & _)
  | H : eps _ |- _ => unfold eps in H; subst
  | H : key _ _ |- _ => destruct H as (? & -> & ?)
  end.
Ltac hvia :=
  lazymatch goal with
  | |- hvia f_none _ (g_func_modifier _) => apply hvia_modifier
  | |- hvia f_none _ (g_global_name _) => apply hvia_global
  | |- hvia f_none _ (g_local_name _) => apply hvia_local
  | |- hvia f_none _ (g_type _) => apply hvia_type
  | |- hvia f_none _ (g_ident _) => apply hvia_ident
  | |- hvia f_none _ (g_dbg_ref _) => apply hvia_dbg
  | |- hvia f_none _ (g_hexnum _) => apply hvia_hex
  | |- hvia f_end _ (g_eol _) => apply hvia_eol
  | |- hvia f_nl _ (g_nl_ahead _) => apply hvia_ahead
  | |- hvia f_none _ (g_kw_spanned _ _) => apply hvia_key
  | |- hvia f_none _ (p_just _ _ _) => apply hvia_just
  | |- hvia f_none _ (p_none_of _ _ _) => apply hvia_none_of
  | |- hvia f_none _ (p_any _) => apply hvia_any
  | |- hvia _ _ (p_map _ _) => apply hvia_map; hvia
  | |- hvia _ _ (p_map_with_span _ _ _) => apply hvia_span; hvia
  | |- hvia _ _ (p_validate _ _ _) => apply hvia_validate; hvia
  | |- hvia _ _ (p_then_ignore _ _) => apply hvia_map; hvia
  | |- hvia _ _ (p_ignore_then _ _) => apply hvia_map; hvia
  | |- hvia _ _ (p_delimited_by _ _ _) => apply hvia_map; hvia
  | |- hvia _ _ (p_padded_by _ _) => apply hvia_map; hvia
  | |- hvia _ _ (p_then _ _) => eapply hvia_then; [hvia|hvia|inh]
  | |- hvia _ _ (p_or _ _) => eapply hvia_or; [hvia|hvia]
  | |- hvia _ _ (p_or_not _) => eapply hvia_or_not; hvia
  | |- hvia f_none _ (p_repeated _) => eapply hvia_repeated; hvia
  | |- hvia f_none _ (p_repeated_at_least 1 _) => eapply hvia_repeated1; [hvia|inh]
  | |- hvia f_none _ (p_separated_by _ _) => eapply hvia_separated; [hvia|hvia|inh]
  | |- hvia _ _ ?p => let h := head_of p in unfold h; hvia
  end
with head_of p := lazymatch p with ?f _ => head_of f | ?f => f end.

(** ** Instructions *)
Ltac start0 := eapply hvia_weak; cycle 1; [hvia|]; intros x X; unl; rewrite ?app_nil_r.
Ltac start := (eapply lbody_intro; [|eassumption]); repeat (rewrite <- app_assoc || cbn [app]).
Lemma hvia_br : hvia f_nl lbody (g_br eoi).
Proof. start0. start. apply bs_br. assumption. Qed.
Lemma hvia_condbr : hvia f_nl lbody (g_condbr eoi).
Proof. start0. start. apply bs_cond. assumption. Qed.
Lemma hvia_overflowbr : hvia f_nl lbody (g_overflowbr eoi).
Proof. start0. start. match goal with H : star _ _ |- _ => apply skip_language in H end. eapply bs_overflow. assumption. Qed.
Lemma hvia_switch : hvia f_nl lbody (g_switch eoi).
Proof.
  start0. match goal with H : star _ _ |- _ => apply skip_language in H end. match goal with H : seps _ _ _ |- _ => apply (seps_comma _ case_seg) in H as [l Hl] end.
  - start. eapply bs_switch; eassumption.
  - intros y Y. unl. eexists. do 4 eexists. repeat (rewrite <- app_assoc || cbn [app]). reflexivity.
Qed.
Lemma hvia_phi : hvia f_nl lbody (g_phi eoi).
Proof.
  start0. match goal with H : seps _ _ _ |- _ => apply (seps_comma _ phi_seg) in H as [l Hl] end.
  - start. eapply bs_phi; eassumption.
  - intros y Y. unl. match goal with H : star _ _ |- _ => apply star_class in H; rename H into V end. repeat (rewrite <- app_assoc || cbn [app]). match goal with |- exists a, phi_seg a (_ :: tident ?t :: _ :: ?v ++ _) => exists t; do 2 eexists; exists v; eexists end. split; [|reflexivity].
    eapply Forall_impl; [|exact V]. intros t T. split; intros E; apply T; rewrite E; cbn [In]; auto.
Qed.
(** other instructions: no colon behind the first word *)
Notation soup_ := (star (sing (fun t => t <> TNewline /\ ~ SpecParse.is_dbg t))).
Lemma hvia_soup : hvia f_none soup_ (p_repeated (p_not eoi (p_or (p_to (p_just token_eqb eoi TNewline) tt) (p_to (g_dbg_ref eoi) tt)))).
Proof.
  apply hvia_repeated. intros [|[t sp] st]; unfold p_not, p_or, p_to, p_map, p_just, g_dbg_ref, p_filter_map; [apply (hreach_here _ _ [] _ (Forall_nil _))|].
  destruct (token_eqb_spec t TNewline) as [->|E]; [apply (hreach_here _ _ ((TNewline, sp) :: st) _ (Forall_nil _))|].
  destruct t; try (apply (hreach_here _ _ ((TDebugRef n, sp) :: st) _ (Forall_nil _))); cbn [err_here l_rem]; rewrite ?Nat.ltb_irrefl; (split; [|apply ahreach_none]); eexists [(_, _)]; (split; [reflexivity|]); eexists; (split; [reflexivity|]); (split; [exact E|intros [y Y]; discriminate]).
Qed.
(** the soup asks for nothing *)
Definition mute (e : located token) : Prop := e_expected (l_err e) = [] /\ e_reason (l_err e) = Unexpected.
Lemma soup_mute st : match p_repeated (p_not eoi (p_or (p_to (p_just token_eqb eoi TNewline) tt) (p_to (g_dbg_ref eoi) tt))) st with
  | POk _ _ al r => forall l, al = Some l -> mute l | PErr _ e => mute e | PPanic => True end.
Proof.
  assert (B : forall s, match p_not eoi (p_or (p_to (p_just token_eqb eoi TNewline) tt) (p_to (g_dbg_ref eoi) tt)) s with POk _ _ al r => al = None | PErr _ e => mute e | PPanic => True end).
  { intros s. unfold p_not. destruct (p_or _ _ s); [destruct s as [|[t sp] s]; split; reflexivity| |exact I]. destruct s as [|[t sp] s]; [split; reflexivity|reflexivity]. }
  unfold p_repeated, p_repeated_at_least. match goal with |- context [p_rep ?f _ _ _ _ _ _ _] => generalize f end. intros fuel.
  assert (G : forall old errs outs, match p_rep fuel (p_not eoi (p_or (p_to (p_just token_eqb eoi TNewline) tt) (p_to (g_dbg_ref eoi) tt))) 0 old errs outs None st with POk _ _ al r => forall l, al = Some l -> mute l | PErr _ e => mute e | PPanic => True end); [|apply G].
  revert st. induction fuel as [|fuel IH]; intros st old errs outs; [exact I|]. cbn [p_rep]. specialize (B st). destruct (p_not _ _ st) as [es v al r|es e|]; [| |exact I].
  - destruct (match old with Some k => k =? _ | None => false end); [exact I|]. subst al. cbn [merge_alts]. apply IH.
  - destruct (length outs); cbn [Nat.ltb Nat.leb merge_alts]; intros l E; injection E as <-; exact B.
Qed.
Lemma hreach_mute X L st e : mute e -> (exists pre y, st = pre ++ y /\ l_rem e = length y) -> hreach X L st e.
Proof. intros [M1 M2] (pre & y & E & R). exists pre, y. split; [exact E|]. split; [exact R|]. split; [rewrite M1; constructor|rewrite M2; exact I]. Qed.
Lemma hreach_kind X (L : lang) (st : strm) e m good : l_rem e = length st -> e_expected (l_err e) = [] -> e_reason (l_err e) = CustomMsg m -> demand m good -> (forall tk sp, good tk -> exists w, L ((tk, sp) :: w)) -> hreach X L st e.
Proof. intros R E F D G. exists [], st. split; [reflexivity|]. split; [exact R|]. split; [rewrite E; constructor|]. rewrite F. exists good. split; [exact D|exact G]. Qed.
Lemma hvia_words : hvia f_none lword (p_then_ignore (p_then_ignore (g_ident eoi) (p_rewind (p_none_of token_eqb eoi [TPunct (ch ":")]))) (p_repeated (p_not eoi (p_or (p_to (p_just token_eqb eoi TNewline) tt) (p_to (g_dbg_ref eoi) tt))))).
Proof.
  assert (W : forall m, lword [tident m]) by (intros m; exists m, []; split; [reflexivity|]; split; [constructor|discriminate]).
  intros st0. pose proof (via_words eoi st0) as VW. revert VW. destruct st0 as [|[t sp] st]; unfold p_then_ignore at 1 2 3 4, p_map, p_then at 1 2 3 4.
  - intros _. apply (hreach_here _ _ [] _ (Forall_nil _)).
  - unfold g_ident, p_filter_map. destruct t; try (intros _; eapply (hreach_kind _ _ _ _ _ isi); [reflexivity|reflexivity|reflexivity|apply dm_ident|]; intros tk s [m ->]; exists []; apply (W (m, s))).
    unfold p_rewind, p_none_of. destruct st as [|[t2 sp2] st].
    + intros _. apply hreach_mute; [split; reflexivity|]. exists [(TIdent n, sp)], []. split; reflexivity.
    + cbn [existsb]. rewrite orb_false_r. destruct (token_eqb_spec t2 (TPunct (ch ":"))) as [->|C].
      * intros _. apply hreach_mute; [split; reflexivity|]. exists [(TIdent n, sp)], ((TPunct (ch ":"), sp2) :: st). split; reflexivity.
      * pose proof (soup_mute ((t2, sp2) :: st)) as M. pose proof (hvia_soup ((t2, sp2) :: st)) as V. destruct (p_repeated _ _) as [es v al r|es e|]; [| |intros _; exact I].
        -- intros [V1 _]. split; [exact V1|]. destruct V as [_ V]. intros l El. destruct al as [al|]; [|discriminate]. cbn [merge_alts] in El. injection El as <-.
           apply hreach_mute; [apply M; reflexivity|]. destruct (V al eq_refl) as (pre & y & E & R & _). exists ((TIdent n, sp) :: pre), y. split; [cbn [app]; rewrite <- E; reflexivity|exact R].
        -- intros _. cbn [merge_alts loc_max]. apply hreach_mute; [exact M|]. destruct V as (pre & y & E & R & _). exists ((TIdent n, sp) :: pre), y. split; [cbn [app]; rewrite <- E; reflexivity|exact R].
Qed.
Lemma hvia_any_instr : hvia f_nl lbody (g_any_instr eoi).
Proof.
  eapply hvia_weak; cycle 1.
  - unfold g_any_instr. apply hvia_span. apply hvia_map. eapply hvia_then; [eapply hvia_then; [apply hvia_words|hvia|inh]|hvia|inh].
  - intros x X. unl. rewrite app_nil_r. match goal with H : lword _ |- _ => destruct H as (m & soup & -> & H1 & H2) end. start. apply bs_other; assumption.
Qed.
Lemma hvia_alternatives : hvia f_nl lbody (g_instr_alternatives eoi).
Proof.
  eapply hvia_weak; cycle 1; [unfold g_instr_alternatives; repeat eapply hvia_or; [apply hvia_br|apply hvia_condbr|apply hvia_overflowbr|apply hvia_switch|apply hvia_phi|apply hvia_any_instr]|].
  unfold alt. intros x X. repeat destruct X as [X|X]; exact X.
Qed.
Lemma hvia_instruction : hvia f_nl linstr (g_instruction eoi).
Proof.
  eapply hvia_weak; cycle 1.
  - unfold g_instruction. apply hvia_span. eapply hvia_then; [hvia|apply hvia_alternatives|apply inh_lbody].
  - intros x (a & b & -> & A & f & m & refs & body & dbg & H & ->).
    assert (exists tgt, target_seg tgt a) as [tgt T].
    { destruct A as [->|A]; [exists None; reflexivity|]. unl. eexists (Some _). do 2 eexists. repeat (rewrite <- app_assoc || cbn [app]). reflexivity. }
    exists (mkInstr tgt m refs dbg (cover (a ++ body ++ opt_seg tdbg dbg))), (form_errors f (fst m)). exists f, a, body. cbn [i_target i_instr i_refs i_dbg i_span]. repeat split; assumption.
Qed.
Lemma hvia_nls : hvia f_none (star (sing (eq TNewline))) (g_nls eoi).
Proof. unfold g_nls. apply hvia_repeated, hvia_just. Qed.
Lemma hvia_line : hvia f_none lline (p_padded_by (g_instruction eoi) (g_nls eoi)).
Proof.
  assert (V : hvia f_none (cat (cat (star (sing (eq TNewline))) linstr) (star (sing (eq TNewline)))) (p_padded_by (g_instruction eoi) (g_nls eoi))).
  { unfold p_padded_by. apply hvia_map. apply (hvia_then' f_none f_nl); [|apply hvia_map, hvia_then; [apply hvia_nls|apply hvia_instruction|apply inh_linstr]|apply hvia_nls|inh].
    intros o ->. right. intros sp. exists []. apply star_one. exists (TNewline, sp). auto. }
  assert (R : forall st e, hreach f_none (cat (cat (star (sing (eq TNewline))) linstr) (star (sing (eq TNewline)))) st e -> hreach f_none lline st e).
  { intros st e (pre & y & E & L & O). exists pre, y. split; [exact E|]. split; [exact L|]. eapply hopes_map; [| |exact O]; [intros o []|].
    intros t sp w (ab & c & X & (a & b & -> & A & i & n & B) & D). exists (w ++ [(TNewline, mkSpan 0 0)]). replace (pre ++ (t, sp) :: w ++ [(TNewline, mkSpan 0 0)]) with ((pre ++ (t, sp) :: w) ++ [(TNewline, mkSpan 0 0)]) by (rewrite <- app_assoc; reflexivity). rewrite X.
    apply star_newlines in A. apply star_newlines in D. exists a, i, n, b, (c ++ [(TNewline, mkSpan 0 0)]). split; [exact A|]. split; [exact B|]. split; [apply Forall_app; split; [exact D|constructor; [reflexivity|constructor]]|].
    split; [destruct c; discriminate|]. rewrite <- !app_assoc. reflexivity. }
  intros st. specialize (V st). pose proof (via_line eoi st) as VL. destruct (p_padded_by _ _ st) as [es v al r|es e|]; [|apply R; exact V|exact I].
  destruct V as (_ & V). split; [apply VL|]. intros l El. apply R; auto.
Qed.
Lemma hvia_block : hvia f_none lblock (g_basic_block eoi).
Proof.
  eapply hvia_weak; cycle 1.
  - unfold g_basic_block. apply hvia_map. eapply hvia_then; [hvia|apply hvia_repeated, hvia_line|inh].
  - intros x X. unl. match goal with H : plus _ _ |- _ => apply plus_newlines in H as [N1 N2] end. match goal with H : star lline _ |- _ => apply star_lines in H as (l & n & H) end.
    match goal with |- lblock (((([tident ?a] ++ [(?c, ?s)]) ++ ?b) ++ ?r)) => exists (mkBB (Some a) (Some s) l (mkSpan (sp_start (snd a)) (last_end_of l (sp_end (snd a))))), n; exists a, s, b, r end.
    repeat (rewrite <- app_assoc || cbn [app]). cbn [bb_label bb_label_comma bb_instrs bb_span]. split; [reflexivity|]. split; [reflexivity|]. split; [exact N1|]. split; [exact N2|]. split; [assumption|]. split; reflexivity.
Qed.
Lemma hvia_body : hvia f_none lfbody (g_func_body eoi).
Proof.
  eapply hvia_weak; cycle 1.
  - unfold g_func_body. apply hvia_map. eapply hvia_then; [eapply hvia_then; [eapply hvia_then; [hvia|apply hvia_or_not, hvia_map, hvia_repeated1; [apply hvia_line|apply inh_lline]|inh]|apply hvia_repeated, hvia_block|inh]|hvia|inh].
  - intros x X. unl. match goal with H : plus _ _ |- _ => apply plus_newlines in H as [N1 N2] end. match goal with H : star lblock _ |- _ => apply star_blocks in H as (bbs & n2 & H2) end.
    match goal with H : alt eps (plus lline) ?a |- _ => assert (exists o n1, first_block_seg any_form o n1 a) as (o & n1 & H1) end.
    { match goal with H : alt eps (plus lline) _ |- _ => rename H into HL end. destruct HL as [->|HL]; [exists None, 0; split; reflexivity|]. apply plus_lines in HL as (i & l & n & H).
      exists (Some (mkBB None None (i :: l) (mkSpan (sp_start (i_span i)) (last_end_of (i :: l) 0)))), n. split; [reflexivity|]. split; [reflexivity|]. split; [exact H|]. exists i, l. split; reflexivity. }
    match goal with |- lfbody ((((([(_, ?s)] ++ ?nls) ++ ?a) ++ ?b) ++ [(_, ?t)])) => exists (mkBody s t (match o with Some x => x :: bbs | None => bbs end)), (n1 + n2); exists nls, o, n1, a, bbs, n2, b end.
    cbn [fb_open fb_close fb_blocks]. split; [exact N1|]. split; [exact N2|]. split; [exact H1|]. split; [exact H2|]. split; [reflexivity|]. split; [reflexivity|]. repeat (rewrite <- app_assoc || cbn [app]). reflexivity.
Qed.
Lemma hvia_sig : hvia f_none lsig (g_func_signature eoi).
Proof.
  eapply hvia_weak; cycle 1; [unfold g_func_signature; hvia|]. intros x X. unl. match goal with H : star (sing ism) _ |- _ => apply star_modifiers in H as [ms ->] end.
  match goal with H : seps _ _ _ |- _ => apply (seps_comma _ arg_seg) in H as [args H] end.
  - match goal with |- lsig ((((_ ++ [ttype ?t]) ++ [tglobal ?g]) ++ ([(_, ?o)] ++ ?a) ++ [(_, ?c)])) => exists (mkSig ms t g args), o, c, a end. cbn [fs_args fs_modifiers fs_ret fs_name]. split; [assumption|].
    repeat (rewrite <- app_assoc || cbn [app]). reflexivity.
  - intros y Y. unl. match goal with |- exists a, arg_seg a ([ttype ?t] ++ [tlocal ?n]) => exists (mkArg t n) end. reflexivity.
Qed.
Ltac fin := repeat (rewrite <- app_assoc || cbn [app]).
Lemma hvia_var : hvia f_end lstmt (g_global_var eoi).
Proof.
  eapply hvia_weak; cycle 1; [unfold g_global_var; hvia|]. intros x X. unl. match goal with H : alt _ _ _ |- _ => apply eol_language in H end. match goal with H : star _ _ |- _ => apply soup_language in H end.
  do 2 eexists. fin. eapply ss_var; eassumption.
Qed.
Lemma hvia_ann : hvia f_end lstmt (g_dbg_annotation eoi).
Proof.
  eapply hvia_weak; cycle 1; [unfold g_dbg_annotation; hvia|]. intros x X. unl. match goal with H : alt _ _ _ |- _ => apply eol_language in H end. match goal with H : star _ _ |- _ => apply soup_language in H end.
  match goal with H : sing isd _ |- _ => apply get_d in H as [? ->] end. do 2 eexists. fin. eapply ss_dbg; eassumption.
Qed.
Lemma hvia_deps : hvia f_none lstmt (g_func_deps eoi).
Proof.
  eapply hvia_weak; cycle 1; [unfold g_func_deps; hvia|]. intros x X. unl. match goal with H : seps _ _ _ |- _ => apply (seps_comma _ (fun a s => s = [tglobal a])) in H as [ds H] end.
  - do 2 eexists. fin. eapply ss_deps; [eassumption|]. destruct ds; cbn [deps_stop]; discriminate.
  - intros y Y. apply get_g in Y as [n ->]. exists n. reflexivity.
Qed.
Lemma hvia_decl : hvia f_end lstmt (g_func_decl eoi).
Proof.
  eapply hvia_weak; cycle 1.
  - unfold g_func_decl. apply hvia_map, hvia_map. eapply hvia_then; [eapply hvia_then; [eapply hvia_then; [apply hvia_map; eapply hvia_then; [hvia|apply hvia_sig|apply inh_lsig]|hvia|inh]|hvia|inh]|hvia|inh].
  - intros x X. unl. match goal with H : alt (sing (eq TNewline)) eps _ |- _ => apply eol_language in H end. match goal with H : lsig _ |- _ => destruct H as [sg Hs] end. match goal with H : alt eps (sing isd) _ |- _ => apply dbg_opt in H as [d ->] end.
    match goal with H : alt eps ?L ?a |- _ => assert (exists addr, match addr with Some h => exists eq, a = [tp (ch "=") eq; thex h] | None => a = [] end) as [addr Ha] end.
    { match goal with H : alt eps _ _ |- _ => destruct H as [->|H] end; [exists None; reflexivity|]. unl. match goal with |- context [thex ?h] => exists (Some h) end. eexists. reflexivity. }
    do 2 eexists. fin. eapply ss_decl; eassumption.
Qed.
Lemma hvia_def : hvia f_end lstmt (g_func_def eoi).
Proof.
  eapply hvia_weak; cycle 1.
  - unfold g_func_def. apply hvia_map, hvia_map. eapply hvia_then; [eapply hvia_then; [eapply hvia_then; [hvia|apply hvia_sig|apply inh_lsig]|apply hvia_body|apply inh_lfbody]|hvia|inh].
  - intros x X. unl. match goal with H : alt (sing (eq TNewline)) eps _ |- _ => apply eol_language in H end. match goal with H : lsig _ |- _ => destruct H as [sg Hs] end. match goal with H : lfbody _ |- _ => destruct H as (bd & n & Hb) end.
    do 2 eexists. fin. eapply ss_def; eassumption.
Qed.
Lemma hvia_choices : hvia f_end lstmt (g_stmt_alternatives eoi).
Proof.
  eapply hvia_weak; cycle 1; [unfold g_stmt_alternatives; repeat eapply hvia_or; [apply hvia_var|apply hvia_decl|apply hvia_def|apply (hvia_free f_none); [intros ? []|apply hvia_deps]|apply hvia_ann]|]. unfold alt. intros x X. repeat destruct X as [X|X]; exact X.
Qed.
End One.
