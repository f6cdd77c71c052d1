(** Views of chumsky results without alternative errors, and their algebra. *)
From Verif Require Import Text Chumsky.

Inductive view (I A : Type) :=
| VOk (n : nat) (a : A) (rest : list (I * span))     (* n secondary errors *)
| VFail
| VPanic.
Arguments VOk {I A}. Arguments VFail {I A}. Arguments VPanic {I A}.

Section Views.
Context {I : Type}.
Notation strm := (list (I * span)).

Definition vw {A} (r : pres I A) : view I A :=
  match r with
  | POk es a _ rest => VOk (length es) a rest
  | PErr _ _ => VFail
  | PPanic => VPanic
  end.

Definition vbind {A B} (v : view I A) (f : nat -> A -> strm -> view I B) : view I B :=
  match v with VOk n a r => f n a r | VFail => VFail | VPanic => VPanic end.
Definition vadd {A} (n : nat) (v : view I A) : view I A :=
  match v with VOk m a r => VOk (n + m) a r | x => x end.

Lemma vw_ok {A} (r : pres I A) n a rest : vw r = VOk n a rest ->
  exists es alt, r = POk es a alt rest /\ length es = n.
Proof. destruct r; cbn; intros H; try discriminate. injection H as <- <- <-. eauto. Qed.
Lemma vw_ok0 {A} (r : pres I A) a rest : vw r = VOk 0 a rest -> exists alt, r = POk [] a alt rest.
Proof. intros H. apply vw_ok in H as (es & alt & -> & He). destruct es; [eauto|discriminate]. Qed.
Lemma vw_fail {A} (r : pres I A) : vw r = VFail -> exists es e, r = PErr es e.
Proof. destruct r; cbn; intros H; try discriminate. eauto. Qed.
Lemma vw_panic {A} (r : pres I A) : vw r = VPanic -> r = PPanic.
Proof. destruct r; cbn; intros H; try discriminate. reflexivity. Qed.

Section Comb.
Variable eqb : I -> I -> bool.
Variable eoi : span.

Lemma vw_map {A B} (p : parser A) (f : A -> B) st :
  vw (p_map p f st) = vbind (vw (p st)) (fun n a r => VOk n (f a) r).
Proof. unfold p_map. destruct (p st); reflexivity. Qed.

Lemma vw_to {A B} (p : parser A) (b : B) st :
  vw (p_to p b st) = vbind (vw (p st)) (fun n _ r => VOk n b r).
Proof. apply vw_map. Qed.

Lemma vw_map_with_span {A B} (p : parser A) (f : A -> span -> B) st :
  vw (p_map_with_span eoi p f st) = vbind (vw (p st)) (fun n a r => VOk n (f a (span_since eoi st r)) r).
Proof. unfold p_map_with_span. destruct (p st); reflexivity. Qed.

Lemma vw_then {A B} (p : parser A) (q : parser B) st :
  vw (p_then p q st) =
  vbind (vw (p st)) (fun n a r => vbind (vw (q r)) (fun m b r' => VOk (n + m) (a, b) r')).
Proof.
  unfold p_then. destruct (p st) as [es a alt r| |]; try reflexivity. cbn.
  destruct (q r) as [es' b alt' r'| |]; try reflexivity. cbn. rewrite app_length. reflexivity.
Qed.

Lemma vw_ignore_then {A B} (p : parser A) (q : parser B) st :
  vw (p_ignore_then p q st) =
  vbind (vw (p st)) (fun n _ r => vbind (vw (q r)) (fun m b r' => VOk (n + m) b r')).
Proof.
  unfold p_ignore_then. rewrite vw_map, vw_then.
  destruct (vw (p st)); try reflexivity. cbn. destruct (vw (q rest)); reflexivity.
Qed.
Lemma vw_then_ignore {A B} (p : parser A) (q : parser B) st :
  vw (p_then_ignore p q st) =
  vbind (vw (p st)) (fun n a r => vbind (vw (q r)) (fun m _ r' => VOk (n + m) a r')).
Proof.
  unfold p_then_ignore. rewrite vw_map, vw_then.
  destruct (vw (p st)); try reflexivity. cbn. destruct (vw (q rest)); reflexivity.
Qed.

Lemma vw_padded_by {A B} (p : parser A) (pad : parser B) st :
  vw (p_padded_by p pad st) =
  vbind (vw (pad st)) (fun n1 _ r1 => vbind (vw (p r1)) (fun n2 a r2 =>
  vbind (vw (pad r2)) (fun n3 _ r3 => VOk (n1 + n2 + n3) a r3))).
Proof.
  unfold p_padded_by. rewrite vw_then_ignore, vw_ignore_then.
  destruct (vw (pad st)); try reflexivity. cbn. destruct (vw (p rest)); reflexivity.
Qed.
Lemma vw_delimited_by {A B C} (p : parser A) (l : parser B) (rr : parser C) st :
  vw (p_delimited_by p l rr st) =
  vbind (vw (l st)) (fun n1 _ r1 => vbind (vw (p r1)) (fun n2 a r2 =>
  vbind (vw (rr r2)) (fun n3 _ r3 => VOk (n1 + n2 + n3) a r3))).
Proof.
  unfold p_delimited_by. rewrite vw_then_ignore, vw_ignore_then.
  destruct (vw (l st)); try reflexivity. cbn. destruct (vw (p rest)); reflexivity.
Qed.

Lemma vw_or_ok {A} (p q : parser A) st a r : vw (p st) = VOk 0 a r -> vw (p_or p q st) = VOk 0 a r.
Proof. intros H. apply vw_ok0 in H as (alt & H). unfold p_or. rewrite H. reflexivity. Qed.
Lemma vw_or_fail {A} (p q : parser A) st : vw (p st) = VFail -> vw (p_or p q st) = vw (q st).
Proof.
  intros H. apply vw_fail in H as (es & e & H). unfold p_or. rewrite H.
  destruct (q st) as [[|] b balt br|bes be|]; try reflexivity.
  destruct (_ <? _); [reflexivity|]. destruct (_ <? _); reflexivity.
Qed.
Lemma vw_or_panic {A} (p q : parser A) st : vw (p st) = VPanic -> vw (p_or p q st) = VPanic.
Proof. intros H. apply vw_panic in H. unfold p_or. rewrite H. reflexivity. Qed.
Lemma vw_or_err_ok {A} (p q : parser A) st n a r b r' :
  vw (p st) = VOk (S n) a r -> vw (q st) = VOk 0 b r' -> vw (p_or p q st) = VOk 0 b r'.
Proof.
  intros H Hq. apply vw_ok in H as (es & alt & H & He). apply vw_ok0 in Hq as (alt' & Hq).
  unfold p_or. rewrite H, Hq. destruct es; [discriminate|]. reflexivity.
Qed.
Lemma vw_or_err_fail {A} (p q : parser A) st n a r :
  vw (p st) = VOk (S n) a r -> vw (q st) = VFail -> vw (p_or p q st) = VOk (S n) a r.
Proof.
  intros H Hq. apply vw_ok in H as (es & alt & H & He). apply vw_fail in Hq as (es' & e & Hq).
  unfold p_or. rewrite H, Hq. destruct es; [discriminate|]. cbn. rewrite <- He. reflexivity.
Qed.
(** general form: one of the two results, or a panic of one of them *)
Lemma vw_or_inv {A} (p q : parser A) st :
  vw (p_or p q st) = vw (p st) \/ vw (p_or p q st) = vw (q st).
Proof.
  unfold p_or. destruct (p st) as [[|] a alt r|es e|]; [left; reflexivity | | | left; reflexivity].
  - destruct (q st) as [[|] b balt br|bes be|]; cbn; auto.
    match goal with |- context [if ?b then _ else _] => destruct b end; cbn; auto.
  - destruct (q st) as [[|] b balt br|bes be|]; cbn; auto.
    repeat match goal with |- context [if ?b then _ else _] => destruct b end; cbn; auto.
Qed.

Fixpoint vchoice {A} (vs : list (view I A)) : view I A :=
  match vs with
  | [] => VFail
  | VFail :: r => vchoice r
  | x :: _ => x
  end.
Lemma vw_choice_from {A} (ps : list (parser (I:=I) A)) st : forall alt,
  vw (p_choice_from eoi alt ps st) = vchoice (map (fun p => vw (p st)) ps).
Proof.
  induction ps as [|p ps IH]; intros alt; cbn.
  - destruct alt; reflexivity.
  - destruct (p st); cbn; try reflexivity. apply IH.
Qed.
Lemma vw_choice {A} (ps : list (parser (I:=I) A)) st :
  vw (p_choice eoi ps st) = vchoice (map (fun p => vw (p st)) ps).
Proof. apply vw_choice_from. Qed.
Lemma choice_err_nil {A} (ps : list (parser (I:=I) A)) st : forall alt es e,
  p_choice_from eoi alt ps st = PErr es e -> es = [].
Proof.
  induction ps as [|p ps IH]; intros alt es e; cbn.
  - destruct alt; intros H; injection H as <- _; reflexivity.
  - destruct (p st); try discriminate. apply IH.
Qed.

Lemma vw_or_not {A} (p : parser A) st :
  vw (p_or_not p st) = match vw (p st) with
                       | VOk n a r => VOk n (Some a) r
                       | VFail => VOk 0 None st
                       | VPanic => VPanic
                       end.
Proof. unfold p_or_not. destruct (p st); reflexivity. Qed.

Lemma vw_rewind {A} (p : parser A) st :
  vw (p_rewind p st) = vbind (vw (p st)) (fun n a _ => VOk n a st).
Proof. unfold p_rewind. destruct (p st); reflexivity. Qed.

Lemma vw_not {A} (p : parser A) st :
  vw (p_not eoi p st) = match vw (p st) with
                    | VOk _ _ _ => VFail
                    | VFail => match st with (x, _) :: r => VOk 0 x r | [] => VFail end
                    | VPanic => VPanic
                    end.
Proof. unfold p_not. destruct (p st); try reflexivity. destruct st as [|[x sp] r]; reflexivity. Qed.

Lemma vw_filter f st :
  vw (p_filter eoi f st) = match st with
                       | (x, _) :: r => if f x then VOk 0 x r else VFail
                       | [] => VFail
                       end.
Proof. unfold p_filter. destruct st as [|[x sp] r]; [reflexivity|]. destruct (f x); reflexivity. Qed.

Lemma vw_filter_map {O} (f : span -> I -> O + text) st :
  vw (p_filter_map eoi f st) =
  match st with
  | (x, sp) :: r => match f sp x with inl o => VOk 0 o r | inr _ => VFail end
  | [] => VFail
  end.
Proof. unfold p_filter_map. destruct st as [|[x sp] r]; [reflexivity|]. destruct (f sp x); reflexivity. Qed.

Lemma vw_just x st :
  vw (p_just eqb eoi x st) = match st with
                         | (y, _) :: r => if eqb y x then VOk 0 x r else VFail
                         | [] => VFail
                         end.
Proof. unfold p_just. destruct st as [|[y sp] r]; [reflexivity|]. destruct (eqb y x); reflexivity. Qed.

Lemma vw_just_seq xs : forall st,
  vw (p_just_seq eqb eoi xs st) =
  match xs with
  | [] => VOk 0 tt st
  | x :: xs' => match st with
                | (y, _) :: r => if eqb y x then vw (p_just_seq eqb eoi xs' r) else VFail
                | [] => VFail
                end
  end.
Proof.
  intros st. destruct xs as [|x xs]; [reflexivity|]. cbn. unfold p_just.
  destruct st as [|[y sp] r]; [reflexivity|]. destruct (eqb y x); reflexivity.
Qed.

Lemma vw_one_of xs st :
  vw (p_one_of eqb eoi xs st) = match st with
                            | (y, _) :: r => if existsb (eqb y) xs then VOk 0 y r else VFail
                            | [] => VFail
                            end.
Proof. unfold p_one_of. destruct st as [|[y sp] r]; [reflexivity|]. destruct (existsb _ _); reflexivity. Qed.
Lemma vw_none_of xs st :
  vw (p_none_of eqb eoi xs st) = match st with
                             | (y, _) :: r => if existsb (eqb y) xs then VFail else VOk 0 y r
                             | [] => VFail
                             end.
Proof. unfold p_none_of. destruct st as [|[y sp] r]; [reflexivity|]. destruct (existsb _ _); reflexivity. Qed.

Lemma vw_end st :
  vw (p_end eoi st) = match st with [] => VOk 0 tt [] | _ => VFail end.
Proof. destruct st; reflexivity. Qed.

Lemma vw_validate {A} (p : parser A) f st :
  vw (p_validate eoi p f st) =
  vbind (vw (p st)) (fun n a r => VOk (match f a with None => n | Some _ => n + 1 end) a r).
Proof.
  unfold p_validate. destruct (p st); try reflexivity. cbn. destruct (f out); [|reflexivity].
  cbn. rewrite app_length. reflexivity.
Qed.

(** repeated on views *)
Fixpoint vrep {A} (fuel : nat) (p : strm -> view I A) (at_least : nat) (old : option nat)
    (n : nat) (outs : list A) (st : strm) : view I (list A) :=
  match fuel with
  | 0 => VPanic
  | S fuel' =>
      match p st with
      | VPanic => VPanic
      | VOk m a r =>
          if match old with Some k => k =? length r | None => false end then VPanic
          else vrep fuel' p at_least (Some (length r)) (n + m) (outs ++ [a]) r
      | VFail => if length outs <? at_least then VFail else VOk n outs st
      end
  end.
Lemma vw_rep {A} fuel (p : parser A) at_least : forall old errs outs alt st,
  vw (p_rep fuel p at_least old errs outs alt st) =
  vrep fuel (fun s => vw (p s)) at_least old (length errs) outs st.
Proof.
  induction fuel as [|fuel IH]; intros old errs outs alt st; cbn; [reflexivity|].
  destruct (p st) as [es a aalt r|es e|]; cbn; try reflexivity.
  - destruct (match old with Some k => k =? length r | None => false end); [reflexivity|].
    rewrite IH, app_length. reflexivity.
  - match goal with |- context [if ?b then _ else _] => destruct b end; reflexivity.
Qed.

(** A parser that, when it succeeds, consumes at least one item and leaves a
    suffix. *)
Definition consumes {A} (p : strm -> view I A) : Prop :=
  forall st n a r, p st = VOk n a r -> exists x xs, st = (x :: xs) ++ r.
Definition suffixing {A} (p : strm -> view I A) : Prop :=
  forall st n a r, p st = VOk n a r -> exists xs, st = xs ++ r.
Definition no_panic {A} (p : strm -> view I A) : Prop := forall st, p st <> VPanic.

(** The iterations of [p] from [st]: outputs, error count, final rest. *)
Inductive iter {A} (p : strm -> view I A) : strm -> nat -> list A -> strm -> Prop :=
| iter_nil st : p st = VFail -> iter p st 0 [] st
| iter_cons st m a r n l r' : p st = VOk m a r -> iter p r n l r' -> iter p st (m + n) (a :: l) r'.

Lemma iter_det {A} (p : strm -> view I A) st n l r : iter p st n l r ->
  forall n' l' r', iter p st n' l' r' -> n = n' /\ l = l' /\ r = r'.
Proof.
  induction 1 as [st H|st m a r n l r' H _ IH]; intros n2 l2 r2 H2; inversion H2; subst; try congruence.
  - auto.
  - rewrite H in H0. injection H0 as <- <- <-. apply IH in H1 as (-> & -> & ->). auto.
Qed.

Lemma iter_exists {A} (p : strm -> view I A) : consumes p -> no_panic p ->
  forall k st, length st <= k -> exists n l r, iter p st n l r.
Proof.
  intros Hc Hp. induction k as [|k IH]; intros st Hk.
  - destruct st as [|x st]; [|cbn in Hk; lia].
    destruct (p []) as [n a r| |] eqn:E.
    + apply Hc in E as (x & xs & E). discriminate.
    + do 3 eexists. constructor. exact E.
    + exfalso. exact (Hp _ E).
  - destruct (p st) as [n a r| |] eqn:E.
    + pose proof E as E2. apply Hc in E2 as (x & xs & ->).
      destruct (IH r) as (n' & l & r' & Hi); [rewrite app_length in Hk; cbn in Hk; lia|].
      do 3 eexists. econstructor; eassumption.
    + do 3 eexists. constructor. exact E.
    + exfalso. exact (Hp _ E).
Qed.

Lemma iter_suffix {A} (p : strm -> view I A) st n l r : suffixing p -> iter p st n l r ->
  exists xs, st = xs ++ r.
Proof.
  intros Hs. induction 1 as [st H|st m a r n l r' H _ (xs & IH)]; [exists []; reflexivity|].
  apply Hs in H as (ys & ->). subst r. exists (ys ++ xs). rewrite app_assoc. reflexivity.
Qed.

Lemma vrep_iter {A} (p : strm -> view I A) at_least : consumes p -> forall st n l r, iter p st n l r ->
  forall fuel old acc outs, length st < fuel ->
  (forall k, old = Some k -> length st <= k) ->
  vrep fuel p at_least old acc outs st =
  if length (outs ++ l) <? at_least then VFail else VOk (acc + n) (outs ++ l) r.
Proof.
  intros Hc. induction 1 as [st H|st m a r n l r' H Hi IH]; intros fuel old acc outs Hf Hold.
  - destruct fuel as [|fuel]; [lia|]. cbn. rewrite H, app_nil_r, Nat.add_0_r. reflexivity.
  - destruct fuel as [|fuel]; [lia|]. cbn [vrep]. rewrite H.
    pose proof H as H2. apply Hc in H2 as (x & xs & ->).
    rewrite app_length in Hf. cbn in Hf.
    assert (match old with Some k => k =? length r | None => false end = false) as ->.
    { destruct old as [k|]; [|reflexivity]. apply Nat.eqb_neq.
      specialize (Hold k eq_refl). rewrite app_length in Hold. cbn in Hold. lia. }
    rewrite IH.
    + rewrite <- app_assoc. cbn. rewrite Nat.add_assoc. reflexivity.
    + lia.
    + intros k Hk. injection Hk as <-. lia.
Qed.

(** The exact meaning of [repeated().at_least(k)]. *)
Lemma vw_repeated_iter {A} k (p : parser A) st n l r : consumes (fun s => vw (p s)) ->
  iter (fun s => vw (p s)) st n l r ->
  vw (p_repeated_at_least k p st) = if length l <? k then VFail else VOk n l r.
Proof.
  intros Hc Hi. unfold p_repeated_at_least. rewrite vw_rep.
  rewrite (vrep_iter _ k Hc st n l r Hi); [reflexivity | lia | discriminate].
Qed.
Lemma vw_repeated0 {A} (p : parser A) st n l r : consumes (fun s => vw (p s)) ->
  iter (fun s => vw (p s)) st n l r -> vw (p_repeated p st) = VOk n l r.
Proof. intros Hc Hi. unfold p_repeated. rewrite (vw_repeated_iter 0 p st n l r Hc Hi). reflexivity. Qed.

(** separated_by *)
Inductive sep_iter {A B} (p : strm -> view I A) (s : strm -> view I B) : strm -> list A -> strm -> Prop :=
| sep_stop st : s st = VFail -> sep_iter p s st [] st
| sep_stop2 st b r : s st = VOk 0 b r -> p r = VFail -> sep_iter p s st [] st
| sep_cons st b r a r1 l r' : s st = VOk 0 b r -> p r = VOk 0 a r1 -> sep_iter p s r1 l r' ->
    sep_iter p s st (a :: l) r'.

Definition clean {A} (p : strm -> view I A) : Prop := forall st n a r, p st = VOk n a r -> n = 0.
Definition clean_err {A} (p : parser (I := I) A) : Prop := forall st es e, p st = PErr es e -> es = [].

Lemma vw_sep_tail {A B} (p : parser A) (s : parser B) :
  clean_err p -> clean_err s -> consumes (fun x => vw (s x)) -> suffixing (fun x => vw (p x)) ->
  forall st l r, sep_iter (fun x => vw (p x)) (fun x => vw (s x)) st l r ->
  forall fuel outs alt, length st < fuel ->
  vw (p_sep_tail fuel p s [] outs alt st) = VOk 0 (outs ++ l) r.
Proof.
  intros Hcp Hcs Hc Hs. induction 1 as [st H|st b r H Hp|st b r a r1 l r' H Hp Hi IH];
    intros fuel outs alt Hf; (destruct fuel as [|fuel]; [lia|]); cbn [p_sep_tail].
  - apply vw_fail in H as (es & e & H). rewrite H. apply Hcs in H. subst es.
    cbn. rewrite app_nil_r. reflexivity.
  - apply vw_ok0 in H as (alt' & H). rewrite H. apply vw_fail in Hp as (es & e & Hp).
    rewrite Hp. apply Hcp in Hp. subst es. cbn. rewrite app_nil_r. reflexivity.
  - pose proof H as H2. apply Hc in H2 as (x & xs & ->). pose proof Hp as Hp2.
    apply Hs in Hp2 as (ys & ->).
    apply vw_ok0 in H as (alt' & H). rewrite H. apply vw_ok0 in Hp as (alt'' & Hp). rewrite Hp.
    cbn [app]. rewrite IH.
    + rewrite <- app_assoc. reflexivity.
    + cbn [length app] in Hf. rewrite !app_length in Hf. lia.
Qed.

Lemma sep_iter_exists {A B} (p : strm -> view I A) (s : strm -> view I B) :
  clean p -> clean s -> no_panic p -> no_panic s -> consumes s -> suffixing p ->
  forall k st, length st <= k -> exists l r, sep_iter p s st l r.
Proof.
  intros Hcp Hcs Hnp Hns Hc Hs. induction k as [|k IH]; intros st Hk.
  - destruct (s st) as [n b r| |] eqn:E.
    + apply Hc in E as (x & xs & ->). cbn in Hk. lia.
    + do 2 eexists. apply sep_stop. exact E.
    + exfalso. exact (Hns _ E).
  - destruct (s st) as [n b r| |] eqn:E.
    + pose proof (Hcs _ _ _ _ E) as ->. destruct (p r) as [m a r1| |] eqn:E2.
      * pose proof (Hcp _ _ _ _ E2) as ->. pose proof E as E'. apply Hc in E' as (x & xs & ->).
        pose proof E2 as E2'. apply Hs in E2' as (ys & ->).
        destruct (IH r1) as (l & r' & Hi).
        { cbn [app length] in Hk. rewrite !app_length in Hk. lia. }
        do 2 eexists. eapply sep_cons; eassumption.
      * do 2 eexists. eapply sep_stop2; eassumption.
      * exfalso. exact (Hnp _ E2).
    + do 2 eexists. apply sep_stop. exact E.
    + exfalso. exact (Hns _ E).
Qed.

Lemma vw_separated_ok {A B} (p : parser A) (s : parser B) st a r l r' :
  clean_err p -> clean_err s -> consumes (fun x => vw (s x)) -> suffixing (fun x => vw (p x)) ->
  vw (p st) = VOk 0 a r -> sep_iter (fun x => vw (p x)) (fun x => vw (s x)) r l r' ->
  vw (p_separated_by p s st) = VOk 0 (a :: l) r'.
Proof.
  intros H1 H2 H3 H4 Hp Hi. unfold p_separated_by. pose proof Hp as Hp2.
  apply H4 in Hp2 as (xs & ->). apply vw_ok0 in Hp as (alt & Hp). rewrite Hp.
  rewrite (vw_sep_tail p s H1 H2 H3 H4 r l r' Hi); [reflexivity|]. rewrite app_length. lia.
Qed.
Lemma vw_separated_fail {A B} (p : parser A) (s : parser B) st : clean_err p ->
  vw (p st) = VFail -> vw (p_separated_by p s st) = VOk 0 [] st.
Proof.
  intros H1 Hp. unfold p_separated_by. apply vw_fail in Hp as (es & e & Hp). rewrite Hp.
  apply H1 in Hp. subst es. reflexivity.
Qed.

(** take_until *)
Fixpoint vtake_until {B} (p : strm -> view I B) (outs : list I) (st : strm) : view I (list I * B) :=
  match p st with
  | VPanic => VPanic
  | VOk n b r => VOk n (outs, b) r
  | VFail => match st with
             | [] => VFail
             | (x, _) :: r => vtake_until p (outs ++ [x]) r
             end
  end.
Lemma vw_take_until_from {B} (p : parser B) st : forall outs alt,
  vw (p_take_until_from eoi p outs alt st) = vtake_until (fun s => vw (p s)) outs st.
Proof.
  induction st as [|[x sp] r IH]; intros outs alt; cbn.
  - destruct (p []); reflexivity.
  - destruct (p ((x, sp) :: r)); try reflexivity. apply IH.
Qed.

(** recover_with(skip_then_retry_until([])): position of the retry *)
Fixpoint vretry {A} (p : strm -> view I A) (st : strm) : view I A :=
  match p st with
  | VPanic => VPanic
  | VOk n a r => VOk n a r
  | VFail => match st with [] => VFail | _ :: r => vretry p r end
  end.
Lemma vw_retry {A} (p : parser A) errs fatal st :
  vw (p_retry p errs fatal st) = vadd 1 (vretry (fun s => vw (p s)) st).
Proof.
  induction st as [|x r IH]; cbn.
  - destruct (p []) as [es a alt r| |]; cbn; try reflexivity. rewrite app_length. cbn.
    f_equal. lia.
  - destruct (p (x :: r)) as [es a alt r'| |]; cbn; try reflexivity; [|exact IH].
    rewrite app_length. cbn. f_equal. lia.
Qed.
Lemma vw_recover_ok {A} (p : parser A) st n a r : vw (p st) = VOk n a r ->
  vw (p_recover p st) = VOk n a r.
Proof. intros H. unfold p_recover. apply vw_ok in H as (es & alt & -> & <-). reflexivity. Qed.
Lemma vw_recover_panic {A} (p : parser A) st : vw (p st) = VPanic -> vw (p_recover p st) = VPanic.
Proof. intros H. unfold p_recover. apply vw_panic in H as ->. reflexivity. Qed.
Lemma vw_recover_fail {A} (p : parser A) st : vw (p st) = VFail ->
  exists k, (clean_err p -> k = 0) /\
  vw (p_recover p st) = vadd (S k) (vretry (fun s => vw (p s)) (tl st)).
Proof.
  intros H. unfold p_recover. apply vw_fail in H as (es & e & H). rewrite H. exists 0.
  split; [reflexivity|].
  rewrite vw_retry. destruct st; reflexivity.
Qed.

Lemma vretry_suffix {A} (p : strm -> view I A) : suffixing p -> suffixing (vretry p).
Proof.
  intros Hs st. induction st as [|x st IH]; intros n a r; cbn.
  - destruct (p []) eqn:E; try discriminate. intros H; injection H as <- <- <-. eapply Hs; exact E.
  - destruct (p (x :: st)) eqn:E; try discriminate.
    + intros H; injection H as <- <- <-. eapply Hs; exact E.
    + intros H. apply IH in H as (xs & ->). exists (x :: xs). reflexivity.
Qed.
Lemma vretry_consumes {A} (p : strm -> view I A) : consumes p -> consumes (vretry p).
Proof.
  intros Hs st. induction st as [|x st IH]; intros n a r; cbn.
  - destruct (p []) eqn:E; try discriminate. intros H; injection H as <- <- <-. eapply Hs; exact E.
  - destruct (p (x :: st)) eqn:E; try discriminate.
    + intros H; injection H as <- <- <-. eapply Hs; exact E.
    + intros H. apply IH in H as (y & ys & ->). exists x, (y :: ys). reflexivity.
Qed.
Lemma vretry_no_panic {A} (p : strm -> view I A) : no_panic p -> no_panic (vretry p).
Proof.
  intros Hp st. induction st as [|x st IH]; cbn.
  - destruct (p []) eqn:E; try discriminate. exfalso. exact (Hp _ E).
  - destruct (p (x :: st)) eqn:E; try discriminate; [exact IH|]. exfalso. exact (Hp _ E).
Qed.

End Comb.
End Views.
