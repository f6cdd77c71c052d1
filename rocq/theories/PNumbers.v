(** Proofs about decimal numbers (Numbers.v) and number extraction (Rename.v). *)
From Verif Require Import Text Numbers Parser Rename SpecBacktrace SpecNumbers PText PRope PBacktrace.

Lemma decimal_value_app_one ds c : decimal_value (ds ++ [c]) = (10 * decimal_value ds + (c - 48))%N.
Proof. unfold decimal_value. rewrite fold_left_app. reflexivity. Qed.

Lemma fold_decimal ds : forall acc,
  fold_left (fun a c => (10 * a + (c - 48))%N) ds acc =
  (acc * 10 ^ N.of_nat (length ds) + decimal_value ds)%N.
Proof.
  unfold decimal_value. induction ds as [|c ds IH]; intros acc; cbn [fold_left length].
  - rewrite N.pow_0_r. lia.
  - rewrite IH, (IH (10 * 0 + (c - 48))%N).
    rewrite Nat2N.inj_succ, N.pow_succ_r'. lia.
Qed.

Lemma decimal_value_cons c ds :
  decimal_value (c :: ds) = ((c - 48) * 10 ^ N.of_nat (length ds) + decimal_value ds)%N.
Proof.
  unfold decimal_value at 1. cbn [fold_left]. rewrite fold_decimal. f_equal.
Qed.

Lemma decimal_value_lt ds : all_digits ds -> (decimal_value ds < 10 ^ N.of_nat (length ds))%N.
Proof.
  induction ds as [|c ds IH]; intros H.
  - cbn. lia.
  - rewrite decimal_value_cons. cbn [length]. rewrite Nat2N.inj_succ, N.pow_succ_r'.
    assert (Hc : (48 <= c <= 57)%N) by (apply H; left; reflexivity).
    assert (IH' : (decimal_value ds < 10 ^ N.of_nat (length ds))%N)
      by (apply IH; intros d Hd; apply H; right; exact Hd).
    nia.
Qed.

(** Equal length and value: equal digits. *)
Lemma decimal_unique_len ds es : all_digits ds -> all_digits es -> length ds = length es ->
  decimal_value ds = decimal_value es -> ds = es.
Proof.
  revert es. induction ds as [|c ds IH]; intros [|e es] Hd He Hl Hv; try discriminate; [reflexivity|].
  rewrite !decimal_value_cons in Hv. injection Hl as Hl. rewrite Hl in Hv.
  assert (Hc : (48 <= c <= 57)%N) by (apply Hd; left; reflexivity).
  assert (Hc' : (48 <= e <= 57)%N) by (apply He; left; reflexivity).
  assert (Hd' : all_digits ds) by (intros x Hx; apply Hd; right; exact Hx).
  assert (He' : all_digits es) by (intros x Hx; apply He; right; exact Hx).
  pose proof (decimal_value_lt ds Hd') as L1. pose proof (decimal_value_lt es He') as L2.
  rewrite Hl in L1.
  assert ((c - 48) = (e - 48))%N by nia.
  assert (c = e) by lia. subst e. f_equal. apply IH; try assumption. lia.
Qed.

Lemma decimal_ge c r : all_digits (c :: r) -> c <> 48%N ->
  (10 ^ N.of_nat (length r) <= decimal_value (c :: r))%N.
Proof.
  intros H Hc. rewrite decimal_value_cons.
  assert (H1 : (48 <= c <= 57)%N) by (apply H; left; reflexivity). nia.
Qed.

Lemma canonical_unique n ds es : canonical_decimal n ds -> canonical_decimal n es -> ds = es.
Proof.
  intros (Hd0 & Hd1 & Hd2 & Hd3) (He0 & He1 & He2 & He3).
  apply decimal_unique_len; try assumption; [|congruence].
  assert (Hgen : forall ds es, ds <> [] -> all_digits ds -> all_digits es -> decimal_value ds = decimal_value es ->
     (es = [48%N] \/ exists c r, es = c :: r /\ c <> 48%N) -> length es <= length ds).
  { clear. intros ds es Hne Hd He Hv [->|(c & r & -> & Hc)].
    - destruct ds; [congruence | cbn; lia].
    - pose proof (decimal_ge c r He Hc) as H1. pose proof (decimal_value_lt ds Hd) as H2.
      rewrite Hv in H2. cbn [length].
      destruct (Nat.le_gt_cases (length ds) (length r)) as [H|H]; [|lia].
      assert (10 ^ N.of_nat (length ds) <= 10 ^ N.of_nat (length r))%N by (apply N.pow_le_mono_r; lia).
      lia. }
  apply Nat.le_antisymm; apply Hgen; try assumption; congruence.
Qed.

(** ** render_N *)
Lemma render_pos_spec : forall fuel n acc, (n < 2 ^ N.of_nat fuel)%N -> fuel <> 0 ->
  exists ds, render_pos fuel n acc = ds ++ acc /\ canonical_decimal n ds.
Proof.
  induction fuel as [|fuel IH]; intros n acc Hn Hf; [congruence|].
  cbn [render_pos]. destruct (N.ltb_spec n 10) as [H|H].
  - exists [(48 + n mod 10)%N]. split; [reflexivity|].
    rewrite N.mod_small by exact H.
    split; [discriminate|]. split; [intros c [<-|[]]; lia|]. split; [unfold decimal_value; cbn [fold_left]; lia|].
    destruct (N.eq_dec n 0) as [->|Hz]; [left; reflexivity|].
    right. exists (48 + n)%N, []. split; [reflexivity | lia].
  - assert (Hlt : (n / 10 < 2 ^ N.of_nat fuel)%N).
    { apply N.div_lt_upper_bound; [lia|]. rewrite Nat2N.inj_succ, N.pow_succ_r' in Hn. lia. }
    destruct fuel as [|fuel'].
    { cbn in Hn. lia. }
    destruct (IH (n / 10)%N ((48 + n mod 10)%N :: acc) Hlt) as (ds & Hds & Hc); [discriminate|].
    exists (ds ++ [(48 + n mod 10)%N]). split; [rewrite <- app_assoc; exact Hds|].
    destruct Hc as (C0 & C1 & C2 & C3).
    pose proof (N.mod_lt n 10 ltac:(lia)) as Hm.
    split; [intros Hx; apply app_eq_nil in Hx as [_ Hx]; discriminate|].
    split; [intros c Hc; apply in_app_or in Hc as [Hc|[<-|[]]]; [auto | clear - Hm; revert Hm; generalize (n mod 10)%N; intros; lia]|].
    split.
    + rewrite decimal_value_app_one, C2. pose proof (N.div_mod n 10 ltac:(lia)). revert Hm H0; clear; generalize (n mod 10)%N, (n / 10)%N; intros; lia.
    + right. destruct C3 as [->|(c & r & -> & Hc)].
      * exfalso. assert (1 <= n / 10)%N by (apply N.div_le_lower_bound; lia).
        cbn in C2. lia.
      * exists c, (r ++ [(48 + n mod 10)%N]). split; [reflexivity | exact Hc].
Qed.

Lemma render_N_canonical n : canonical_decimal n (render_N n).
Proof.
  unfold render_N.
  destruct (render_pos_spec (S (N.to_nat (N.log2 n))) n []) as (ds & -> & H).
  - rewrite Nat2N.inj_succ, N2Nat.id. destruct (N.eq_dec n 0) as [->|Hn].
    + cbn. lia.
    + apply N.log2_spec. lia.
  - discriminate.
  - rewrite app_nil_r. exact H.
Qed.

(** ** Splitting *)
Lemma split_numeric_rev_spec u r : forall acc,
  Forall (fun c => is_numeric u c = true) acc ->
  let '(name, nr) := split_numeric_rev u r acc in
  rev r ++ acc = name ++ nr /\ Forall (fun c => is_numeric u c = true) nr /\
  (name = [] \/ exists p c, name = p ++ [c] /\ is_numeric u c = false).
Proof.
  induction r as [|c r IH]; intros acc Hacc; cbn [split_numeric_rev].
  - cbn. auto.
  - destruct (is_numeric u c) eqn:E.
    + specialize (IH (c :: acc) (Forall_cons _ E Hacc)).
      destruct (split_numeric_rev u r (c :: acc)) as [name nr].
      cbn [rev]. rewrite <- app_assoc. exact IH.
    + split; [reflexivity|]. split; [exact Hacc|]. right. exists (rev r), c. auto.
Qed.

Lemma split_numeric_spec u id :
  let '(name, nr) := split_numeric u id in
  id = name ++ nr /\ Forall (fun c => is_numeric u c = true) nr /\
  (name = [] \/ exists p c, name = p ++ [c] /\ is_numeric u c = false).
Proof.
  unfold split_numeric. pose proof (split_numeric_rev_spec u (rev id) [] (Forall_nil _)) as H.
  destruct (split_numeric_rev u (rev id) []) as [name nr].
  rewrite rev_involutive, app_nil_r in H. exact H.
Qed.

Lemma split_numeric_unique u id name nr :
  id = name ++ nr -> Forall (fun c => is_numeric u c = true) nr ->
  (name = [] \/ exists p c, name = p ++ [c] /\ is_numeric u c = false) ->
  split_numeric u id = (name, nr).
Proof.
  intros H1 H2 H3. pose proof (split_numeric_spec u id) as H.
  destruct (split_numeric u id) as [name' nr']. destruct H as (E & N' & L').
  rewrite H1 in E.
  assert (Hgen : forall n1 r1 n2 r2 : text, n1 ++ r1 = n2 ++ r2 ->
     Forall (fun c => is_numeric u c = true) r2 ->
     (n1 = [] \/ exists p c, n1 = p ++ [c] /\ is_numeric u c = false) ->
     exists l, n2 = n1 ++ l /\ r1 = l ++ r2).
  { clear. intros n1 r1 n2 r2 E HF L. apply app_eq_app in E as [l [[-> E]|[-> E]]]; [|eauto].
    destruct l as [|x l] using rev_ind; [rewrite app_nil_r in *; exists []; rewrite app_nil_r; auto|].
    exfalso. destruct L as [L|(p & c & L & Hc)].
    - destruct n2; [destruct l; discriminate | discriminate].
    - rewrite app_assoc in L. apply app_inj_tail in L as [_ <-]. subst r2.
      apply Forall_app in HF as [HF _]. apply Forall_app in HF as [_ HF].
      inversion_clear HF. congruence. }
  destruct (Hgen _ _ _ _ E N' H3) as (l & -> & ->).
  destruct (Hgen (name ++ l) nr' name (l ++ nr')) as (l2 & E2 & _).
  { exact (eq_sym E). } { exact H2. } { exact L'. }
  assert (l = []) as ->.
  { assert (length name = length ((name ++ l) ++ l2)) by congruence.
    rewrite !app_length in H. destruct l; [reflexivity | cbn in H; lia]. }
  rewrite app_nil_r. reflexivity.
Qed.

Lemma is_numeric_ascii u c : is_ascii c = true -> (is_numeric u c = true <-> (48 <= c <= 57)%N).
Proof.
  intros H. unfold is_numeric. rewrite H. unfold ascii_digit, in_range.
  rewrite andb_true_iff, !N.leb_le. tauto.
Qed.

Lemma ascii_in t c : ascii_text t = true -> In c t -> is_ascii c = true.
Proof. unfold ascii_text. rewrite forallb_forall. auto. Qed.

Lemma digits_ascii ds : all_digits ds -> ascii_text ds = true.
Proof.
  intros H. apply forallb_forall. intros c Hc. apply H in Hc. unfold is_ascii. apply N.ltb_lt. lia.
Qed.

Lemma ascii_app a b : ascii_text (a ++ b) = ascii_text a && ascii_text b.
Proof. apply forallb_app. Qed.

Lemma parse_i64_digits ds : all_digits ds -> ds <> [] ->
  parse_i64 ds = if (decimal_value ds <=? max_i64)%N then Some (Z.of_N (decimal_value ds)) else None.
Proof.
  intros Hd Hne. unfold parse_i64. destruct ds as [|c r]; [congruence|].
  assert (Hc : (48 <= c <= 57)%N) by (apply Hd; left; reflexivity).
  destruct (N.eqb_spec c (ch "+")) as [->|_]; [cbn in Hc; lia|].
  destruct (N.eqb_spec c (ch "-")) as [->|_]; [cbn in Hc; lia|].
  rewrite (proj2 (parse_digits_spec (c :: r) (decimal_value (c :: r)))) by (split; [exact Hne | auto]).
  cbn [option_map obind]. unfold in_i64, I64_MIN, I64_MAX, max_i64.
  generalize (decimal_value (c :: r)) as v. intros v. clear.
  destruct (N.leb_spec v 9223372036854775807), (Z.leb_spec (-9223372036854775808) (Z.of_N v)),
    (Z.leb_spec (Z.of_N v) 9223372036854775807); cbn [andb]; try reflexivity; lia.
Qed.

Lemma olast_app {A} (p : list A) c : olast (p ++ [c]) = Some c.
Proof. unfold olast. rewrite rev_app_distr. reflexivity. Qed.

(** C31 *)
Lemma extract_spec_some u id prefix ds n : ascii_text id = true -> numbered id prefix ds n ->
  extract_number_from_identifier u id =
  Val (if (n <=? max_i64)%N then Some (prefix, Z.of_N n) else None).
Proof.
  intros Ha (-> & Hne & Hd & Hv & Hp). rewrite ascii_app in Ha. apply andb_prop in Ha as [Ha1 Ha2].
  unfold extract_number_from_identifier.
  rewrite (split_numeric_unique u (prefix ++ ds) prefix ds); [|reflexivity| |].
  - assert (Hlast : match olast prefix with Some c => negb (utf8_len c =? 1) | None => false end = false).
    { destruct Hp as [->|(p & c & -> & _)]; [reflexivity|]. rewrite olast_app.
      rewrite utf8_len_ascii; [reflexivity|]. eapply ascii_in; [exact Ha1|].
      apply in_or_app. right. left. reflexivity. }
    rewrite Hlast, parse_i64_digits by assumption. rewrite Hv.
    destruct (n <=? max_i64)%N; reflexivity.
  - apply Forall_forall. intros c Hc. apply is_numeric_ascii; [eapply ascii_in; eassumption | auto].
  - destruct Hp as [->|(p & c & -> & Hc)]; [left; reflexivity|]. right. exists p, c. split; [reflexivity|].
    destruct (is_numeric u c) eqn:E; [|reflexivity]. exfalso. apply Hc.
    apply (is_numeric_ascii u); [|exact E]. eapply ascii_in; [exact Ha1|].
    apply in_or_app. right. left. reflexivity.
Qed.

Lemma numbered_or_not id : (exists prefix ds n, numbered id prefix ds n) \/
  (id = [] \/ exists p c, id = p ++ [c] /\ ~ (48 <= c <= 57)%N).
Proof.
  set (u := {| u_alpha := fun _ => false; u_num := fun _ => false; u_white := fun _ => false |}).
  pose proof (split_numeric_spec u id) as H. destruct (split_numeric u id) as [name nr].
  destruct H as (-> & Hn & Hl).
  assert (Hdig : forall c, is_numeric u c = true <-> (48 <= c <= 57)%N).
  { intros c. unfold is_numeric, ascii_digit, in_range. destruct (is_ascii c) eqn:E.
    - rewrite andb_true_iff, !N.leb_le. tauto.
    - cbn. split; [discriminate|]. unfold is_ascii in E. apply N.ltb_ge in E. lia. }
  assert (Hl' : name = [] \/ exists p c, name = p ++ [c] /\ ~ (48 <= c <= 57)%N).
  { destruct Hl as [->|(p & c & -> & Hc)]; [left; reflexivity|]. right. exists p, c.
    split; [reflexivity|]. rewrite <- Hdig, Hc. discriminate. }
  destruct nr as [|d nr].
  - right. rewrite app_nil_r. exact Hl'.
  - left. exists name, (d :: nr), (decimal_value (d :: nr)). split; [reflexivity|].
    split; [discriminate|]. split; [|split; [reflexivity | exact Hl']].
    intros c Hc. apply Hdig. rewrite Forall_forall in Hn. auto.
Qed.

Lemma extract_spec_none u id : ascii_text id = true ->
  (id = [] \/ exists p c, id = p ++ [c] /\ ~ (48 <= c <= 57)%N) ->
  extract_number_from_identifier u id = Val None.
Proof.
  intros Ha Hid. unfold extract_number_from_identifier.
  rewrite (split_numeric_unique u id id []); [|rewrite app_nil_r; reflexivity| constructor |].
  - assert (Hlast : match olast id with Some c => negb (utf8_len c =? 1) | None => false end = false).
    { destruct Hid as [->|(p & c & -> & _)]; [reflexivity|]. rewrite olast_app.
      rewrite utf8_len_ascii; [reflexivity|]. eapply ascii_in; [exact Ha|].
      apply in_or_app. right. left. reflexivity. }
    rewrite Hlast. reflexivity.
  - destruct Hid as [->|(p & c & -> & Hc)]; [left; reflexivity|]. right. exists p, c.
    split; [reflexivity|]. destruct (is_numeric u c) eqn:E; [|reflexivity]. exfalso. apply Hc.
    apply (is_numeric_ascii u); [|exact E]. eapply ascii_in; [exact Ha|].
    apply in_or_app. right. left. reflexivity.
Qed.

Lemma numbered_unique id p1 d1 n1 p2 d2 n2 : numbered id p1 d1 n1 -> numbered id p2 d2 n2 ->
  p1 = p2 /\ d1 = d2 /\ n1 = n2.
Proof.
  set (u := {| u_alpha := fun _ => false; u_num := fun _ => false; u_white := fun _ => false |}).
  assert (Hdig : forall c, is_numeric u c = true <-> (48 <= c <= 57)%N).
  { intros c. unfold is_numeric, ascii_digit, in_range. destruct (is_ascii c) eqn:E.
    - rewrite andb_true_iff, !N.leb_le. tauto.
    - cbn. split; [discriminate|]. unfold is_ascii in E. apply N.ltb_ge in E. lia. }
  assert (Hs : forall p d n, numbered id p d n -> split_numeric u id = (p, d)).
  { intros p d n (E & _ & Hd & _ & Hp). apply split_numeric_unique; [exact E | |].
    - apply Forall_forall. intros c Hc. apply Hdig. auto.
    - destruct Hp as [->|(q & c & -> & Hc)]; [left; reflexivity|]. right. exists q, c.
      split; [reflexivity|]. rewrite <- Hdig in Hc. destruct (is_numeric u c); congruence. }
  intros H1 H2. pose proof (Hs _ _ _ H1) as E1. pose proof (Hs _ _ _ H2) as E2.
  rewrite E1 in E2. injection E2 as <- <-. split; [reflexivity|]. split; [reflexivity|].
  destruct H1 as (_ & _ & _ & <- & _), H2 as (_ & _ & _ & <- & _). reflexivity.
Qed.

(** Whenever a number is extracted, name and digits are the whole identifier;
    also for non-ASCII identifiers. *)
Lemma extract_sound u id prefix z : extract_number_from_identifier u id = Val (Some (prefix, z)) ->
  exists ds, id = prefix ++ ds /\ ds <> [] /\ all_digits ds /\ z = Z.of_N (decimal_value ds) /\
             (0 <= z <= Z.of_N max_i64)%Z /\
             (prefix = [] \/ exists p c, prefix = p ++ [c] /\ is_numeric u c = false).
Proof.
  unfold extract_number_from_identifier. pose proof (split_numeric_spec u id) as H.
  destruct (split_numeric u id) as [name nr]. destruct H as (E & Hn & Hl).
  destruct (match olast name with Some c => _ | None => _ end); [discriminate|].
  destruct (parse_i64 nr) as [v|] eqn:Ep; [|discriminate]. cbn. intros H; injection H as <- <-.
  assert (Hd : nr <> [] /\ all_digits nr).
  { unfold parse_i64 in Ep. destruct nr as [|c r]; [discriminate|]. split; [discriminate|].
    inversion_clear Hn as [|? ? Hc Hr].
    destruct (N.eqb_spec c (ch "+")) as [->|_].
    { discriminate Hc. }
    destruct (N.eqb_spec c (ch "-")) as [->|_].
    { discriminate Hc. }
    destruct (parse_digits (c :: r)) as [m|] eqn:Em; [|discriminate].
    apply parse_digits_spec in Em as (_ & Hd & _). exact Hd. }
  destruct Hd as [Hne Hd]. exists nr. rewrite parse_i64_digits in Ep by assumption.
  destruct (N.leb_spec (decimal_value nr) max_i64); [|discriminate]. injection Ep as <-.
  split; [exact E|]. split; [exact Hne|]. split; [exact Hd|]. split; [reflexivity|]. split; [|exact Hl].
  clear - H. revert H. generalize (decimal_value nr). unfold max_i64. intros. lia.
Qed.

Lemma extract_panic_witness : exists u id, extract_number_from_identifier u id = Panic.
Proof.
  exists {| u_alpha := fun _ => true; u_num := fun _ => false; u_white := fun _ => false |}, [37; 233; 49]%N.
  vm_compute. reflexivity.
Qed.
