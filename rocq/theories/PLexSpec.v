(** The direct lexer finds the longest lexeme. *)
From Verif Require Import Text Chumsky Tokenizer SpecLex PChumsky PText PLex.

Lemma firstn_span f t : Forall (fun c => f c = true) (firstn (span_len f t) t).
Proof.
  induction t as [|c t IH]; cbn; [constructor|]. destruct (f c) eqn:E; cbn; constructor; assumption.
Qed.
Lemma span_len_ge f w r : Forall (fun c => f c = true) w -> length w <= span_len f (w ++ r).
Proof. induction 1 as [|c w Hc _ IH]; cbn; [lia|]. rewrite Hc. lia. Qed.
Lemma span_len_exact f w r : Forall (fun c => f c = true) w ->
  match r with c :: _ => f c = false | [] => True end -> span_len f (w ++ r) = length w.
Proof.
  induction 1 as [|c w Hc _ IH]; cbn; intros H.
  - destruct r; cbn; [reflexivity|]. rewrite H. reflexivity.
  - rewrite Hc. f_equal. apply IH. exact H.
Qed.

Lemma Forall_in {A} (P : A -> Prop) l : Forall P l <-> forall x, In x l -> P x.
Proof. apply Forall_forall. Qed.

(** characters *)
Lemma is_ident_head_spec u c : is_ident_head u c = true <-> name_start u c.
Proof. unfold is_ident_head, name_start. rewrite orb_true_iff, N.eqb_eq. tauto. Qed.
Lemma is_ident_char_spec u c : is_ident_char u c = true <-> name_char u c.
Proof.
  unfold is_ident_char, is_alphanumeric, name_char. rewrite !orb_true_iff, N.eqb_eq. tauto.
Qed.
Lemma is_digit10_spec c : is_digit10 c = true <-> dec_digit c.
Proof. unfold is_digit10, ascii_digit, in_range, dec_digit. rewrite andb_true_iff, !N.leb_le. tauto. Qed.
Lemma is_digit16_spec c : is_digit16 c = true <-> hex_digit c.
Proof.
  unfold is_digit16, ascii_digit, in_range, hex_digit. rewrite !orb_true_iff, !andb_true_iff, !N.leb_le. tauto.
Qed.
Lemma is_blank_spec c : is_blank c = true <-> blank c.
Proof.
  unfold is_blank, blank. cbn. rewrite !orb_true_iff, !N.eqb_eq. intuition discriminate.
Qed.

(** a name starts with a letter: none of the ASCII special characters *)
Lemma name_start_cases u c : name_start u c ->
  (65 <= c <= 90)%N \/ (97 <= c <= 122)%N \/ c = 95%N \/ (128 <= c)%N.
Proof.
  unfold name_start, is_alphabetic, is_ascii, ascii_alpha, ascii_upper, ascii_lower, in_range.
  intros [H| ->]; [|cbn; auto].
  destruct (N.ltb_spec c 128); [|lia].
  rewrite orb_true_iff, !andb_true_iff, !N.leb_le in H. tauto.
Qed.
Lemma name_char_cases u c : name_char u c ->
  (48 <= c <= 57)%N \/ (65 <= c <= 90)%N \/ (97 <= c <= 122)%N \/ c = 95%N \/ (128 <= c)%N.
Proof.
  intros [H|[H|H]].
  - destruct (name_start_cases u c (or_introl H)); auto.
  - unfold is_numeric, is_ascii, ascii_digit, in_range in H. destruct (N.ltb_spec c 128); [|lia].
    rewrite andb_true_iff, !N.leb_le in H. auto.
  - subst c. cbn. auto.
Qed.

(** numerals *)
Lemma int_len_sound dig (digP : char -> Prop) t n : (forall c, dig c = true <-> digP c) ->
  int_len dig t = Some n -> 0 < n <= length t /\ numeral digP (firstn n t).
Proof.
  intros Hd. destruct t as [|c r]; cbn; [discriminate|]. unfold nzero.
  destruct (dig c && negb (c =? 48)%N) eqn:E.
  - intros H; injection H as <-. apply andb_prop in E as [E1 E2].
    pose proof (span_len_le dig r). split; [lia|]. right. exists c, (firstn (span_len dig r) r).
    split; [reflexivity|]. split; [apply negb_true_iff, N.eqb_neq in E2; exact E2|].
    intros d [<-|Hin]; [apply Hd; exact E1|]. apply Hd. pose proof (firstn_span dig r) as HF.
    rewrite Forall_forall in HF. auto.
  - destruct (N.eqb_spec c 48) as [->|_]; [|discriminate]. intros H; injection H as <-.
    split; [lia|]. left. reflexivity.
Qed.
Lemma int_len_ge dig (digP : char -> Prop) w r : (forall c, dig c = true <-> digP c) ->
  numeral digP w -> exists n, int_len dig (w ++ r) = Some n /\ length w <= n.
Proof.
  intros Hd [->|(c & w' & -> & Hc & Hall)]; cbn; unfold nzero.
  - change (ch "0") with 48%N. destruct (dig 48%N); cbn; eauto.
  - rewrite (proj2 (Hd c)) by (apply Hall; left; reflexivity).
    apply N.eqb_neq in Hc. change (ch "0") with 48%N in Hc. rewrite Hc. cbn.
    eexists. split; [reflexivity|]. apply le_n_S. apply span_len_ge.
    apply Forall_forall. intros d Hin. apply Hd. apply Hall. right. exact Hin.
Qed.
Lemma int_len_digit dig c r n : int_len dig (c :: r) = Some n -> dig c = true \/ c = 48%N.
Proof.
  cbn. destruct (dig c) eqn:E; [auto|]. cbn. destruct (N.eqb_spec c 48); [auto|discriminate].
Qed.

(** tails *)
Lemma tail_len_le u t : forall p, tail_len u t p <= p + length t.
Proof.
  induction t as [|c t IH]; intros p; cbn; [lia|].
  destruct (is_ident_char u c); [specialize (IH 0); lia|].
  destruct (_ =? _)%N; [specialize (IH (S p)); lia | lia].
Qed.
Lemma tail_len_pend u t : forall p, tail_len u t p = 0 \/ p < tail_len u t p.
Proof.
  induction t as [|c t IH]; intros p; cbn; [auto|].
  destruct (is_ident_char u c); [lia|].
  destruct (_ =? _)%N; [|auto]. specialize (IH (S p)). lia.
Qed.

(** the text taken is a name tail *)
Lemma tail_sound u t : forall p, tail_len u t p = 0 \/
  exists n, tail_len u t p = p + S n /\ S n <= length t /\ name_tail u (firstn (S n) t).
Proof.
  induction t as [|c t IH]; intros p; cbn [tail_len]; [auto|].
  destruct (is_ident_char u c) eqn:E.
  - right. exists (tail_len u t 0). split; [lia|]. split; [pose proof (tail_len_le u t 0); cbn; lia|].
    apply is_ident_char_spec in E.
    destruct (IH 0) as [->|(n & -> & Hn & H1 & H2)].
    + cbn. split; [intros d [<-|[]]; auto | right; exists [], c; auto].
    + cbn [plus]. cbn [firstn]. split.
      * intros d [<-|Hd]; [auto|]. apply H1. exact Hd.
      * right. destruct H2 as [H2|(w' & d & H2 & Hd)].
        -- apply (f_equal (@length _)) in H2. rewrite firstn_length_le in H2 by exact Hn. discriminate.
        -- exists (c :: w'), d. cbn [firstn] in *. rewrite H2. auto.
  - destruct (N.eqb_spec c (ch ":")) as [->|]; [|auto].
    destruct (IH (S p)) as [->|(n & -> & Hn & H1 & H2)]; [auto|]. right.
    exists (S n). split; [lia|]. split; [cbn; lia|]. cbn [firstn] in *. split.
    + intros d [<-|Hd]; [auto|]. apply H1. exact Hd.
    + right. destruct H2 as [H2|(w' & d & H2 & Hd)].
      * apply (f_equal (@length _)) in H2. destruct t; [cbn in Hn; lia | discriminate].
      * exists (ch ":" :: w'), d. rewrite H2. auto.
Qed.
Lemma tail_sound0 u t : name_tail u (firstn (tail_len u t 0) t).
Proof.
  destruct (tail_sound u t 0) as [->|(n & -> & _ & H)]; [|exact H].
  split; [intros c []| left; reflexivity].
Qed.

Lemma tail_ge_gen u : forall w r p, (forall c, In c w -> name_char u c \/ c = ch ":") ->
  (exists w' c, w = w' ++ [c] /\ name_char u c) -> p + length w <= tail_len u (w ++ r) p.
Proof.
  induction w as [|c w IH]; intros r p H1 H2.
  - destruct H2 as (w' & c & H & _). destruct w'; discriminate.
  - cbn [app tail_len length]. destruct (is_ident_char u c) eqn:E.
    + destruct w as [|d w].
      * cbn [length]. lia.
      * specialize (IH r 0). cbn [length] in *.
        assert (0 + S (length w) <= tail_len u ((d :: w) ++ r) 0).
        { apply IH; [intros x Hx; apply H1; right; exact Hx|].
          destruct H2 as (w' & x & H2 & Hx). destruct w' as [|y w']; [discriminate|].
          injection H2 as -> H2. eauto. }
        lia.
    + destruct (H1 c (or_introl eq_refl)) as [Hc| ->].
      { apply is_ident_char_spec in Hc. congruence. }
      change (ch ":" =? ch ":")%N with true. cbv iota.
      assert (S p + length w <= tail_len u (w ++ r) (S p)); [|lia].
      apply IH; [intros x Hx; apply H1; right; exact Hx|].
      destruct H2 as (w' & x & H2 & Hx). destruct w' as [|y w'].
      * inversion H2; subst. apply is_ident_char_spec in Hx. destruct (eq_true_false_abs _ Hx E).
      * inversion H2; subst. eauto.
Qed.
Lemma tail_ge u w r : name_tail u w -> length w <= tail_len u (w ++ r) 0.
Proof.
  intros [H1 [->|H2]]; [cbn; lia|]. apply (tail_ge_gen u w r 0 H1 H2).
Qed.

(** words *)
Lemma classify_word w : word w (classify_ident w).
Proof.
  assert (Hdec : forall l : list (text * token), (exists t, In (w, t) l) \/ (forall t, ~ In (w, t) l)).
  { induction l as [|[x t] l IH]; [right; intros t []|].
    destruct (text_eq_dec x w) as [->|Hne]; [left; exists t; left; reflexivity|].
    destruct IH as [(t' & H)|H]; [left; exists t'; right; exact H|].
    right. intros t' [E|E]; [congruence | exact (H t' E)]. }
  destruct (Hdec reserved) as [(t & H)|H].
  - left. cbn in H.
    repeat (destruct H as [H|H]; [injection H as <- <-; vm_compute; tauto|]). destruct H.
  - right. split; [exact H|]. unfold classify_ident.
    repeat match goal with
    | |- context [if text_eqb ?a ?b then _ else _] => destruct (text_eqb_spec a b) as [->|]
    end; try (exfalso; eapply H; vm_compute; tauto).
    destruct (existsb (text_eqb w) func_modifiers) eqn:E1.
    { exfalso. apply existsb_exists in E1 as (x & Hx & E1). apply text_eqb_eq in E1. subst x.
      cbn in Hx. repeat (destruct Hx as [Hx|Hx]; [rewrite <- Hx in H; eapply H; vm_compute; tauto|]). destruct Hx. }
    destruct (existsb (text_eqb w) type_names) eqn:E2.
    { exfalso. apply existsb_exists in E2 as (x & Hx & E2). apply text_eqb_eq in E2. subst x.
      cbn in Hx. repeat (destruct Hx as [Hx|Hx]; [rewrite <- Hx in H; eapply H; vm_compute; tauto|]). destruct Hx. }
    reflexivity.
Qed.

Lemma nodup_reserved w t1 t2 : In (w, t1) reserved -> In (w, t2) reserved -> t1 = t2.
Proof.
  assert (H : NoDup (map fst reserved)).
  { vm_compute. repeat (constructor; [cbn; intros H; repeat (destruct H as [H|H]; [discriminate|]); exact H|]). constructor. }
  intros H1 H2. revert H. generalize dependent reserved. intros l H1 H2 H.
  induction l as [|[x t] l IH]; [destruct H1|]. cbn in H. inversion_clear H as [|? ? Hn Hd].
  destruct H1 as [H1|H1], H2 as [H2|H2].
  - congruence.
  - exfalso. apply Hn. injection H1 as -> _. apply in_map_iff. exists (w, t2). auto.
  - exfalso. apply Hn. injection H2 as -> _. apply in_map_iff. exists (w, t1). auto.
  - auto.
Qed.
Lemma word_unique w t1 t2 : word w t1 -> word w t2 -> t1 = t2.
Proof.
  intros [H1|[H1 E1]] [H2|[H2 E2]].
  - eapply nodup_reserved; eassumption.
  - exfalso. eapply H2; exact H1.
  - exfalso. eapply H1; exact H2.
  - congruence.
Qed.

Lemma word_classify w t : word w t -> t = classify_ident w.
Proof. intros H. exact (word_unique _ _ _ H (classify_word w)). Qed.

(** ** Soundness of each piece *)
Lemma firstn_S_cons {A} n (c : A) r : firstn (S n) (c :: r) = c :: firstn n r.
Proof. reflexivity. Qed.

Definition good (u : uclass) (t : text) (tok : token) (n : nat) : Prop :=
  0 < n <= length t /\ lexeme u tok (firstn n t).

Lemma lex_sound u t tok n : lex u t = Some (tok, n) -> good u t tok n.
Proof.
  unfold lex. cbn [first_some].
  destruct (lx_comment' t) as [[tok' n']|] eqn:E.
  { intros H; injection H as -> ->. unfold lx_comment' in E. destruct t as [|c r]; [discriminate|].
    destruct (N.eqb_spec c (ch "#")) as [->|]; [|discriminate]. injection E as <- <-.
    pose proof (span_len_le (fun d => negb (d =? LF)%N) r). split; [cbn; lia|].
    cbn [firstn]. constructor. intros Hin. pose proof (firstn_span (fun d => negb (d =? LF)%N) r) as HF.
    rewrite Forall_forall in HF. apply HF in Hin. discriminate. }
  clear E. destruct (lx_hex' t) as [[tok' n']|] eqn:E.
  { intros H; injection H as -> ->. unfold lx_hex' in E. destruct t as [|a [|b r]]; try discriminate.
    destruct (N.eqb_spec a (ch "0")) as [->|]; [|discriminate].
    destruct (N.eqb_spec b (ch "x")) as [->|]; [|discriminate]. cbn [andb] in E.
    destruct (int_len is_digit16 r) as [m|] eqn:Em; [|discriminate]. cbn in E. injection E as <- <-.
    destruct (int_len_sound _ _ _ _ is_digit16_spec Em) as [Hm Hnum]. split; [cbn; lia|].
    cbn [firstn]. apply (lx_hex u (firstn m r)). exact Hnum. }
  clear E. destruct (lx_num' t) as [[tok' n']|] eqn:E.
  { intros H; injection H as -> ->. unfold lx_num' in E.
    destruct (int_len is_digit10 t) as [m|] eqn:Em; [|discriminate]. cbn in E. injection E as <- <-.
    destruct (int_len_sound _ _ _ _ is_digit10_spec Em) as [Hm Hnum]. split; [exact Hm|].
    constructor. exact Hnum. }
  clear E. destruct (lx_str' t) as [[tok' n']|] eqn:E.
  { intros H; injection H as -> ->. unfold lx_str' in E. destruct t as [|c r]; [discriminate|].
    destruct (N.eqb_spec c DQUOTE) as [->|]; [|discriminate].
    set (f := fun d : char => negb (d =? DQUOTE)%N) in *.
    destruct (Nat.ltb_spec (span_len f r) (length r)) as [Hl|]; [|discriminate]. injection E as <- <-.
    split; [cbn; lia|].
    destruct (span_len_stop f r Hl) as (d & Hd & Hf). unfold f in Hf. apply negb_false_iff, N.eqb_eq in Hf. subst d.
    assert (Hs : firstn (S (span_len f r)) r = firstn (span_len f r) r ++ [DQUOTE]).
    { clear - Hd. revert Hd. generalize (span_len f r) as k. intros k. revert r.
      induction k as [|k IH]; intros [|x r] H; try discriminate; cbn in *; [congruence|].
      f_equal. apply IH. exact H. }
    rewrite firstn_S_cons, Hs. constructor. intros Hin. pose proof (firstn_span f r) as HF.
    rewrite Forall_forall in HF. apply HF in Hin. discriminate. }
  clear E. destruct (lx_punct' t) as [[tok' n']|] eqn:E.
  { intros H; injection H as -> ->. unfold lx_punct' in E. destruct t as [|c r]; [discriminate|].
    destruct (existsb (N.eqb c) punctuation_chars) eqn:Ep; [|discriminate]. injection E as <- <-.
    split; [cbn; lia|]. cbn. constructor. apply existsb_exists in Ep as (x & Hx & Ep).
    apply N.eqb_eq in Ep. subst x. exact Hx. }
  clear E. destruct (lx_ident' u t) as [[tok' n']|] eqn:E.
  { intros H; injection H as -> ->. unfold lx_ident' in E. destruct t as [|c r]; [discriminate|].
    destruct (is_ident_head u c) eqn:Eh; [|discriminate]. injection E as <- <-.
    pose proof (tail_len_le u r 0). split; [cbn; lia|]. cbn [firstn].
    apply lx_word; [apply is_ident_head_spec; exact Eh | apply tail_sound0 | apply classify_word]. }
  clear E. destruct (lx_sigil' u (ch "@") TGlobalName t) as [[tok' n']|] eqn:E.
  { intros H; injection H as -> ->. unfold lx_sigil' in E. destruct t as [|c r]; [discriminate|].
    destruct (N.eqb_spec c (ch "@")) as [->|]; [|discriminate]. injection E as <- <-.
    pose proof (tail_len_le u r 0). split; [cbn; lia|]. cbn [firstn]. apply lx_global. apply tail_sound0. }
  clear E. destruct (lx_sigil' u (ch "%") TLocalName t) as [[tok' n']|] eqn:E.
  { intros H; injection H as -> ->. unfold lx_sigil' in E. destruct t as [|c r]; [discriminate|].
    destruct (N.eqb_spec c (ch "%")) as [->|]; [|discriminate]. injection E as <- <-.
    pose proof (tail_len_le u r 0). split; [cbn; lia|]. cbn [firstn]. apply lx_local. apply tail_sound0. }
  clear E. destruct (lx_sigil' u (ch "!") TDebugRef t) as [[tok' n']|] eqn:E.
  { intros H; injection H as -> ->. unfold lx_sigil' in E. destruct t as [|c r]; [discriminate|].
    destruct (N.eqb_spec c (ch "!")) as [->|]; [|discriminate]. injection E as <- <-.
    pose proof (tail_len_le u r 0). split; [cbn; lia|]. cbn [firstn]. apply lx_debug. apply tail_sound0. }
  clear E. destruct (lx_newline' t) as [[tok' n']|] eqn:E; [|discriminate].
  intros H; injection H as -> ->. unfold lx_newline' in E. destruct t as [|c r]; [discriminate|].
  destruct (N.eqb_spec c LF) as [->|].
  { injection E as <- <-. split; [cbn; lia|]. cbn. apply lx_newline. auto. }
  destruct (N.eqb_spec c CR) as [->|]; [|discriminate]. destruct r as [|d r]; [discriminate|].
  destruct (N.eqb_spec d LF) as [->|]; [|discriminate]. injection E as <- <-.
  split; [cbn; lia|]. cbn. apply lx_newline. auto.
Qed.

(** ** Any lexeme at the start is matched at least as long *)
Lemma first_some_app {A} (l1 l2 : list (option A)) a :
  first_some (l1 ++ l2) = Some a -> first_some l1 = Some a \/ (first_some l1 = None /\ first_some l2 = Some a).
Proof. induction l1 as [|[x|] l1 IH]; cbn; auto. Qed.

(** which piece can match depends on the first character *)
Lemma lex_head u c r : lex u (c :: r) =
  first_some [lx_comment' (c :: r); lx_hex' (c :: r); lx_num' (c :: r); lx_str' (c :: r);
              lx_punct' (c :: r); lx_ident' u (c :: r);
              lx_sigil' u (ch "@") TGlobalName (c :: r); lx_sigil' u (ch "%") TLocalName (c :: r);
              lx_sigil' u (ch "!") TDebugRef (c :: r); lx_newline' (c :: r)].
Proof. reflexivity. Qed.

Lemma not_digit_int c r : ~ dec_digit c -> int_len is_digit10 (c :: r) = None.
Proof.
  intros H. cbn. destruct (is_digit10 c) eqn:E; [apply is_digit10_spec in E; contradiction|]. cbn.
  destruct (N.eqb_spec c 48) as [->|]; [exfalso; apply H; unfold dec_digit; lia | reflexivity].
Qed.

Lemma lex_name u c r : name_start u c ->
  lex u (c :: r) = Some (classify_ident (c :: firstn (tail_len u r 0) r), S (tail_len u r 0)).
Proof.
  intros H. rewrite lex_head. pose proof (name_start_cases u c H) as Hc.
  assert (E1 : (c =? ch "#")%N = false) by (apply N.eqb_neq; cbn; lia).
  assert (E2 : (c =? ch "0")%N = false) by (apply N.eqb_neq; cbn; lia).
  assert (E3 : (c =? DQUOTE)%N = false) by (apply N.eqb_neq; unfold DQUOTE; lia).
  assert (E4 : existsb (N.eqb c) punctuation_chars = false).
  { destruct (existsb _ _) eqn:E; [|reflexivity]. apply existsb_exists in E as (x & Hx & E).
    apply N.eqb_eq in E. subst x. exfalso. cbn in Hx. repeat (destruct Hx as [Hx|Hx]; [lia|]). exact Hx. }
  assert (Ehex : lx_hex' (c :: r) = None).
  { unfold lx_hex'. destruct r as [|b r]; [reflexivity|]. rewrite E2. reflexivity. }
  assert (Enum : lx_num' (c :: r) = None).
  { unfold lx_num'. rewrite not_digit_int; [reflexivity|]. unfold dec_digit. lia. }
  rewrite Ehex, Enum. unfold lx_comment', lx_str', lx_punct', lx_ident'. rewrite E1, E3, E4.
  rewrite (proj2 (is_ident_head_spec u c) H). reflexivity.
Qed.

Lemma not_head u c : (c < 65)%N \/ c = 123%N \/ c = 125%N \/ c = 91%N \/ c = 93%N -> is_ident_head u c = false.
Proof.
  intros H. destruct (is_ident_head u c) eqn:E; [|reflexivity].
  apply is_ident_head_spec, name_start_cases in E. lia.
Qed.

Lemma lex_sigil_at u r : lex u (ch "@" :: r) =
  Some (TGlobalName (ch "@" :: firstn (tail_len u r 0) r), S (tail_len u r 0)).
Proof. rewrite lex_head. destruct r; reflexivity. Qed.
Lemma lex_sigil_pc u r : lex u (ch "%" :: r) =
  Some (TLocalName (ch "%" :: firstn (tail_len u r 0) r), S (tail_len u r 0)).
Proof. rewrite lex_head. destruct r; reflexivity. Qed.
Lemma lex_sigil_ex u r : lex u (ch "!" :: r) =
  Some (TDebugRef (ch "!" :: firstn (tail_len u r 0) r), S (tail_len u r 0)).
Proof. rewrite lex_head. destruct r; reflexivity. Qed.
Lemma lex_comment u r : lex u (ch "#" :: r) =
  Some (TComment, S (span_len (fun d => negb (d =? LF)%N) r)).
Proof. reflexivity. Qed.
Lemma lex_lf u r : lex u (LF :: r) = Some (TNewline, 1).
Proof. rewrite lex_head. destruct r; reflexivity. Qed.
Lemma lex_crlf u r : lex u (CR :: LF :: r) = Some (TNewline, 2).
Proof. rewrite lex_head. reflexivity. Qed.
Lemma lex_punct u c r : In c punctuation_chars -> lex u (c :: r) = Some (TPunct c, 1).
Proof.
  intros H. cbn in H.
  repeat (destruct H as [<-|H]; [destruct r; reflexivity|]). destruct H.
Qed.
Lemma lex_quote u r : lex u (DQUOTE :: r) =
  let n := span_len (fun d => negb (d =? DQUOTE)%N) r in
  if n <? length r then Some (TStr (firstn n r), S (S n)) else None.
Proof.
  rewrite lex_head. cbn [first_some].
  replace (lx_comment' (DQUOTE :: r)) with (@None (token * nat)) by reflexivity.
  replace (lx_hex' (DQUOTE :: r)) with (@None (token * nat)) by (destruct r; reflexivity).
  replace (lx_num' (DQUOTE :: r)) with (@None (token * nat)) by reflexivity.
  cbn zeta. unfold lx_str' at 1. change (DQUOTE =? DQUOTE)%N with true. cbv iota zeta.
  destruct (_ <? _); [reflexivity|]. destruct r; reflexivity.
Qed.
Lemma lex_digit u c r : dec_digit c ->
  lex u (c :: r) = match lx_hex' (c :: r) with Some x => Some x | None => lx_num' (c :: r) end.
Proof.
  intros H. unfold dec_digit in H. rewrite lex_head. cbn [first_some].
  assert (E1 : lx_comment' (c :: r) = None).
  { cbn. destruct (N.eqb_spec c 35); [lia|reflexivity]. }
  rewrite E1. destruct (lx_hex' (c :: r)); [reflexivity|].
  assert (exists x, lx_num' (c :: r) = Some x) as (x & ->); [|reflexivity].
  unfold lx_num', int_len, nzero. rewrite (proj2 (is_digit10_spec c) H).
  destruct (c =? 48)%N; cbn; eauto.
Qed.

Lemma lex_ge u tok w r : lexeme u tok w -> exists tok' n, lex u (w ++ r) = Some (tok', n) /\ length w <= n.
Proof.
  intros H. destruct H as [body Hb|w H|w H|body Hb|c H|c w t H1 H2 H3|w H|w H|w H|w H].
  - cbn [app]. rewrite lex_comment. do 2 eexists. split; [reflexivity|]. cbn. apply le_n_S.
    apply span_len_ge. apply Forall_forall. intros d Hd. apply negb_true_iff, N.eqb_neq. intros ->. contradiction.
  - destruct (int_len_ge _ _ w r is_digit10_spec H) as (n & Hn & Hl).
    assert (Hw : exists c w', w = c :: w' /\ dec_digit c).
    { destruct H as [->|(c & w' & -> & _ & Hall)].
      - exists (ch "0"), []. split; [reflexivity | unfold dec_digit; cbn; lia].
      - exists c, w'. split; [reflexivity|]. apply Hall. left. reflexivity. }
    destruct Hw as (c & w' & -> & Hd). cbn [app] in *. rewrite lex_digit by exact Hd.
    destruct (lx_hex' (c :: w' ++ r)) as [[tok n']|] eqn:E.
    + do 2 eexists. split; [reflexivity|]. unfold lx_hex' in E.
      destruct (w' ++ r) as [|b r'] eqn:Ew; [discriminate|].
      destruct (N.eqb_spec c (ch "0")) as [->|]; [|discriminate].
      destruct H as [H|(c & w2 & Hc & Hne & _)]; [|exfalso; apply Hne; inversion Hc; reflexivity].
      inversion H; subst w'. cbn [length]. destruct (_ && _); [|discriminate].
      destruct (int_len is_digit16 r'); [|discriminate]. injection E as _ <-. lia.
    + unfold lx_num'. rewrite Hn. cbn. do 2 eexists. split; [reflexivity|]. exact Hl.
  - destruct (int_len_ge _ _ w r is_digit16_spec H) as (n & Hn & Hl).
    change ((str "0x" ++ w) ++ r) with (ch "0" :: ch "x" :: w ++ r).
    rewrite lex_digit by (unfold dec_digit; cbn; lia). unfold lx_hex'.
    change ((ch "0" =? ch "0")%N && (ch "x" =? ch "x")%N) with true. cbv iota. rewrite Hn. cbn.
    do 2 eexists. split; [reflexivity|]. lia.
  - cbn [app]. rewrite lex_quote. cbn zeta.
    assert (Hs : span_len (fun d => negb (d =? DQUOTE)%N) ((body ++ [DQUOTE]) ++ r) = length body).
    { rewrite <- app_assoc. apply span_len_exact; [|reflexivity].
      apply Forall_forall. intros d Hd. apply negb_true_iff, N.eqb_neq. intros ->. contradiction. }
    rewrite Hs. rewrite !app_length. cbn [length].
    destruct (Nat.ltb_spec (length body) (length body + 1 + length r)); [|lia].
    do 2 eexists. split; [reflexivity|]. rewrite app_length. cbn. lia.
  - cbn [app]. rewrite lex_punct by exact H. do 2 eexists. split; [reflexivity|]. cbn. lia.
  - cbn [app]. rewrite lex_name by exact H1. do 2 eexists. split; [reflexivity|]. cbn. apply le_n_S.
    apply tail_ge. exact H2.
  - cbn [app]. rewrite lex_sigil_at. do 2 eexists. split; [reflexivity|]. cbn [length]. apply le_n_S.
    apply tail_ge. exact H.
  - cbn [app]. rewrite lex_sigil_pc. do 2 eexists. split; [reflexivity|]. cbn [length]. apply le_n_S.
    apply tail_ge. exact H.
  - cbn [app]. rewrite lex_sigil_ex. do 2 eexists. split; [reflexivity|]. cbn [length]. apply le_n_S.
    apply tail_ge. exact H.
  - destruct H as [->| ->]; cbn [app].
    + rewrite lex_lf. do 2 eexists. split; [reflexivity|]. cbn. lia.
    + rewrite lex_crlf. do 2 eexists. split; [reflexivity|]. cbn. lia.
Qed.

(** ** Token texts are unambiguous *)
Lemma lexeme_nonempty u tok w : lexeme u tok w -> w <> [].
Proof.
  intros H. destruct H as [body Hb|w H|w H|body Hb|c H|c w t H1 H2 H3|w H|w H|w H|w H]; try discriminate.
  - destruct H as [->|(c & r & -> & _)]; discriminate.
  - destruct H as [->| ->]; discriminate.
Qed.

Inductive kind := KComment | KDigit | KStr | KPunct | KWord | KAt | KPc | KEx | KNl.
Definition head_kind (u : uclass) (c : char) (k : kind) : Prop :=
  match k with
  | KComment => c = ch "#" | KDigit => dec_digit c | KStr => c = DQUOTE
  | KPunct => In c (str "[]{}()<>=,;:*.") | KWord => name_start u c
  | KAt => c = ch "@" | KPc => c = ch "%" | KEx => c = ch "!" | KNl => c = LF \/ c = CR
  end.
Lemma head_kind_unique u c k1 k2 : head_kind u c k1 -> head_kind u c k2 -> k1 = k2.
Proof.
  assert (Hp : In c (str "[]{}()<>=,;:*.") ->
    (c = 91 \/ c = 93 \/ c = 123 \/ c = 125 \/ c = 40 \/ c = 41 \/ c = 60 \/ c = 62 \/ c = 61 \/ c = 44
     \/ c = 59 \/ c = 58 \/ c = 42 \/ c = 46)%N).
  { cbn. intros H. repeat (destruct H as [<-|H]; [tauto|]). destruct H. }
  pose proof (name_start_cases u c) as Hn.
  destruct k1, k2; cbn [head_kind]; intros H1 H2; try reflexivity; exfalso;
    try (apply Hn in H1); try (apply Hn in H2); try (apply Hp in H1); try (apply Hp in H2);
    unfold dec_digit, LF, CR, DQUOTE in *;
    repeat match goal with H : context [ch ?x] |- _ =>
      let v := eval vm_compute in (ch x) in change (ch x) with v in H end; lia.
Qed.

Lemma lexeme_unique u t1 t2 w : lexeme u t1 w -> lexeme u t2 w -> t1 = t2.
Proof.
  assert (Hk : forall t w, lexeme u t w -> exists c r k, w = c :: r /\ head_kind u c k /\
    match k with
    | KComment => t = TComment
    | KDigit => (t = TNum w /\ (w = str "0" \/ c <> ch "0")) \/
                (exists w', t = THexNum w' /\ w = str "0x" ++ w')
    | KStr => exists b, t = TStr b /\ w = DQUOTE :: b ++ [DQUOTE]
    | KPunct => t = TPunct c
    | KWord => t = classify_ident w
    | KAt => t = TGlobalName w | KPc => t = TLocalName w | KEx => t = TDebugRef w
    | KNl => t = TNewline
    end).
  { clear. intros t w H. destruct H as [body Hb|w H|w H|body Hb|c H|c w t H1 H2 H3|w H|w H|w H|w H].
    - exists (ch "#"), body, KComment. cbn. auto.
    - destruct H as [->|(c & r & -> & Hc & Hall)].
      + exists (ch "0"), [], KDigit. cbn. unfold dec_digit. repeat split; try (cbn; lia). left. auto.
      + exists c, r, KDigit. cbn. split; [reflexivity|]. split; [apply Hall; left; reflexivity|]. auto.
    - exists (ch "0"), (ch "x" :: w), KDigit. cbn. unfold dec_digit. repeat split; try (cbn; lia). right. eauto.
    - exists DQUOTE, (body ++ [DQUOTE]), KStr. cbn. eauto.
    - exists c, [], KPunct. cbn. auto.
    - exists c, w, KWord. cbn. split; [reflexivity|]. split; [exact H1|]. apply word_classify. exact H3.
    - exists (ch "@"), w, KAt. cbn. auto.
    - exists (ch "%"), w, KPc. cbn. auto.
    - exists (ch "!"), w, KEx. cbn. auto.
    - destruct H as [->| ->]; [exists LF, [], KNl | exists CR, [LF], KNl]; cbn; auto. }
  intros H1 H2. apply Hk in H1 as (c1 & r1 & k1 & E1 & K1 & T1). apply Hk in H2 as (c2 & r2 & k2 & E2 & K2 & T2).
  rewrite E1 in E2. injection E2 as <- <-. pose proof (head_kind_unique u c1 k1 k2 K1 K2) as <-.
  destruct k1; try congruence.
  - destruct T1 as [[-> Z1]|(w1 & -> & W1)], T2 as [[-> Z2]|(w2 & -> & W2)].
    + reflexivity.
    + exfalso. rewrite E1 in *. cbn in W2. injection W2 as -> ->.
      destruct Z1 as [Z1|Z1]; [discriminate | cbn in Z1; congruence].
    + exfalso. rewrite E1 in *. cbn in W1. injection W1 as -> ->.
      destruct Z2 as [Z2|Z2]; [discriminate | cbn in Z2; congruence].
    + rewrite W1 in W2. apply app_inv_head in W2. congruence.
  - destruct T1 as (b1 & -> & W1), T2 as (b2 & -> & W2). rewrite W1 in W2. injection W2 as W2.
    apply app_inj_tail in W2 as [-> _]. reflexivity.
Qed.

(** ** The direct lexer computes the longest lexeme *)
Lemma lex_longest u t tok n : lex u t = Some (tok, n) ->
  0 < n <= length t /\ longest u tok (firstn n t) (skipn n t).
Proof.
  intros H. pose proof (lex_sound _ _ _ _ H) as [Hn Hl]. split; [exact Hn|]. split; [exact Hl|].
  intros t' w' r' E H'. rewrite firstn_skipn in E. rewrite firstn_length_le by lia.
  destruct (lex_ge u t' w' r' H') as (tok' & n' & E' & Hge). rewrite <- E, H in E'. injection E' as <- <-. exact Hge.
Qed.
Lemma longest_lex u tok w r : longest u tok w r -> lex u (w ++ r) = Some (tok, length w).
Proof.
  intros [H Hmax]. destruct (lex_ge u tok w r H) as (tok' & n & E & Hge).
  pose proof (lex_sound _ _ _ _ E) as [Hn Hl].
  assert (n <= length w).
  { specialize (Hmax tok' (firstn n (w ++ r)) (skipn n (w ++ r))).
    rewrite firstn_skipn in Hmax. specialize (Hmax eq_refl Hl). rewrite firstn_length_le in Hmax by lia. exact Hmax. }
  assert (n = length w) by lia. subst n. rewrite firstn_app, firstn_all, Nat.sub_diag in Hl. cbn in Hl.
  rewrite app_nil_r in Hl. rewrite E. rewrite (lexeme_unique _ _ _ _ Hl H). reflexivity.
Qed.
Lemma lex_none u t : lex u t = None <-> unlexable u t.
Proof.
  split.
  - intros H tok w r -> Hl. destruct (lex_ge u tok w r Hl) as (tok' & n & E & _). congruence.
  - intros H. destruct (lex u t) as [[tok n]|] eqn:E; [|reflexivity]. exfalso.
    apply lex_sound in E as [_ E]. eapply (H tok (firstn n t) (skipn n t)); [|exact E].
    rewrite firstn_skipn. reflexivity.
Qed.
