(** Proofs about positions (Rope.v). *)
From Verif Require Import Text Rope SpecText.

(** ** Line starts, one character at a time *)
Definition ends_line (c : char) (r : text) : bool :=
  is_break c && negb ((c =? CR)%N && match r with d :: _ => (d =? LF)%N | [] => false end).

Fixpoint breaks1 (t : text) (i : nat) : list nat :=
  match t with
  | [] => []
  | c :: r => if ends_line c r then (i + 1) :: breaks1 r (i + 1) else breaks1 r (i + 1)
  end.

Lemma breaks_breaks1 : forall n t i, length t <= n -> breaks t i = breaks1 t i.
Proof.
  induction n as [|n IH]; intros t i Hn.
  - destruct t; [reflexivity | cbn in Hn; lia].
  - destruct t as [|c r]; [reflexivity|].
    cbn [breaks breaks1]. unfold ends_line. cbn in Hn.
    destruct (N.eqb_spec c CR) as [->|Hc].
    + change (is_break CR) with true. cbn [andb].
      destruct r as [|d r'].
      * cbn. reflexivity.
      * destruct (N.eqb_spec d LF) as [->|Hd]; cbn [negb].
        -- cbn [breaks1]. unfold ends_line. change (is_break LF) with true.
           change (LF =? CR)%N with false. cbn [andb negb].
           replace (i + 1 + 1) with (i + 2) by lia.
           rewrite (IH r'); [reflexivity | cbn in Hn; lia].
        -- rewrite (IH (d :: r')); [reflexivity | cbn in *; lia].
    + cbn [andb negb]. rewrite andb_true_r.
      destruct (is_break c); rewrite (IH r); try reflexivity; lia.
Qed.

Lemma breaks_eq t i : breaks t i = breaks1 t i.
Proof. apply (breaks_breaks1 (length t)); lia. Qed.

Lemma breaks1_bounds : forall t i b, In b (breaks1 t i) -> i < b <= i + length t.
Proof.
  induction t as [|c r IH]; intros i b; cbn; [tauto|].
  destruct (ends_line c r); cbn; intros H.
  - destruct H as [<-|H]; [lia|]. apply IH in H. lia.
  - apply IH in H. lia.
Qed.

(** Number of breaks at or before [p], and the last one of them. *)
Definition nbreaks (t : text) (i p : nat) : nat := length (filter (fun b => b <=? p) (breaks1 t i)).

Lemma nbreaks_before t i p : p <= i -> nbreaks t i p = 0.
Proof.
  intros H. unfold nbreaks.
  assert (Hall : forall b, In b (breaks1 t i) -> (b <=? p) = false).
  { intros b Hb. apply breaks1_bounds in Hb. apply Nat.leb_gt. lia. }
  induction (breaks1 t i) as [|b l IH]; [reflexivity|].
  cbn. rewrite Hall by (left; reflexivity). apply IH. intros; apply Hall; right; assumption.
Qed.

Fixpoint line_start (t : text) (i p : nat) (cur : nat) : nat :=
  match t with
  | [] => cur
  | c :: r => if ends_line c r
              then if i + 1 <=? p then line_start r (i + 1) p (i + 1) else cur
              else line_start r (i + 1) p cur
  end.

Lemma line_start_before : forall t i p cur, p <= i -> line_start t i p cur = cur.
Proof.
  induction t as [|c r IH]; intros i p cur H; cbn; [reflexivity|].
  destruct (ends_line c r).
  - destruct (Nat.leb_spec (i + 1) p); [lia | reflexivity].
  - apply IH; lia.
Qed.

Lemma line_start_bounds : forall t i p cur, cur <= i -> cur <= p -> 
  cur <= line_start t i p cur <= p /\ line_start t i p cur <= i + length t.
Proof.
  induction t as [|c r IH]; intros i p cur H H2; cbn; [lia|].
  destruct (ends_line c r).
  - destruct (Nat.leb_spec (i + 1) p); [|lia].
    specialize (IH (i+1) p (i+1)). lia.
  - specialize (IH (i+1) p cur). lia.
Qed.

(** The first character of the line containing [p]. *)
Lemma nth_line_start : forall t i p cur,
  nth (nbreaks t i p) (cur :: breaks1 t i) 0 = line_start t i p cur /\
  nbreaks t i p <= length (breaks1 t i).
Proof.
  induction t as [|c r IH]; intros i p cur.
  - cbn. split; [reflexivity | lia].
  - unfold nbreaks. cbn [breaks1 line_start]. destruct (ends_line c r).
    + cbn [filter]. destruct (Nat.leb_spec (i + 1) p) as [Hp|Hp].
      * cbn [length]. specialize (IH (i + 1) p (i + 1)) as [IH1 IH2]. fold (nbreaks r (i + 1) p).
        split; [cbn [nth]; exact IH1 | lia].
      * fold (nbreaks r (i + 1) p). rewrite nbreaks_before by lia. cbn. split; [reflexivity | lia].
    + exact (IH (i + 1) p cur).
Qed.

Lemma char_to_line_nbreaks t p : char_to_line t p = nbreaks t 0 p.
Proof. unfold char_to_line, nbreaks. rewrite breaks_eq. reflexivity. Qed.

Lemma try_line_to_char_line t p :
  try_line_to_char t (char_to_line t p) = Some (line_start t 0 p 0).
Proof.
  rewrite char_to_line_nbreaks.
  destruct (nth_line_start t 0 p 0) as [H1 H2].
  unfold try_line_to_char. rewrite breaks_eq.
  destruct (nbreaks t 0 p) as [|n] eqn:En.
  - cbn [nth] in H1. rewrite <- H1. reflexivity.
  - cbn [nth] in H1. rewrite nth_error_app1 by lia.
    rewrite <- H1. apply nth_error_nth'. lia.
Qed.

Lemma line_start_le t p : line_start t 0 p 0 <= p.
Proof. pose proof (line_start_bounds t 0 p 0). lia. Qed.

(** ** Bytes and characters *)
Lemma utf8_len_pos c : 1 <= utf8_len c.
Proof.
  unfold utf8_len. repeat match goal with |- context [if ?b then _ else _] => destruct b end; lia.
Qed.

Lemma byte_len_app a b : byte_len (a ++ b) = byte_len a + byte_len b.
Proof. induction a as [|c a IH]; cbn; [reflexivity | rewrite IH; lia]. Qed.

Lemma byte_to_char_le t : forall b, byte_to_char t b <= length t.
Proof.
  induction t as [|c r IH]; intros b; cbn; [lia|].
  destruct (_ <=? _); [|lia]. specialize (IH (b - utf8_len c)). lia.
Qed.

Lemma byte_to_char_mono t : forall b b', b <= b' -> byte_to_char t b <= byte_to_char t b'.
Proof.
  induction t as [|c r IH]; intros b b' H; cbn; [lia|].
  destruct (Nat.leb_spec (utf8_len c) b), (Nat.leb_spec (utf8_len c) b'); try lia.
  apply le_n_S. apply IH. lia.
Qed.

Lemma length_le_byte_len t : length t <= byte_len t.
Proof. induction t as [|c r IH]; cbn; [lia|]. pose proof (utf8_len_pos c). lia. Qed.

(** the byte offset of the [p]-th character *)
Lemma byte_to_char_firstn t : forall p, p <= length t -> byte_to_char t (byte_len (firstn p t)) = p.
Proof.
  induction t as [|c r IH]; intros p Hp; cbn in *.
  - lia.
  - destruct p as [|p]; cbn.
    + pose proof (utf8_len_pos c). destruct (Nat.leb_spec (utf8_len c) 0); lia.
    + destruct (Nat.leb_spec (utf8_len c) (utf8_len c + byte_len (firstn p r))); [|lia].
      f_equal. replace (_ + _ - _) with (byte_len (firstn p r)) by lia. apply IH. lia.
Qed.

Lemma utf8_len_ascii c : is_ascii c = true -> utf8_len c = 1.
Proof. unfold is_ascii, utf8_len. intros ->. reflexivity. Qed.

Lemma byte_len_ascii t : ascii_text t = true -> byte_len t = length t.
Proof.
  induction t as [|c r IH]; cbn; [reflexivity|]. intros H. apply andb_prop in H as [H1 H2].
  rewrite utf8_len_ascii, IH by assumption. reflexivity.
Qed.

Lemma byte_to_char_ascii t : ascii_text t = true -> forall b, b <= length t -> byte_to_char t b = b.
Proof.
  induction t as [|c r IH]; cbn; intros H b Hb; [lia|].
  apply andb_prop in H as [H1 H2]. rewrite utf8_len_ascii by assumption.
  destruct (Nat.leb_spec 1 b); [|lia]. rewrite IH by (assumption || lia). lia.
Qed.

Lemma ascii_firstn t p : ascii_text t = true -> ascii_text (firstn p t) = true.
Proof.
  revert p. induction t as [|c r IH]; intros [|p]; cbn; try reflexivity.
  intros H. apply andb_prop in H as [H1 H2]. rewrite H1. apply IH; assumption.
Qed.

(** ** Characterisation of offset_to_lsp_pos *)
Lemma fits_u32_lt n m : (N.of_nat m < U32)%N -> n <= m -> fits_u32 n = true.
Proof. unfold fits_u32. intros H1 H2. apply N.ltb_lt. lia. Qed.

Lemma nbreaks_le t i p : nbreaks t i p <= length t.
Proof.
  unfold nbreaks. revert i; induction t as [|c r IH]; intros i; cbn; [lia|].
  specialize (IH (i + 1)). destruct (ends_line c r); cbn; [|lia].
  destruct (_ <=? _); cbn; lia.
Qed.

Lemma offset_to_lsp_pos_eq t b : small t -> b <= byte_len t ->
  offset_to_lsp_pos t b =
  Some (mkPos (nbreaks t 0 (byte_to_char t b))
              (byte_to_char t b - line_start t 0 (byte_to_char t b) 0)).
Proof.
  intros Hs Hb. unfold offset_to_lsp_pos, try_byte_to_line, try_byte_to_char.
  destruct (Nat.leb_spec b (byte_len t)); [|lia]. cbn [obind].
  rewrite try_line_to_char_line. cbn [obind]. rewrite char_to_line_nbreaks.
  rewrite !(fits_u32_lt _ (length t)); [reflexivity | exact Hs | | exact Hs |].
  - pose proof (byte_to_char_le t b). lia.
  - apply nbreaks_le.
Qed.

Lemma offset_to_lsp_pos_none t b : byte_len t < b -> offset_to_lsp_pos t b = None.
Proof.
  intros H. unfold offset_to_lsp_pos, try_byte_to_line.
  destruct (Nat.leb_spec b (byte_len t)); [lia | reflexivity].
Qed.

Lemma offset_to_lsp_pos_some_le t b pos : offset_to_lsp_pos t b = Some pos -> b <= byte_len t.
Proof.
  intros H. destruct (Nat.le_gt_cases b (byte_len t)); [assumption|].
  rewrite offset_to_lsp_pos_none in H by assumption. discriminate.
Qed.

(** Without the size bound: if a position is returned it is this one. *)
Lemma offset_to_lsp_pos_inv t b pos : offset_to_lsp_pos t b = Some pos ->
  b <= byte_len t /\
  pos = mkPos (nbreaks t 0 (byte_to_char t b))
              (byte_to_char t b - line_start t 0 (byte_to_char t b) 0).
Proof.
  intros H. pose proof (offset_to_lsp_pos_some_le _ _ _ H) as Hb. split; [exact Hb|].
  unfold offset_to_lsp_pos, try_byte_to_line, try_byte_to_char in H.
  destruct (Nat.leb_spec b (byte_len t)); [|lia]. cbn [obind] in H.
  rewrite try_line_to_char_line in H. cbn [obind] in H. rewrite char_to_line_nbreaks in H.
  destruct (_ && _); [congruence | discriminate].
Qed.

(** ** C01 *)
Lemma round_trip_bytes t b pos : offset_to_lsp_pos t b = Some pos ->
  lsp_pos_to_offset t pos = Some (byte_to_char t b).
Proof.
  intros H. apply offset_to_lsp_pos_inv in H as [_ ->].
  unfold lsp_pos_to_offset. cbn [p_line p_char].
  rewrite <- char_to_line_nbreaks, try_line_to_char_line. cbn [obind].
  f_equal. pose proof (line_start_le t (byte_to_char t b)). lia.
Qed.

Lemma round_trip_ascii t p : ascii_text t = true -> small t -> p <= length t ->
  exists pos, offset_to_lsp_pos t p = Some pos /\ lsp_pos_to_offset t pos = Some p.
Proof.
  intros Ha Hs Hp. eexists. split.
  - apply offset_to_lsp_pos_eq; [exact Hs | rewrite byte_len_ascii; assumption].
  - rewrite <- (byte_to_char_ascii t Ha p Hp) at 4. apply round_trip_bytes.
    apply offset_to_lsp_pos_eq; [exact Hs | rewrite byte_len_ascii; assumption].
Qed.

(** ** C02 *)
Lemma lsp_eol_ends_line c r : lsp_plain_char c = true -> lsp_eol c r = ends_line c r.
Proof.
  unfold lsp_plain_char, lsp_eol, ends_line. intros H. apply andb_prop in H as [H _].
  apply negb_true_iff in H. repeat (apply orb_false_elim in H as [H ?]).
  apply N.eqb_neq in H, H0, H1, H2, H3.
  unfold is_break, in_range.
  destruct (N.eqb_spec c LF) as [->|H4]; [reflexivity|].
  destruct (N.eqb_spec c CR) as [->|H5].
  - cbn. destruct r as [|d r]; [reflexivity|]. destruct (d =? LF)%N; reflexivity.
  - cbn [andb orb negb]. rewrite andb_true_r.
    symmetry. rewrite !orb_false_iff.
    unfold LF, CR, VT, FF in *. repeat split; try (apply N.eqb_neq; assumption).
    apply andb_false_iff. destruct (N.leb_spec 10 c); [right | left; reflexivity].
    apply N.leb_gt. lia.
Qed.

Lemma utf16_plain c : lsp_plain_char c = true -> utf16_len c = 1.
Proof.
  unfold lsp_plain_char, utf16_len. intros H. apply andb_prop in H as [_ H].
  rewrite H. reflexivity.
Qed.

Lemma scan_eq : forall t p i line cur col, lsp_plain t = true -> p <= length t -> cur <= i ->
  col = i - cur ->
  lsp_scan t p line col =
  mkPos (line + nbreaks t i (i + p)) (i + p - line_start t i (i + p) cur).
Proof.
  induction t as [|c r IH]; intros p i line cur col Hpl Hp Hcur Hcol; cbn [length] in Hp.
  - assert (p = 0) by lia. subst p. cbn. f_equal; lia.
  - cbn [lsp_plain forallb] in Hpl. apply andb_prop in Hpl as [Hc Hr].
    destruct p as [|p].
    + cbn [lsp_scan]. rewrite nbreaks_before, line_start_before by lia. f_equal; lia.
    + cbn [lsp_scan]. rewrite lsp_eol_ends_line by exact Hc.
      unfold nbreaks. cbn [breaks1 line_start]. destruct (ends_line c r).
      * cbn [filter]. destruct (Nat.leb_spec (i + 1) (i + S p)); [|lia].
        rewrite (IH p (i + 1) (S line) (i + 1) 0); try assumption; try lia.
        replace (i + 1 + p) with (i + S p) by lia.
        cbn [length]. unfold nbreaks. f_equal. lia.
      * rewrite utf16_plain by exact Hc.
        rewrite (IH p (i + 1) line cur (col + 1)); try assumption; try lia.
        replace (i + 1 + p) with (i + S p) by lia. reflexivity.
Qed.

Lemma lsp_position_eq t p : lsp_plain t = true -> p <= length t ->
  lsp_position t p = mkPos (nbreaks t 0 p) (p - line_start t 0 p 0).
Proof.
  intros H Hp. unfold lsp_position. rewrite (scan_eq t p 0 0 0 0); try assumption; try lia.
  reflexivity.
Qed.

Lemma firstn_byte_le t p : byte_len (firstn p t) <= byte_len t.
Proof.
  rewrite <- (firstn_skipn p t) at 2. rewrite byte_len_app. lia.
Qed.

Lemma positions_are_lsp t p : lsp_plain t = true -> small t -> p <= length t ->
  offset_to_lsp_pos t (byte_len (firstn p t)) = Some (lsp_position t p).
Proof.
  intros Hpl Hs Hp. rewrite offset_to_lsp_pos_eq by (exact Hs || apply firstn_byte_le).
  rewrite byte_to_char_firstn by exact Hp. rewrite lsp_position_eq by assumption. reflexivity.
Qed.

Lemma positions_are_lsp_ascii t p : ascii_text t = true -> lsp_plain t = true -> small t ->
  p <= length t -> offset_to_lsp_pos t p = Some (lsp_position t p).
Proof.
  intros Ha Hpl Hs Hp. rewrite <- positions_are_lsp by assumption.
  rewrite byte_len_ascii by (apply ascii_firstn; exact Ha).
  rewrite firstn_length_le by exact Hp. reflexivity.
Qed.

(** ** C03 *)
Lemma nbreaks_mono t i p q : p <= q -> nbreaks t i p <= nbreaks t i q.
Proof.
  intros H. unfold nbreaks. induction (breaks1 t i) as [|b l IH]; cbn; [lia|].
  destruct (Nat.leb_spec b p), (Nat.leb_spec b q); cbn; lia.
Qed.

Lemma line_start_same : forall t i p q cur, p <= q -> nbreaks t i p = nbreaks t i q ->
  line_start t i p cur = line_start t i q cur.
Proof.
  intros t i p q cur H Hn.
  destruct (nth_line_start t i p cur) as [<- _], (nth_line_start t i q cur) as [<- _].
  rewrite Hn. reflexivity.
Qed.

Lemma position_mono t p q a b : p <= q ->
  offset_to_lsp_pos t p = Some a -> offset_to_lsp_pos t q = Some b -> pos_le a b.
Proof.
  intros Hpq Ha Hb.
  apply offset_to_lsp_pos_inv in Ha as [_ ->]. apply offset_to_lsp_pos_inv in Hb as [_ ->].
  unfold pos_le. cbn [p_line p_char].
  pose proof (byte_to_char_mono t p q Hpq) as Hm.
  pose proof (nbreaks_mono t 0 _ _ Hm) as Hn.
  destruct (Nat.eq_dec (nbreaks t 0 (byte_to_char t p)) (nbreaks t 0 (byte_to_char t q))) as [He|He].
  - right. split; [exact He|]. rewrite (line_start_same t 0 _ _ 0 Hm He). lia.
  - left. lia.
Qed.

Lemma range_defined_iff t sp : small t -> sp_start sp <= sp_end sp ->
  (range_to_lsp t sp = None <-> byte_len t < sp_end sp).
Proof.
  intros Hs Hle. unfold range_to_lsp. split.
  - intros H. destruct (Nat.le_gt_cases (sp_end sp) (byte_len t)) as [Hb|Hb]; [|exact Hb].
    rewrite offset_to_lsp_pos_eq in H by (assumption || lia).
    cbn [obind] in H. rewrite offset_to_lsp_pos_eq in H by (assumption || lia). discriminate.
  - intros H. rewrite (offset_to_lsp_pos_none t (sp_end sp)) by exact H.
    destruct (offset_to_lsp_pos t (sp_start sp)); reflexivity.
Qed.

Lemma range_inv t sp r : range_to_lsp t sp = Some r ->
  offset_to_lsp_pos t (sp_start sp) = Some (r_start r) /\
  offset_to_lsp_pos t (sp_end sp) = Some (r_end r).
Proof.
  unfold range_to_lsp. destruct (offset_to_lsp_pos t (sp_start sp)) as [a|]; cbn; [|discriminate].
  destruct (offset_to_lsp_pos t (sp_end sp)) as [b|]; cbn; [|discriminate].
  intros H. injection H as <-. split; reflexivity.
Qed.

Lemma range_ordered t sp r : sp_start sp <= sp_end sp -> range_to_lsp t sp = Some r ->
  pos_le (r_start r) (r_end r).
Proof.
  intros H Hr. apply range_inv in Hr as [Ha Hb]. exact (position_mono t _ _ _ _ H Ha Hb).
Qed.

Lemma position_line_exists t p a : offset_to_lsp_pos t p = Some a -> p_line a < len_lines t.
Proof.
  intros H. apply offset_to_lsp_pos_inv in H as [_ ->]. cbn [p_line].
  unfold len_lines. rewrite breaks_eq. pose proof (nth_line_start t 0 (byte_to_char t p) 0). lia.
Qed.

(** ** C04 *)
Lemma cursor_valid t p : lsp_plain t = true -> small t -> p <= length t ->
  lsp_pos_to_offset t (lsp_position t p) = Some p.
Proof.
  intros Hpl Hs Hp. rewrite <- (byte_to_char_firstn t p Hp) at 2.
  apply round_trip_bytes. apply positions_are_lsp; assumption.
Qed.

Lemma lsp_lines_eq t : lsp_plain t = true -> len_lines t = lsp_lines t.
Proof.
  unfold len_lines, lsp_lines. rewrite breaks_eq. intros H. f_equal.
  generalize 0. induction t as [|c r IH]; intros i; [reflexivity|].
  cbn [lsp_plain forallb] in H. apply andb_prop in H as [Hc Hr].
  cbn [breaks1 lsp_line_ends]. rewrite lsp_eol_ends_line by exact Hc.
  destruct (ends_line c r); cbn; rewrite IH by exact Hr; reflexivity.
Qed.

Lemma cursor_past_end t pos q : len_lines t <= p_line pos ->
  lsp_pos_to_offset t pos = Some q -> length t <= q.
Proof.
  unfold lsp_pos_to_offset, try_line_to_char, len_lines. rewrite breaks_eq.
  intros H Hq. destruct (p_line pos) as [|l]; [lia|].
  destruct (Nat.eq_dec l (length (breaks1 t 0))) as [->|Hne].
  - rewrite nth_error_app2, Nat.sub_diag in Hq by lia. cbn in Hq. injection Hq as <-.
    unfold len_chars. lia.
  - rewrite (proj2 (nth_error_None _ l)) in Hq; [discriminate|].
    rewrite app_length. cbn. lia.
Qed.

(** ** Relation of bytes and characters *)
Lemma byte_to_char_spec t : forall b, b <= byte_len t -> byte_in_char t b (byte_to_char t b).
Proof.
  induction t as [|c r IH]; intros b Hb; cbn [byte_len] in Hb.
  - right. cbn. split; [lia | reflexivity].
  - cbn [byte_to_char]. destruct (Nat.leb_spec (utf8_len c) b) as [H|H].
    + destruct (IH (b - utf8_len c)) as [(pre & d & post & -> & Hi & Hd)|[He Hi]]; [lia| |].
      * left. exists (c :: pre), d, post. cbn. rewrite Hi. repeat split; lia.
      * right. cbn. rewrite Hi. split; [lia | reflexivity].
    + left. exists [], c, r. cbn. repeat split; lia.
Qed.

Lemma round_trip_char t b pos q : offset_to_lsp_pos t b = Some pos ->
  lsp_pos_to_offset t pos = Some q -> byte_in_char t b q.
Proof.
  intros H Hq. rewrite (round_trip_bytes _ _ _ H) in Hq. injection Hq as <-.
  apply byte_to_char_spec. eapply offset_to_lsp_pos_some_le; exact H.
Qed.

Lemma round_trip_any t b : small t -> b <= byte_len t ->
  exists pos q, offset_to_lsp_pos t b = Some pos /\ lsp_pos_to_offset t pos = Some q /\ byte_in_char t b q.
Proof.
  intros Hs Hb. pose proof (offset_to_lsp_pos_eq t b Hs Hb) as H.
  eexists. eexists. split; [exact H|]. split; [apply round_trip_bytes; exact H|].
  apply byte_to_char_spec. exact Hb.
Qed.

(** ** Positions in arbitrary documents *)
Lemma unicode_eol_ends_line c r : unicode_eol c r = ends_line c r.
Proof.
  unfold unicode_eol. destruct (lsp_plain_char c) eqn:E.
  - rewrite lsp_eol_ends_line by exact E. unfold lsp_plain_char in E. apply andb_prop in E as [E _].
    apply negb_true_iff in E. rewrite E. apply orb_false_r.
  - unfold lsp_plain_char in E.
    destruct (((c =? VT) || (c =? FF) || (c =? 133) || (c =? 8232) || (c =? 8233))%N) eqn:E2.
    + rewrite orb_true_r. symmetry.
      repeat (apply orb_prop in E2 as [E2|E2]);
        apply N.eqb_eq in E2; subst c; reflexivity.
    + cbn [negb andb] in E. apply N.ltb_ge in E. rewrite orb_false_r.
      unfold lsp_eol, ends_line, is_break, in_range.
      repeat (apply orb_false_elim in E2 as [E2 ?]).
      assert (Hl1 : (c =? LF)%N = false) by (apply N.eqb_neq; unfold LF; lia).
      assert (Hl4 : (c =? CR)%N = false) by (apply N.eqb_neq; unfold CR; lia).
      assert (Hl5 : (c <=? 13)%N = false) by (apply N.leb_gt; lia).
      rewrite Hl1, Hl4, Hl5, andb_false_r.
      assert ((c =? 133)%N = false) as -> by assumption.
      assert ((c =? 8232)%N = false) as -> by assumption.
      assert ((c =? 8233)%N = false) as -> by assumption. reflexivity.
Qed.

Lemma unicode_scan_eq : forall t p i line cur col, p <= length t -> cur <= i -> col = i - cur ->
  unicode_scan t p line col =
  mkPos (line + nbreaks t i (i + p)) (i + p - line_start t i (i + p) cur).
Proof.
  induction t as [|c r IH]; intros p i line cur col Hp Hcur Hcol; cbn [length] in Hp.
  - assert (p = 0) by lia. subst p. cbn. f_equal; lia.
  - destruct p as [|p].
    + cbn [unicode_scan]. rewrite nbreaks_before, line_start_before by lia. f_equal; lia.
    + cbn [unicode_scan]. rewrite unicode_eol_ends_line. unfold nbreaks. cbn [breaks1 line_start].
      destruct (ends_line c r).
      * rewrite (IH p (i + 1) (S line) (i + 1)) by lia.
        cbn [filter]. destruct (Nat.leb_spec (i + 1) (i + S p)); [|lia]. cbn [length].
        unfold nbreaks. replace (i + 1 + p) with (i + S p) by lia. f_equal. lia.
      * rewrite (IH p (i + 1) line cur) by lia.
        unfold nbreaks. replace (i + 1 + p) with (i + S p) by lia. reflexivity.
Qed.

Lemma positions_are_unicode t p : small t -> p <= length t ->
  offset_to_lsp_pos t (byte_len (firstn p t)) = Some (unicode_position t p).
Proof.
  intros Hs Hp. rewrite offset_to_lsp_pos_eq by (exact Hs || apply firstn_byte_le).
  rewrite byte_to_char_firstn by exact Hp. unfold unicode_position.
  rewrite (unicode_scan_eq t p 0 0 0 0) by lia. reflexivity.
Qed.

Lemma len_lines_unicode t : len_lines t = unicode_lines t.
Proof.
  unfold len_lines, unicode_lines. rewrite breaks_eq. f_equal. generalize 0.
  induction t as [|c r IH]; intros i; [reflexivity|].
  cbn [breaks1 unicode_line_ends]. rewrite unicode_eol_ends_line.
  destruct (ends_line c r); cbn; rewrite IH; reflexivity.
Qed.

Lemma range_spec t sp r : sp_start sp <= sp_end sp -> range_to_lsp t sp = Some r ->
  pos_le (r_start r) (r_end r) /\ p_line (r_end r) < unicode_lines t.
Proof.
  intros H Hr. split; [eapply range_ordered; eassumption|].
  apply range_inv in Hr as [_ Hr]. apply position_line_exists in Hr.
  rewrite len_lines_unicode in Hr. exact Hr.
Qed.

(** ** Every valid cursor position is the position of some offset *)
Lemma lsp_split_nonempty t : lsp_split t <> [].
Proof.
  induction t as [|c r IH]; cbn; [discriminate|].
  destruct (lsp_eol c r); [discriminate|]. destruct (c =? CR)%N; [exact IH|].
  destruct (lsp_split r); discriminate.
Qed.

Lemma lsp_split_length t : length (lsp_split t) = lsp_lines t.
Proof.
  unfold lsp_lines. induction t as [|c r IH]; cbn; [reflexivity|].
  destruct (lsp_eol c r); cbn; [rewrite IH; reflexivity|].
  destruct (c =? CR)%N; [exact IH|]. destruct (lsp_split r); [discriminate | exact IH].
Qed.

Lemma crlf_split c r : lsp_eol c r = false -> (c =? CR)%N = true ->
  exists ls, lsp_split r = [] :: ls.
Proof.
  unfold lsp_eol. intros H Hc. rewrite Hc in H. apply orb_false_elim in H as [_ H].
  destruct r as [|d r]; [discriminate|]. cbn [andb] in H. apply negb_false_iff in H.
  cbn. unfold lsp_eol. rewrite H. cbn. eauto.
Qed.

Lemma scan_valid : forall t n L C l col, lsp_plain t = true ->
  nth_error (lsp_split t) n = Some l -> col <= length l ->
  exists p, p <= length t /\ lsp_scan t p L C = mkPos (L + n) ((if n =? 0 then C else 0) + col).
Proof.
  induction t as [|c r IH]; intros n L C l col Hpl Hn Hcol.
  - cbn in Hn. destruct n as [|n]; [|destruct n; discriminate]. cbn in Hn. injection Hn as <-.
    exists 0. cbn in *. split; [lia|]. f_equal; lia.
  - cbn [lsp_plain forallb] in Hpl. apply andb_prop in Hpl as [Hc Hr]. cbn [lsp_split] in Hn.
    destruct (lsp_eol c r) eqn:E.
    + destruct n as [|n].
      * cbn in Hn. injection Hn as <-. exists 0. cbn in *. split; [lia|]. f_equal; lia.
      * cbn [nth_error] in Hn. destruct (IH n (S L) 0 l col Hr Hn Hcol) as (p & Hp & Hs).
        exists (S p). cbn [length lsp_scan]. rewrite E. split; [lia|]. rewrite Hs.
        cbn [Nat.eqb]. f_equal; [lia|]. destruct (n =? 0); lia.
    + destruct (c =? CR)%N eqn:Ecr.
      * destruct (crlf_split c r E Ecr) as (ls & Hls). destruct n as [|n].
        -- rewrite Hls in Hn. cbn in Hn. injection Hn as <-. exists 0. cbn in *. split; [lia|]. f_equal; lia.
        -- destruct (IH (S n) L (C + utf16_len c) l col Hr Hn Hcol) as (p & Hp & Hs).
           exists (S p). cbn [length lsp_scan]. rewrite E. split; [lia|]. rewrite Hs. reflexivity.
      * pose proof (lsp_split_nonempty r) as Hne. destruct (lsp_split r) as [|l0 ls] eqn:El; [congruence|].
        destruct n as [|n].
        -- cbn in Hn. injection Hn as <-. destruct col as [|col].
           ++ exists 0. cbn. split; [lia|]. f_equal; lia.
           ++ destruct (IH 0 L (C + utf16_len c) l0 col Hr) as (p & Hp & Hs);
                [reflexivity | cbn in Hcol; lia|].
              exists (S p). cbn [length lsp_scan]. rewrite E. split; [lia|]. rewrite Hs.
              rewrite utf16_plain by exact Hc. cbn. f_equal. lia.
        -- destruct (IH (S n) L (C + utf16_len c) l col Hr Hn Hcol) as (p & Hp & Hs).
           exists (S p). cbn [length lsp_scan]. rewrite E. split; [lia|]. rewrite Hs. reflexivity.
Qed.

Lemma cursor_in_line t pos l : lsp_plain t = true -> small t ->
  nth_error (lsp_split t) (p_line pos) = Some l -> p_char pos <= length l ->
  exists p, p <= length t /\ lsp_pos_to_offset t pos = Some p /\ lsp_position t p = pos.
Proof.
  intros Hpl Hs Hn Hc.
  destruct (scan_valid t (p_line pos) 0 0 l (p_char pos) Hpl Hn Hc) as (p & Hp & Hscan).
  exists p. split; [exact Hp|].
  assert (E : lsp_position t p = pos).
  { unfold lsp_position. rewrite Hscan. destruct pos as [a b]. cbn. f_equal. destruct (a =? 0); reflexivity. }
  split; [|exact E]. rewrite <- E. apply cursor_valid; assumption.
Qed.

Lemma cursor_no_line t pos : lsp_plain t = true ->
  (lsp_lines t < p_line pos -> lsp_pos_to_offset t pos = None) /\
  (lsp_lines t = p_line pos -> lsp_pos_to_offset t pos = Some (length t + p_char pos)).
Proof.
  intros Hpl. rewrite <- lsp_lines_eq by exact Hpl.
  unfold lsp_pos_to_offset, try_line_to_char, len_lines. rewrite breaks_eq. split; intros H.
  - destruct (p_line pos) as [|l]; [lia|].
    rewrite (proj2 (nth_error_None _ l)); [reflexivity|]. rewrite app_length. cbn. lia.
  - rewrite <- H. rewrite nth_error_app2, Nat.sub_diag by lia. reflexivity.
Qed.

(** ** Witnesses *)
Lemma vt_witness : exists t p, ascii_text t = true /\ p <= length t /\
  offset_to_lsp_pos t p <> Some (lsp_position t p).
Proof. exists [97; 11; 98]%N, 2. vm_compute. repeat split; try lia; discriminate. Qed.

Lemma utf16_witness : exists t p, p <= length t /\
  offset_to_lsp_pos t (byte_len (firstn p t)) <> Some (lsp_position t p).
Proof. exists [128512; 98]%N, 1. vm_compute. repeat split; try lia; discriminate. Qed.

Lemma clamp_witness : exists t pos l p, ascii_text t = true /\
  nth_error (lsp_split t) (p_line pos) = Some l /\ length l < p_char pos /\
  lsp_pos_to_offset t pos = Some p /\ p_line (lsp_position t p) <> p_line pos.
Proof. exists [97; 10; 98]%N, (mkPos 0 2), [97]%N, 2. vm_compute. repeat split; try lia; discriminate. Qed.
