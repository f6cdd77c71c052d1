(** Proofs about src/backtrace.rs. *)
From Verif Require Import Text Numbers Index Backtrace SpecBacktrace PText PRope.

(** ** Byte offsets *)
Lemma drop_bytes_app a b : drop_bytes (byte_len a) (a ++ b) = Some b.
Proof.
  induction a as [|c a IH]; cbn [byte_len app].
  - destruct b; reflexivity.
  - pose proof (utf8_len_pos c). cbn [drop_bytes].
    destruct (utf8_len c + byte_len a) eqn:E; [lia|]. rewrite <- E.
    destruct (Nat.leb_spec (utf8_len c) (utf8_len c + byte_len a)); [|lia].
    replace (_ + _ - _) with (byte_len a) by lia. exact IH.
Qed.

Lemma drop_bytes_inv t : forall n r, drop_bytes n t = Some r -> exists a, t = a ++ r /\ byte_len a = n.
Proof.
  induction t as [|c t IH]; intros n r; destruct n as [|n]; cbn [drop_bytes take_bytes].
  - intros H; injection H as <-. exists []; auto.
  - discriminate.
  - intros H; injection H as <-. exists []; auto.
  - destruct (Nat.leb_spec (utf8_len c) (S n)); [|discriminate].
    intros Hd. apply IH in Hd as (a & -> & Ha). exists (c :: a). cbn. split; [reflexivity | lia].
Qed.

Lemma take_bytes_app a b : take_bytes (byte_len a) (a ++ b) = Some a.
Proof.
  induction a as [|c a IH]; cbn [byte_len app].
  - destruct b; reflexivity.
  - pose proof (utf8_len_pos c). cbn [take_bytes].
    destruct (utf8_len c + byte_len a) eqn:E; [lia|]. rewrite <- E.
    destruct (Nat.leb_spec (utf8_len c) (utf8_len c + byte_len a)); [|lia].
    replace (_ + _ - _) with (byte_len a) by lia. rewrite IH. reflexivity.
Qed.

Lemma take_bytes_inv t : forall n r, take_bytes n t = Some r -> exists b, t = r ++ b /\ byte_len r = n.
Proof.
  induction t as [|c t IH]; intros n r; destruct n as [|n]; cbn [drop_bytes take_bytes].
  - intros H; injection H as <-. exists []; auto.
  - discriminate.
  - intros H; injection H as <-. exists (c :: t); auto.
  - destruct (Nat.leb_spec (utf8_len c) (S n)); [|discriminate].
    destruct (take_bytes (S n - utf8_len c) t) as [x|] eqn:E; [|discriminate]. cbn.
    intros Hd. injection Hd as <-. apply IH in E as (b & -> & Hb).
    exists b. cbn. split; [reflexivity | lia].
Qed.

(** ** C37 *)
Lemma rfind_byte_spec c t : forall off,
  match rfind_byte c t off with
  | Some i => exists pre post, t = pre ++ c :: post /\ i = off + byte_len pre /\ ~ In c post
  | None => ~ In c t
  end.
Proof.
  induction t as [|x t IH]; intros off; cbn; [tauto|].
  specialize (IH (off + utf8_len x)). destruct (rfind_byte c t (off + utf8_len x)) as [i|].
  - destruct IH as (pre & post & -> & -> & Hn). exists (x :: pre), post. cbn.
    split; [reflexivity|]. split; [lia | exact Hn].
  - destruct (N.eqb_spec x c) as [->|Hx].
    + exists [], t. cbn. split; [reflexivity|]. split; [lia | exact IH].
    + intros [H|H]; [congruence | exact (IH H)].
Qed.

Lemma slash_facts : utf8_len (ch "/") = 1 /\ utf8_len BACKSLASH = 1 /\ ch "/" <> BACKSLASH /\ BACKSLASH = ch "\".
Proof. repeat split; try reflexivity. discriminate. Qed.

Lemma drop_after pre c post : utf8_len c = 1 ->
  drop_bytes (byte_len pre + 1) (pre ++ c :: post) = Some post.
Proof.
  intros Hc. replace (byte_len pre + 1) with (byte_len (pre ++ [c])).
  - replace (pre ++ c :: post) with ((pre ++ [c]) ++ post) by (rewrite <- app_assoc; reflexivity).
    apply drop_bytes_app.
  - rewrite byte_len_app. cbn. rewrite Hc. lia.
Qed.

Lemma shorten_one path pre c post d : path = pre ++ c :: post ->
  utf8_len c = 1 -> is_separator c -> ~ In c post -> ~ In d post ->
  (forall x, is_separator x -> x = c \/ x = d) ->
  exists r, drop_bytes (byte_len pre + 1) path = Some r /\ basename_of path r.
Proof.
  intros -> Hc Hsep H1 H2 Hcd. exists post. split; [apply drop_after; exact Hc|].
  exists (pre ++ [c]). split; [rewrite <- app_assoc; reflexivity|]. split.
  - intros x Hx Hs. apply Hcd in Hs as [->| ->]; auto.
  - right. exists pre, c. auto.
Qed.

Lemma later_suffix {A} (pre1 pre2 : list A) c1 c2 post1 post2 :
  pre1 ++ c1 :: post1 = pre2 ++ c2 :: post2 -> length pre2 < length pre1 ->
  exists m, post2 = m ++ post1.
Proof.
  intros H Hl. apply app_eq_app in H as [l [[-> H]|[-> H]]].
  - destruct l as [|x l]; [rewrite app_nil_r in Hl; lia|].
    cbn in H. injection H as _ H. exists (l ++ [c1]). rewrite <- app_assoc. exact H.
  - rewrite app_length in Hl. lia.
Qed.

Lemma prefix_len_lt (pre1 pre2 : text) c1 c2 post1 post2 :
  pre1 ++ c1 :: post1 = pre2 ++ c2 :: post2 -> byte_len pre2 < byte_len pre1 ->
  length pre2 < length pre1.
Proof.
  intros H Hl. apply app_eq_app in H as [l [[-> H]|[-> H]]].
  - destruct l; [rewrite app_nil_r in Hl; lia|]. rewrite app_length. cbn. lia.
  - rewrite byte_len_app in Hl. lia.
Qed.

Lemma shorten_filepath_spec path : exists r, shorten_filepath path = Val r /\ basename_of path r.
Proof.
  unfold shorten_filepath. destruct slash_facts as (L1 & L2 & Hne & Hbs).
  pose proof (rfind_byte_spec (ch "/") path 0) as H1.
  pose proof (rfind_byte_spec BACKSLASH path 0) as H2.
  assert (Hsep1 : is_separator (ch "/")) by (left; reflexivity).
  assert (Hsep2 : is_separator BACKSLASH) by (right; exact Hbs).
  assert (Hcd : forall x, is_separator x -> x = ch "/" \/ x = BACKSLASH)
    by (intros x [->| ->]; auto).
  assert (Hdc : forall x, is_separator x -> x = BACKSLASH \/ x = ch "/")
    by (intros x [->| ->]; auto).
  assert (Hfin : forall n, (exists r, drop_bytes n path = Some r /\ basename_of path r) ->
    exists r, match drop_bytes n path with Some r => Val r | None => Panic end = Val r /\ basename_of path r).
  { intros n (r & Hr & Hb). rewrite Hr. eauto. }
  destruct (rfind_byte (ch "/") path 0) as [i1|], (rfind_byte BACKSLASH path 0) as [i2|]; cbn [opt_max].
  - destruct H1 as (pre1 & post1 & E1 & -> & N1), H2 as (pre2 & post2 & E2 & -> & N2).
    cbn [Nat.add]. apply Hfin.
    assert (Hneq : byte_len pre1 <> byte_len pre2).
    { intros He. apply Hne. assert (Hx : drop_bytes (byte_len pre1) path = drop_bytes (byte_len pre2) path) by congruence.
      rewrite E1 in Hx at 1. rewrite E2 in Hx. rewrite !drop_bytes_app in Hx. congruence. }
    destruct (Nat.lt_total (byte_len pre1) (byte_len pre2)) as [Hlt|[He|Hlt]]; [| contradiction |].
    + rewrite Nat.max_r by lia. eapply (shorten_one path pre2 BACKSLASH post2 (ch "/")); eauto.
      rewrite E1 in E2. pose proof (later_suffix pre2 pre1 _ _ _ _ (eq_sym E2)
        (prefix_len_lt pre2 pre1 _ _ _ _ (eq_sym E2) Hlt)) as [m Hm].
      intros Hin. apply N1. rewrite Hm. apply in_or_app. right. exact Hin.
    + rewrite Nat.max_l by lia. eapply (shorten_one path pre1 (ch "/") post1 BACKSLASH); eauto.
      rewrite E2 in E1. pose proof (later_suffix pre1 pre2 _ _ _ _ (eq_sym E1)
        (prefix_len_lt pre1 pre2 _ _ _ _ (eq_sym E1) Hlt)) as [m Hm].
      intros Hin. apply N2. rewrite Hm. apply in_or_app. right. exact Hin.
  - destruct H1 as (pre1 & post1 & E1 & -> & N1). cbn [Nat.add]. apply Hfin.
    eapply (shorten_one path pre1 (ch "/") post1 BACKSLASH); eauto.
    intros Hin. apply H2. rewrite E1. apply in_or_app. right. right. exact Hin.
  - destruct H2 as (pre2 & post2 & E2 & -> & N2). cbn [Nat.add]. apply Hfin.
    eapply (shorten_one path pre2 BACKSLASH post2 (ch "/")); eauto.
    intros Hin. apply H1. rewrite E2. apply in_or_app. right. right. exact Hin.
  - exists path. split; [destruct path; reflexivity|]. exists []. split; [reflexivity|].
    split; [|left; reflexivity]. intros c Hc Hs. apply Hcd in Hs as [->| ->]; auto.
Qed.

Lemma basename_unique path r1 r2 : basename_of path r1 -> basename_of path r2 -> r1 = r2.
Proof.
  assert (Hle : forall r1 r2, basename_of path r1 -> basename_of path r2 -> length r2 <= length r1).
  { clear. intros r1 r2 (p1 & E1 & N1 & L1) (p2 & E2 & N2 & L2).
    destruct (Nat.le_gt_cases (length r2) (length r1)) as [H|H]; [exact H|exfalso].
    assert (Hx : p1 ++ r1 = p2 ++ r2) by congruence.
    apply app_eq_app in Hx as [l [[-> Hx]|[-> Hx]]].
    - destruct l as [|x l] using rev_ind.
      + cbn in Hx. subst. lia.
      + destruct L1 as [L1|(p' & c & L1 & Hc)].
        * destruct p2; [destruct l; discriminate | discriminate].
        * rewrite app_assoc in L1. apply app_inj_tail in L1 as [_ <-].
          apply (N2 x); [|exact Hc]. rewrite Hx. apply in_or_app. left. apply in_or_app. right. left. reflexivity.
    - subst r1. rewrite app_length in H. lia. }
  intros H1 H2. pose proof (Hle _ _ H1 H2). pose proof (Hle _ _ H2 H1).
  destruct H1 as (p1 & E1 & _), H2 as (p2 & E2 & _).
  assert (Hx : p1 ++ r1 = p2 ++ r2) by congruence.
  apply app_eq_app in Hx as [l [[-> Hx]|[-> Hx]]]; subst; rewrite app_length in *;
    destruct l; cbn in *; try lia; reflexivity.
Qed.

(** ** C38 *)
Lemma md_allowed_dec u c :
  (is_alphanumeric u c || is_whitespace u c || existsb (N.eqb c) markdown_safe = true) <-> md_allowed u c.
Proof.
  unfold md_allowed, is_alphanumeric. rewrite !orb_true_iff, existsb_exists.
  assert ((exists x, In x markdown_safe /\ (c =? x)%N = true) <-> In c (str ".,:+-=/*<>_")).
  { split.
    - intros (x & Hx & He). apply N.eqb_eq in He. subst. exact Hx.
    - intros H. exists c. split; [exact H | apply N.eqb_refl]. }
  tauto.
Qed.

Lemma sanitize_char_spec u c :
  (md_allowed u c /\ sanitize_char u c = c) \/ (~ md_allowed u c /\ sanitize_char u c = REPLACEMENT).
Proof.
  pose proof (md_allowed_dec u c) as H. unfold sanitize_char.
  destruct (is_alphanumeric u c || is_whitespace u c) eqn:E1.
  - left. split; [apply H; reflexivity | reflexivity].
  - cbn [orb] in H. destruct (existsb (N.eqb c) markdown_safe).
    + left. split; [apply H; reflexivity | reflexivity].
    + right. split; [|reflexivity]. intros Hm. apply H in Hm. discriminate.
Qed.

Lemma backtick_not_allowed u : ~ md_allowed u (ch "`").
Proof.
  rewrite <- md_allowed_dec. cbn. discriminate.
Qed.

Lemma sanitize_spec u x :
  Forall2 (fun c d => (md_allowed u c -> d = c) /\ (~ md_allowed u c -> d = REPLACEMENT))
          x (sanitize_markdown_code u x).
Proof.
  induction x as [|c x IH]; cbn; constructor; [|exact IH].
  destruct (sanitize_char_spec u c) as [[H E]|[H E]]; rewrite E; split; auto; contradiction.
Qed.

Lemma sanitize_char_idem u c : sanitize_char u (sanitize_char u c) = sanitize_char u c.
Proof.
  destruct (sanitize_char_spec u c) as [[H E]|[H E]]; rewrite E; [exact E|].
  destruct (sanitize_char_spec u REPLACEMENT) as [[H' E']|[H' E']]; exact E'.
Qed.

Lemma sanitize_idem u x :
  sanitize_markdown_code u (sanitize_markdown_code u x) = sanitize_markdown_code u x.
Proof.
  unfold sanitize_markdown_code. rewrite map_map. apply map_ext. apply sanitize_char_idem.
Qed.

Lemma sanitize_no_backtick u x : ~ In (ch "`") (sanitize_markdown_code u x).
Proof.
  unfold sanitize_markdown_code. rewrite in_map_iff. intros (c & Hc & _).
  destruct (sanitize_char_spec u c) as [[H E]|[H E]]; rewrite E in Hc.
  - subst c. exact (backtick_not_allowed u H).
  - discriminate.
Qed.

(** The rendered frame: a code span without inner back-ticks, then the file. *)
Lemma format_frame_code u disp f :
  exists code rest, format_frame_as_md u disp f = Val (ch "`" :: code ++ ch "`" :: rest) /\
    ~ In (ch "`") code /\ code = sanitize_markdown_code u (f_symbol f).
Proof.
  unfold format_frame_as_md.
  destruct (f_filepath f) as [fp|].
  - destruct (shorten_filepath_spec fp) as (short & -> & _). cbn [rbind].
    destruct (f_resolved f) as [r|].
    + eexists _, _. split; [|split; [apply sanitize_no_backtick | reflexivity]].
      cbn. rewrite <- !app_assoc. reflexivity.
    + eexists _, _. split; [|split; [apply sanitize_no_backtick | reflexivity]].
      cbn. rewrite <- !app_assoc. reflexivity.
  - eexists _, []. split; [|split; [apply sanitize_no_backtick | reflexivity]]. reflexivity.
Qed.

(** ** C39 *)
Lemma contains_occurs t p : contains t p = true <-> occurs_in p t.
Proof. apply contains_spec. Qed.

Lemma contains_not_occurs t p : contains t p = false <-> ~ occurs_in p t.
Proof. rewrite <- contains_occurs. destruct (contains t p); split; congruence. Qed.

Lemma find_preferred_spec prefs frames :
  match find_preferred prefs frames with
  | Some i => exists k p, nth_error prefs k = Some p /\
       first_index (fun f => occurs_in p (f_symbol f)) frames i /\
       (forall k' p' f, k' < k -> nth_error prefs k' = Some p' -> In f frames -> ~ occurs_in p' (f_symbol f))
  | None => forall p f, In p prefs -> In f frames -> ~ occurs_in p (f_symbol f)
  end.
Proof.
  induction prefs as [|p ps IH]; cbn; [intros p f []|].
  pose proof (position_spec (fun f => contains (f_symbol f) p) frames) as H.
  destruct (position (fun f => contains (f_symbol f) p) frames) as [i|].
  - exists 0, p. cbn. split; [reflexivity|]. split; [|intros k' p' f Hk; lia].
    destruct H as [(a & Ha & Hc) H2]. split.
    + exists a. split; [exact Ha | apply contains_occurs; exact Hc].
    + intros j b Hj Hb. apply contains_not_occurs. eauto.
  - destruct (find_preferred ps frames) as [i|].
    + destruct IH as (k & q & Hk & Hfi & Hno). exists (S k), q. cbn. split; [exact Hk|].
      split; [exact Hfi|]. intros [|k'] p' f Hlt Hn Hin; cbn in Hn.
      * injection Hn as <-. apply contains_not_occurs. auto.
      * apply (Hno k'); [lia | exact Hn | exact Hin].
    + intros q f [<-|Hq] Hf; [apply contains_not_occurs; auto | auto].
Qed.

Lemma non_internal_spec f :
  non_internal f = true <-> exists fp, f_filepath f = Some fp /\ ~ internal_path fp.
Proof.
  unfold non_internal, internal_path. destruct (f_filepath f) as [fp|].
  - rewrite andb_true_iff, !negb_true_iff, !contains_not_occurs. split.
    + intros [H1 H2]. exists fp. split; [reflexivity | tauto].
    + intros (fp' & He & H). injection He as <-. tauto.
  - split; [discriminate | intros (fp & He & _); discriminate].
Qed.

Lemma identify_spec frames : relevant_frame frames (identify_relevant_frames frames).
Proof.
  unfold identify_relevant_frames. pose proof (find_preferred_spec symbol_preferences frames) as H.
  change symbol_preferences with preferred in *.
  destruct (find_preferred preferred frames) as [i|].
  - left. exact H.
  - pose proof (position_spec non_internal frames) as H2.
    destruct (position non_internal frames) as [i|].
    + right. split; [exact H|]. destruct H2 as [(a & Ha & Hn) H3]. split.
      * exists a. split; [exact Ha | apply non_internal_spec; exact Hn].
      * intros j b Hj Hb Hc. apply non_internal_spec in Hc. rewrite (H3 _ _ Hj Hb) in Hc. discriminate.
    + split; [exact H|]. intros f fp Hf Hfp.
      destruct (contains fp (str "hyper/ir/")) eqn:E1; [left; apply contains_occurs; exact E1|].
      destruct (contains fp (str "hyper/codegen")) eqn:E2; [right; apply contains_occurs; exact E2|].
      specialize (H2 f Hf). unfold non_internal in H2. rewrite Hfp, E1, E2 in H2. discriminate.
Qed.

(** ** C40 *)
Lemma digits_value_spec ds : forall acc n,
  digits_value acc ds = Some n <->
  (forall c, In c ds -> (48 <= c <= 57)%N) /\ n = fold_left (fun a c => (10 * a + (c - 48))%N) ds acc.
Proof.
  induction ds as [|c ds IH]; intros acc n; cbn [digits_value fold_left].
  - split; [intros H; injection H as <-; split; [intros c []|reflexivity] | intros [_ ->]; reflexivity].
  - unfold ascii_digit, in_range.
    destruct (N.leb_spec 48 c) as [H1|H1], (N.leb_spec c 57) as [H2|H2]; cbn [andb].
    + rewrite IH. unfold digit_val. split; intros [Ha Hn]; (split; [|exact Hn]).
      * intros d [<-|Hd]; [lia | auto].
      * intros d Hd. apply Ha. right. exact Hd.
    + split; [discriminate|]. intros [Ha _]. specialize (Ha c (or_introl eq_refl)). lia.
    + split; [discriminate|]. intros [Ha _]. specialize (Ha c (or_introl eq_refl)). lia.
    + split; [discriminate|]. intros [Ha _]. specialize (Ha c (or_introl eq_refl)). lia.
Qed.

Lemma parse_digits_spec ds n :
  parse_digits ds = Some n <->
  ds <> [] /\ (forall c, In c ds -> (48 <= c <= 57)%N) /\ n = decimal_value ds.
Proof.
  destruct ds as [|c ds].
  - cbn. split; [discriminate | intros [H _]; congruence].
  - unfold parse_digits. rewrite digits_value_spec. unfold decimal_value.
    split; [intros H; split; [discriminate | exact H] | tauto].
Qed.

Lemma parse_u32_spec x n : parse_u32 x = Some n <-> is_u32 x n.
Proof.
  unfold parse_u32, is_u32. split.
  - destruct x as [|c r]; [discriminate|].
    destruct (N.eqb_spec c (ch "+")) as [->|Hc].
    + destruct (parse_digits r) as [m|] eqn:E; [|discriminate]. cbn [obind].
      destruct (N.ltb_spec m U32); [|discriminate]. intros H0; injection H0 as <-.
      apply parse_digits_spec in E as (E1 & E2 & E3). exists r. auto 6.
    + destruct (parse_digits (c :: r)) as [m|] eqn:E; [|discriminate]. cbn [obind].
      destruct (N.ltb_spec m U32); [|discriminate]. intros H0; injection H0 as <-.
      apply parse_digits_spec in E as (E1 & E2 & E3). exists (c :: r). auto 6.
  - intros (ds & Hx & Hne & Hd & -> & Hlt).
    assert (Hp : parse_digits ds = Some (decimal_value ds)) by (apply parse_digits_spec; auto).
    destruct Hx as [->| ->].
    + destruct ds as [|c r]; [congruence|].
      destruct (N.eqb_spec c (ch "+")) as [->|Hc].
      * specialize (Hd (ch "+") (or_introl eq_refl)). cbn in Hd. lia.
      * rewrite Hp. cbn [obind]. destruct (N.ltb_spec (decimal_value (c :: r)) U32); [reflexivity|].
        unfold U32 in *. lia.
    + rewrite N.eqb_refl, Hp. cbn [obind].
      destruct (N.ltb_spec (decimal_value ds) U32); [reflexivity|]. unfold U32 in *. lia.
Qed.

Lemma parse_file_line_spec x fp n : parse_file_line x = Some (fp, n) <-> is_file_line x fp n.
Proof.
  unfold parse_file_line, is_file_line. split.
  - destruct (split_on (ch ":") x) as [|a [|b [|? ?]]] eqn:E; try discriminate.
    apply split_on_spec in E as (_ & E & Hn).
    destruct (parse_u32 b) as [m|] eqn:Eu; [|discriminate]. cbn. intros H; injection H as <- <-.
    exists b. apply parse_u32_spec in Eu. split; [exact E|].
    split; [apply Hn; left; reflexivity|]. split; [apply Hn; right; left; reflexivity | exact Eu].
  - intros (l & -> & H1 & H2 & Hu).
    assert (E : split_on (ch ":") (fp ++ ch ":" :: l) = [fp; l]).
    { apply split_on_spec. split; [discriminate|]. split; [reflexivity|].
      intros w [<-|[<-|[]]]; assumption. }
    rewrite E. apply parse_u32_spec in Hu. rewrite Hu. reflexivity.
Qed.

Lemma json_index_name j : obind (json_index 0 j) json_as_str = frame_name j.
Proof. destruct j as [| | | | |[|[]]|]; reflexivity. Qed.
Lemma json_index_link j : obind (json_index 1 j) json_as_str = frame_link j.
Proof.
  destruct j as [| | | | |[|[] [|[]]]|]; reflexivity.
Qed.


Lemma glued_join sep l : glued sep l = join_on sep l.
Proof. induction l as [|x [|y l] IH]; [reflexivity|reflexivity|]. cbn [glued join_on] in *. rewrite IH. reflexivity. Qed.
Lemma pieces_split sep t l : pieces sep t l <-> split_on sep t = l.
Proof. unfold pieces. rewrite glued_join. symmetry. apply split_on_spec. Qed.
Lemma extend_plain xs : forall segs, segs <> [[]] -> (forall x, In x xs -> True) -> segs <> [] -> extend_segments segs xs = segs ++ filter (fun n => negb (dots n)) xs.
Proof.
  unfold extend_segments. induction xs as [|x xs IH]; intros segs H1 H2 H3; [symmetry; apply app_nil_r|]. cbn [fold_left filter]. unfold push_segment at 2. fold (dots x).
  destruct (dots x); cbn [negb]; [apply IH; auto|].
  assert (match segs with [[]] => [x] | _ => segs ++ [x] end = segs ++ [x]) as -> by (destruct segs as [|[|] []]; try reflexivity; contradiction).
  rewrite IH; [rewrite <- app_assoc; reflexivity| |auto|]; destruct segs as [|a [|b segs]]; try contradiction; discriminate.
Qed.
Lemma extend_top xs : extend_segments [[]] xs = match skip_empty (filter (fun n => negb (dots n)) xs) with [] => [[]] | s => s end.
Proof.
  unfold extend_segments. induction xs as [|x xs IH]; [reflexivity|]. cbn [fold_left filter]. unfold push_segment at 2. fold (dots x).
  destruct (dots x); cbn [negb]; [exact IH|]. destruct x as [|c x]; [cbn [skip_empty]; exact IH|]. cbn [skip_empty].
  pose proof (extend_plain xs [c :: x] ltac:(discriminate) ltac:(auto) ltac:(discriminate)) as Hp. unfold extend_segments in Hp. rewrite Hp. reflexivity.
Qed.
Lemma extend_none xs : extend_segments [] xs = match filter (fun n => negb (dots n)) xs with [] => [] | names => match skip_empty names with [] => [[]] | s => s end end.
Proof.
  induction xs as [|x xs IH]; [reflexivity|]. unfold extend_segments in *. cbn [fold_left filter]. unfold push_segment at 2. fold (dots x).
  destruct (dots x); cbn [negb]; [exact IH|]. cbn [app]. destruct x as [|c x]; [apply extend_top|]. cbn [skip_empty].
  pose proof (extend_plain xs [c :: x] ltac:(discriminate) ltac:(auto) ltac:(discriminate)) as Hp. unfold extend_segments in Hp. rewrite Hp. reflexivity.
Qed.
Lemma below_iff r path x : below r path x <-> x = mkUrl (url_base r) (extend_segments (url_segments r) (split_on (ch "/") path)) true.
Proof.
  assert (forall l, extend_segments (url_segments r) l = match url_segments r, filter (fun n => negb (dots n)) l with
                     | segs, [] => segs
                     | [], names | [[]], names => match skip_empty names with [] => [[]] | s => s end
                     | segs, names => segs ++ names
                     end) as H.
  { intros l. destruct (url_segments r) as [|[|c s] [|s2 segs]] eqn:E.
    - rewrite extend_none. reflexivity.
    - rewrite extend_top. destruct (filter _ l); reflexivity.
    - rewrite extend_plain; [|discriminate|auto|discriminate]. destruct (filter _ l); [rewrite app_nil_r|]; reflexivity.
    - rewrite extend_plain; [|discriminate|auto|discriminate]. destruct (filter _ l); [rewrite app_nil_r|]; reflexivity.
    - rewrite extend_plain; [|discriminate|auto|discriminate]. destruct (filter _ l); [rewrite app_nil_r|]; reflexivity. }
  split.
  - intros (l & Hl & H1 & H2 & H3). apply pieces_split in Hl. subst l. rewrite <- H in H3. destruct x. cbn in *. subst. reflexivity.
  - intros ->. exists (split_on (ch "/") path). split; [apply pieces_split; reflexivity|]. cbn [url_base url_can_be_base url_segments]. auto.
Qed.
Lemma found_below_spec fs rs path : can_resolve rs -> exists o, resolve_relative_path fs rs path = Val o /\ found_below fs rs path o.
Proof.
  induction rs as [|r rs IH]; intros Hc; [exists None; split; [reflexivity|intros ? ? []]|].
  assert (can_resolve rs) as Hc' by (intros x Hx; apply Hc; right; exact Hx). destruct (IH Hc') as (o & E & H). cbn [resolve_relative_path]. rewrite (Hc r (or_introl eq_refl)).
  cbv zeta. remember (mkUrl (url_base r) (extend_segments (url_segments r) (split_on (ch "/") path)) true) as y eqn:Ey. apply below_iff in Ey.
  assert (forall x, below r path x -> x = y) as Hu by (intros x Hx; apply below_iff in Hx, Ey; congruence).
  assert (fs y <> Some true -> found_below fs (r :: rs) path o) as Hno.
  { intros Hy. destruct o as [x|].
    - destruct H as (pre & r' & post & -> & Hx & Hfs & Hpre). exists (r :: pre), r', post. split; [reflexivity|]. split; [exact Hx|]. split; [exact Hfs|].
      intros r'' x' [<-|Hin] Hb; [rewrite (Hu _ Hb); exact Hy|apply (Hpre _ _ Hin Hb)].
    - intros r'' x' [<-|Hin] Hb; [rewrite (Hu _ Hb); exact Hy|apply (H _ _ Hin Hb)]. }
  destruct (fs y) as [[|]|] eqn:Ef.
  - exists (Some y). split; [reflexivity|]. exists [], r, rs. split; [reflexivity|]. split; [exact Ey|]. split; [exact Ef|]. intros ? ? [].
  - exists o. split; [exact E|]. apply Hno. discriminate.
  - exists o. split; [exact E|]. apply Hno. discriminate.
Qed.

Lemma parse_frame_spec fs roots j : can_resolve roots ->
  exists f, parse_frame fs roots j = Val f /\ frame_reads fs roots j f.
Proof.
  intros Hr. unfold parse_frame. rewrite json_index_name, json_index_link.
  assert (Hname : exists name,
    match frame_name j with
    | Some (c :: n) => Val (c :: n)
    | _ => match frame_link j with Some link => shorten_filepath link | None => Val (str "<invalid>") end
    end = Val name /\
    match frame_name j, frame_link j with
    | Some (c :: n), _ => name = c :: n
    | _, Some link => basename_of link name
    | _, None => name = str "<invalid>"
    end).
  { destruct (frame_name j) as [[|c n]|]; [| exists (c :: n); split; reflexivity |].
    - destruct (frame_link j) as [link|]; [|exists (str "<invalid>"); split; reflexivity].
      exact (shorten_filepath_spec link).
    - destruct (frame_link j) as [link|]; [|exists (str "<invalid>"); split; reflexivity].
      exact (shorten_filepath_spec link). }
  destruct Hname as (name & Hn1 & Hn2). cbn zeta.
  replace (match frame_name j, frame_link j with
           | Some (c :: n), _ => Val (c :: n)
           | _, Some link => shorten_filepath link
           | _, None => Val (str "<invalid>")
           end) with (Val name) by
    (rewrite <- Hn1; destruct (frame_name j) as [[|? ?]|]; destruct (frame_link j); reflexivity).
  cbn [rbind].
  destruct (obind (frame_link j) parse_file_line) as [[fp n]|] eqn:El.
  - destruct (found_below_spec fs roots fp Hr) as (o & -> & Ho). cbn [rbind option_map fst].
    eexists. split; [reflexivity|]. split; [exact Hn2|]. cbn.
    destruct (frame_link j) as [link|]; [|discriminate]. cbn in El. apply parse_file_line_spec in El.
    split; [|exact Ho]. intros fp' n'. split.
    + intros [H1 <-]. injection H1 as <-. eauto.
    + intros (link' & Hl & Hf). injection Hl as <-.
      apply parse_file_line_spec in Hf, El. split; congruence.
  - cbn [rbind option_map]. eexists. split; [reflexivity|]. split; [exact Hn2|]. cbn.
    split; [|auto]. intros fp' n'. split; [intros [H _]; discriminate|].
    intros (link & Hl & Hf). rewrite Hl in El. cbn in El.
    apply parse_file_line_spec in Hf. congruence.
Qed.

Lemma rmapM_spec {A B} (f : A -> res B) (P : A -> B -> Prop) l :
  (forall a, exists b, f a = Val b /\ P a b) -> exists bs, rmapM f l = Val bs /\ Forall2 P l bs.
Proof.
  intros H. induction l as [|a l (bs & IH1 & IH2)]; cbn; [eauto|].
  destruct (H a) as (b & -> & Hb). cbn [rbind]. rewrite IH1. cbn [rbind]. eauto.
Qed.

Lemma parse_backtrace_spec fs roots j : can_resolve roots ->
  (exists fields l frames, j = JObj fields /\ alookup (str "backtrace") fields = Some (JArr l) /\
       parse_backtrace_from_json fs roots j = Val (Some frames) /\ Forall2 (frame_reads fs roots) l frames)
  \/ ((forall fields l, j = JObj fields -> alookup (str "backtrace") fields <> Some (JArr l)) /\
      parse_backtrace_from_json fs roots j = Val None).
Proof.
  intros Hr. unfold parse_backtrace_from_json, json_field.
  destruct j as [| | | | | |fields]; try (right; split; [intros; discriminate | reflexivity]).
  destruct (alookup (str "backtrace") fields) as [v|] eqn:E; cbn [obind].
  - destruct v; cbn [json_as_array];
      try (right; split; [intros ? ? H; injection H as <-; rewrite E; discriminate | reflexivity]).
    left. destruct (rmapM_spec (parse_frame fs roots) (frame_reads fs roots) l) as (frames & H1 & H2).
    { intros a. apply parse_frame_spec. exact Hr. }
    exists fields, l, frames. rewrite H1. auto.
  - right. split; [|reflexivity]. intros ? ? H. injection H as <-. rewrite E. discriminate.
Qed.

(** ** C41 *)
Lemma shorten_name_short x : byte_len x < 48 -> shorten_name x 50 = Val x.
Proof.
  intros H. unfold shorten_name. change (50 - 2) with 48.
  destruct (Nat.ltb_spec (byte_len x) 48); [reflexivity | lia].
Qed.

Lemma shorten_name_long x y : 48 <= byte_len x ->
  (shorten_name x 50 = Val y <->
   exists pre post, x = pre ++ post /\ byte_len pre = 48 /\ y = pre ++ [ELLIPSIS]).
Proof.
  intros H. unfold shorten_name. change (50 - 2) with 48.
  destruct (Nat.ltb_spec (byte_len x) 48); [lia|].
  unfold byte_slice. replace (drop_bytes 0 x) with (Some x) by (destruct x; reflexivity).
  change (0 <=? 48) with true. change (48 - 0) with 48. cbv iota.
  destruct (take_bytes 48 x) as [p|] eqn:E.
  - apply take_bytes_inv in E as (b & -> & Hb). cbn [rmap rbind]. split.
    + intros He. injection He as <-. eauto.
    + intros (pre & post & Hx & Hp & ->). f_equal.
      assert (take_bytes 48 (p ++ b) = Some pre) by (rewrite Hx, <- Hp; apply take_bytes_app).
      rewrite <- Hb in H1. rewrite take_bytes_app in H1. congruence.
  - cbn. split; [discriminate|]. intros (pre & post & -> & Hp & _).
    rewrite <- Hp, take_bytes_app in E. discriminate.
Qed.

Lemma take_bytes_ascii t : ascii_text t = true -> forall n, n <= length t ->
  take_bytes n t = Some (firstn n t).
Proof.
  induction t as [|c t IH]; cbn; intros H n Hn.
  - assert (n = 0) by lia. subst. reflexivity.
  - destruct n as [|n]; [reflexivity|]. apply andb_prop in H as [H1 H2].
    cbn [take_bytes firstn]. rewrite utf8_len_ascii by exact H1.
    change (1 <=? S n) with true. cbv iota. replace (S n - 1) with n by lia.
    rewrite IH by (assumption || lia). reflexivity.
Qed.
Lemma drop_bytes_ascii t : ascii_text t = true -> forall n, n <= length t ->
  drop_bytes n t = Some (skipn n t).
Proof.
  induction t as [|c t IH]; cbn; intros H n Hn.
  - assert (n = 0) by lia. subst. reflexivity.
  - destruct n as [|n]; [reflexivity|]. apply andb_prop in H as [H1 H2].
    cbn [drop_bytes skipn]. rewrite utf8_len_ascii by exact H1.
    change (1 <=? S n) with true. cbv iota. replace (S n - 1) with n by lia.
    apply IH; (assumption || lia).
Qed.

Lemma shorten_name_ascii x : ascii_text x = true ->
  shorten_name x 50 = Val (if length x <? 48 then x else firstn 48 x ++ [ELLIPSIS]).
Proof.
  intros Ha. destruct (Nat.ltb_spec (length x) 48) as [H|H].
  - apply shorten_name_short. rewrite byte_len_ascii; assumption.
  - apply shorten_name_long; [rewrite byte_len_ascii; assumption|].
    exists (firstn 48 x), (skipn 48 x). rewrite firstn_skipn. split; [reflexivity|].
    split; [|reflexivity]. rewrite byte_len_ascii by (apply ascii_firstn; exact Ha).
    apply firstn_length_le. exact H.
Qed.

(** ** Statements for the property file *)
Lemma basename_spec path : exists r, shorten_filepath path = Val r /\
  (forall r', basename_of path r' <-> r' = r).
Proof.
  destruct (shorten_filepath_spec path) as (r & H1 & H2). exists r. split; [exact H1|].
  intros r'. split; [intros H; exact (basename_unique _ _ _ H H2) | intros ->; exact H2].
Qed.

Lemma shorten_name_witness : exists x, byte_len x < 100 /\ shorten_name x 50 = Panic.
Proof. exists (repeat 97%N 47 ++ [233]%N). vm_compute. split; [lia | reflexivity]. Qed.

Lemma ellipsis_witness : exists x, byte_len x = 48 /\ shorten_name x 50 = Val (x ++ [ELLIPSIS]).
Proof. exists (repeat 97%N 48). vm_compute. split; reflexivity. Qed.

Lemma resolve_witness : exists fs roots j, parse_backtrace_from_json fs roots j = Panic.
Proof.
  exists (fun _ => None), [mkUrl (str "untitled:x") [] false],
    (JObj [(str "backtrace", JArr [JArr [JStr (str "f"); JStr (str "a.cpp:1")]])]).
  vm_compute. reflexivity.
Qed.
