(** What a repetition does step by step, with its errors; the lexer further down in a text. *)
From Verif Require Import Text Chumsky Tokenizer SpecLex SpecAbove PChumsky PLex PLexSpec PTokens.

(** ** Repetitions *)
Section Runs.
Context {I A : Type}.
Variable p : parser (I:=I) A.

Inductive runs : stream -> list (located I) -> list A -> stream -> Prop :=
| runs_stop st es e : p st = PErr es e -> runs st [] [] st
| runs_go st es a alt r es' l r' : p st = POk es a alt r -> length r < length st -> runs r es' l r' ->
    runs st (es ++ es') (a :: l) r'.

Definition shrinks : Prop := forall st es a alt r, p st = POk es a alt r -> length r < length st.

Lemma rep_runs : shrinks -> forall fuel old errs outs alt st es l alt' r,
  p_rep fuel p 0 old errs outs alt st = POk es l alt' r -> exists es1 l1, es = errs ++ es1 /\ l = outs ++ l1 /\ runs st es1 l1 r.
Proof.
  intros Hs. induction fuel as [|fuel IH]; intros old errs outs alt st es l alt' r H; [discriminate|]. cbn [p_rep] in H.
  destruct (p st) as [es0 a a_alt r0|es0 e|] eqn:E; [| |discriminate].
  - destruct (match old with Some n => n =? length r0 | None => false end); [discriminate|].
    apply IH in H as (es1 & l1 & -> & -> & H). exists (es0 ++ es1), (a :: l1). rewrite <- !app_assoc. split; [reflexivity|]. split; [reflexivity|].
    exact (runs_go _ _ _ _ _ _ _ _ E (Hs _ _ _ _ _ E) H).
  - cbn in H. injection H as <- <- <- <-. exists [], []. rewrite !app_nil_r. repeat split. exact (runs_stop _ _ _ E).
Qed.
Lemma runs_rep st es l r : runs st es l r -> forall fuel old errs outs alt, length st < fuel ->
  match old with Some n => length st <= n | None => True end ->
  exists alt', p_rep fuel p 0 old errs outs alt st = POk (errs ++ es) (outs ++ l) alt' r.
Proof.
  induction 1 as [st es e E|st es a a_alt r es' l r' E Hl _ IH]; intros [|fuel] old errs outs alt Hf Ho; try lia; cbn [p_rep]; rewrite E.
  - cbn. rewrite !app_nil_r. eauto.
  - assert (match old with Some n => n =? length r | None => false end = false) as ->.
    { destruct old as [n|]; [|reflexivity]. apply Nat.eqb_neq. lia. }
    destruct (IH fuel (Some (length r)) (errs ++ es) (outs ++ [a]) (merge_alts alt a_alt)) as (alt' & ->); [lia|lia|].
    rewrite <- !app_assoc. eauto.
Qed.
Lemma repeated_runs st es l alt r : shrinks -> p_repeated p st = POk es l alt r -> runs st es l r.
Proof. intros Hs H. apply rep_runs in H as (es1 & l1 & -> & -> & H); assumption. Qed.
Lemma runs_repeated st es l r : runs st es l r -> exists alt, p_repeated p st = POk es l alt r.
Proof. intros H. apply (runs_rep _ _ _ _ H); [lia|constructor]. Qed.
End Runs.

Lemma consumes_shrinks {I A} (p : parser (I:=I) A) : consumes (fun s => vw (p s)) -> shrinks p.
Proof.
  intros H st es a alt r E. destruct (H st (length es) a r) as (x & xs & ->); [rewrite E; reflexivity|]. cbn. rewrite app_length. lia.
Qed.

(** ** Parsers do the same further down *)
Section Further.
Context {I : Type}.
Variables (d : nat) (eoi : span).
Notation eoi' := (shift_span d eoi).
Notation strm := (list (I * span)).

Definition shs (st : strm) : strm := map (fun x => (fst x, shift_span d (snd x))) st.
Definition shl (e : located I) : located I := mkLoc (l_rem e) (move_error d (l_err e)).
Definition shp {A B} (f : A -> B) (x : pres I A) : pres I B :=
  match x with
  | POk es a alt r => POk (map shl es) (f a) (option_map shl alt) (shs r)
  | PErr es e => PErr (map shl es) (shl e)
  | PPanic => PPanic
  end.
Definition carries {A B} (f : A -> B) (p : parser (I:=I) A) (q : parser (I:=I) B) : Prop := forall st, q (shs st) = shp f (p st).

Lemma shs_length st : length (shs st) = length st. Proof. apply map_length. Qed.
Lemma shl_max a b : shl (loc_max a b) = loc_max (shl a) (option_map shl b).
Proof.
  destruct b as [b|]; [|reflexivity]. cbn [loc_max option_map]. change (l_rem (shl a)) with (l_rem a). change (l_rem (shl b)) with (l_rem b).
  destruct (l_rem a <? l_rem b); [reflexivity|]. destruct (l_rem b <? l_rem a); reflexivity.
Qed.
Lemma shl_alts a b : option_map shl (merge_alts a b) = merge_alts (option_map shl a) (option_map shl b).
Proof. destruct a as [a|]; [|reflexivity]. cbn [merge_alts option_map]. rewrite shl_max. reflexivity. Qed.
Lemma shl_here st ex : err_here eoi' (shs st) ex = shl (err_here eoi st ex).
Proof. destruct st as [|[x sp] st]; [reflexivity|]. cbn [shs map err_here fst snd]. unfold shl, move_error. cbn. rewrite map_length. reflexivity. Qed.

Lemma carry_filter f : carries (fun x => x) (p_filter eoi f) (p_filter eoi' f).
Proof.
  intros st. pose proof (shl_here st []) as E. destruct st as [|[x sp] st]; cbn [shs map p_filter fst snd] in *; [rewrite E; reflexivity|].
  destruct (f x); [reflexivity|]. rewrite E. reflexivity.
Qed.
Lemma carry_just eqb x : carries (fun x => x) (p_just eqb eoi x) (p_just eqb eoi' x).
Proof.
  intros st. pose proof (shl_here st [Some x]) as E. destruct st as [|[y sp] st]; cbn [shs map p_just fst snd] in *; [rewrite E; reflexivity|].
  destruct (eqb y x); [reflexivity|]. rewrite E. reflexivity.
Qed.
Lemma carry_seq eqb xs : carries (fun x => x) (p_just_seq eqb eoi xs) (p_just_seq eqb eoi' xs).
Proof.
  induction xs as [|x xs IH]; intros st; [reflexivity|]. cbn [p_just_seq]. rewrite (carry_just eqb x st).
  destruct (p_just eqb eoi x st); cbn [shp]; [apply IH|reflexivity|reflexivity].
Qed.
Lemma carry_one_of eqb xs : carries (fun x => x) (p_one_of eqb eoi xs) (p_one_of eqb eoi' xs).
Proof.
  intros st. pose proof (shl_here st (map Some xs)) as E. destruct st as [|[y sp] st]; cbn [shs map p_one_of fst snd] in *; [rewrite E; reflexivity|].
  destruct (existsb (eqb y) xs); [reflexivity|]. rewrite E. reflexivity.
Qed.
Lemma carry_end : carries (fun x => x) (p_end eoi) (p_end eoi').
Proof. intros st. pose proof (shl_here st [None]) as E. destruct st as [|[y sp] st]; cbn [shs map p_end fst snd] in *; [reflexivity|]. rewrite E. reflexivity. Qed.

Lemma carry_map {A B C D} (f : A -> B) (g : C -> D) (h : A -> C) (k : B -> D) p q : carries f p q -> (forall a, k (f a) = g (h a)) -> carries g (p_map p h) (p_map q k).
Proof. intros H Hk st. unfold p_map. rewrite H. destruct (p st); cbn; rewrite ?Hk; reflexivity. Qed.
Lemma carry_to {A B C} (f : A -> B) (c : C) p q : carries f p q -> carries (fun x => x) (p_to p c) (p_to q c).
Proof. intros H. apply (carry_map f); [exact H|reflexivity]. Qed.
Lemma carry_then {A B C D} (f : A -> B) (g : C -> D) p q p' q' : carries f p q -> carries g p' q' -> carries (fun x => (f (fst x), g (snd x))) (p_then p p') (p_then q q').
Proof.
  intros H H' st. unfold p_then. rewrite H. destruct (p st) as [es a alt r| |]; cbn [shp]; try reflexivity. rewrite H'.
  destruct (p' r) as [es' b alt' r'|es' e|]; cbn [shp fst snd]; rewrite ?map_app, ?shl_alts, ?shl_max; reflexivity.
Qed.
Lemma carry_ignore_then {A B C D} (f : A -> B) (g : C -> D) p q p' q' : carries f p q -> carries g p' q' -> carries g (p_ignore_then p p') (p_ignore_then q q').
Proof. intros H H'. eapply carry_map; [apply carry_then; eassumption|reflexivity]. Qed.
Lemma carry_then_ignore {A B C D} (f : A -> B) (g : C -> D) p q p' q' : carries f p q -> carries g p' q' -> carries f (p_then_ignore p p') (p_then_ignore q q').
Proof. intros H H'. eapply carry_map; [apply carry_then; eassumption|reflexivity]. Qed.
Lemma carry_padded {A B C D} (f : A -> B) (g : C -> D) p q p' q' : carries f p q -> carries g p' q' -> carries f (p_padded_by p p') (p_padded_by q q').
Proof. intros H H'. eapply carry_then_ignore; [eapply carry_ignore_then|]; eassumption. Qed.
Lemma carry_rewind {A B} (f : A -> B) p q : carries f p q -> carries f (p_rewind p) (p_rewind q).
Proof. intros H st. unfold p_rewind. rewrite H. destruct (p st); reflexivity. Qed.
Lemma rev_head es : match rev (map shl es) with [] => 0 | e :: _ => l_rem e end = match rev es with [] => 0 | e :: _ => l_rem e end.
Proof. rewrite <- map_rev. destruct (rev es); reflexivity. Qed.
Lemma carry_or {A B} (f : A -> B) p q p' q' : carries f p q -> carries f p' q' -> carries f (p_or p p') (p_or q q').
Proof.
  intros H H' st. unfold p_or. rewrite H. destruct (p st) as [es a alt r|es e|]; cbn [shp]; [| |reflexivity].
  - destruct es as [|e es]; [reflexivity|]. cbn [map]. change (shl e :: map shl es) with (map shl (e :: es)). rewrite H'.
    destruct (p' st) as [es' b alt' r'|es' e'|]; cbn [shp]; [| |reflexivity].
    + destruct es' as [|e2 es']; [reflexivity|]. cbn [map]. change (shl e2 :: map shl es') with (map shl (e2 :: es')). change (shl e :: map shl es) with (map shl (e :: es)). cbv zeta. rewrite !rev_head.
      match goal with |- context [?x <? ?y] => destruct (x <? y) end; reflexivity.
    + rewrite shl_alts. reflexivity.
  - rewrite H'. destruct (p' st) as [es' b alt' r'|es' e'|]; cbn [shp]; [| |reflexivity].
    + destruct es' as [|e2 es']; [reflexivity|]. cbn [map shp]. rewrite shl_alts. reflexivity.
    + change (l_rem (shl e)) with (l_rem e). change (l_rem (shl e')) with (l_rem e').
      destruct (l_rem e' <? l_rem e); [reflexivity|]. destruct (l_rem e <? l_rem e'); [reflexivity|].
      cbn [shp]. rewrite shl_max. reflexivity.
Qed.
Lemma carry_choice_from {A B} (f : A -> B) ps qs st : Forall2 (carries f) ps qs -> forall alt,
  p_choice_from eoi' (option_map shl alt) qs (shs st) = shp f (p_choice_from eoi alt ps st).
Proof.
  induction 1 as [|p q ps qs H _ IH]; intros alt; cbn [p_choice_from].
  - destruct alt; [reflexivity|]. cbn [option_map]. rewrite shl_here. reflexivity.
  - rewrite (H st). destruct (p st) as [es a alt' r|es e|]; cbn [shp]; try reflexivity.
    rewrite <- IH, shl_alts. reflexivity.
Qed.
Lemma carry_choice {A B} (f : A -> B) ps qs : Forall2 (carries f) ps qs -> carries f (p_choice eoi ps) (p_choice eoi' qs).
Proof. intros H st. apply (carry_choice_from f ps qs st H None). Qed.
Lemma carry_rep {A B} (f : A -> B) p q n : carries f p q -> forall fuel old errs outs alt st,
  p_rep fuel q n old (map shl errs) (map f outs) (option_map shl alt) (shs st) = shp (map f) (p_rep fuel p n old errs outs alt st).
Proof.
  intros H. induction fuel as [|fuel IH]; intros old errs outs alt st; [reflexivity|]. cbn [p_rep]. rewrite H.
  destruct (p st) as [es a a_alt r|es e|]; cbn [shp]; [| |reflexivity].
  - rewrite shs_length. destruct (match old with Some m => m =? length r | None => false end); [reflexivity|].
    rewrite <- IH. rewrite !map_app, shl_alts. reflexivity.
  - rewrite map_length. destruct (length outs <? n); cbn [shp]; rewrite ?map_app, ?shl_max, ?shl_alts; reflexivity.
Qed.
Lemma carry_repeated {A B} (f : A -> B) p q : carries f p q -> carries (map f) (p_repeated p) (p_repeated q).
Proof. intros H st. unfold p_repeated, p_repeated_at_least. rewrite shs_length. apply (carry_rep f p q 0 H _ None [] [] None st). Qed.
Lemma carry_until_from {A B} (f : A -> B) p q : carries f p q -> forall st outs alt,
  p_take_until_from eoi' q outs (option_map shl alt) (shs st) = shp (fun x => (fst x, f (snd x))) (p_take_until_from eoi p outs alt st).
Proof.
  intros H. induction st as [|[x sp] st IH]; intros outs alt.
  - pose proof (H []) as E. cbn [shs map] in *. cbn [p_take_until_from]. rewrite E. destruct (p []) as [es b a_alt r|es e|]; cbn [shp fst snd]; [rewrite shl_alts; reflexivity| |reflexivity].
    rewrite (shl_max e (Some (err_here eoi [] []))). reflexivity.
  - pose proof (H ((x, sp) :: st)) as E. cbn [shs map fst snd] in *. cbn [p_take_until_from]. rewrite E.
    destruct (p ((x, sp) :: st)) as [es b a_alt r|es e|]; cbn [shp fst snd]; [rewrite shl_alts; reflexivity| |reflexivity].
    rewrite <- IH, shl_alts. reflexivity.
Qed.
Lemma carry_until {A B} (f : A -> B) p q : carries f p q -> carries (fun x => (fst x, f (snd x))) (p_take_until eoi p) (p_take_until eoi' q).
Proof. intros H st. apply (carry_until_from f p q H st [] None). Qed.
Lemma carry_retry {A B} (f : A -> B) p q : carries f p q -> forall st es e, p_retry q (map shl es) (shl e) (shs st) = shp f (p_retry p es e st).
Proof.
  intros H. induction st as [|[x sp] st IH]; intros es e.
  - pose proof (H []) as E. cbn [shs map] in *. cbn [p_retry]. rewrite E. destruct (p []); cbn [shp]; try reflexivity. rewrite map_app. reflexivity.
  - pose proof (H ((x, sp) :: st)) as E. cbn [shs map fst snd] in *. cbn [p_retry]. rewrite E.
    destruct (p ((x, sp) :: st)); cbn [shp]; [rewrite map_app; reflexivity|apply IH|reflexivity].
Qed.
Lemma carry_recover {A B} (f : A -> B) p q : carries f p q -> carries f (p_recover p) (p_recover q).
Proof.
  intros H st. unfold p_recover. rewrite H. destruct (p st) as [es a alt r|es e|]; cbn [shp]; try reflexivity.
  rewrite <- (carry_retry f p q H). destruct st; reflexivity.
Qed.
Lemma last_end_shift n (l : strm) : last_end (n + d) (shs l) = last_end n l + d.
Proof. unfold last_end, shs. rewrite <- map_rev. destruct (rev l) as [|[x sp] r]; reflexivity. Qed.
Lemma since_shift (from now : strm) : span_since eoi' (shs from) (shs now) = shift_span d (span_since eoi from now).
Proof.
  destruct from as [|[x sp] from]; [reflexivity|]. unfold span_since. rewrite !shs_length.
  change (shs ((x, sp) :: from)) with ((x, shift_span d sp) :: shs from).
  replace (firstn (length ((x, sp) :: from) - length now) ((x, shift_span d sp) :: shs from)) with (shs (firstn (length ((x, sp) :: from) - length now) ((x, sp) :: from))).
  - change (sp_end (shift_span d sp)) with (sp_end sp + d). rewrite last_end_shift. reflexivity.
  - unfold shs. rewrite <- firstn_map. reflexivity.
Qed.
Lemma carry_with_span {A B C D} (f : A -> B) (g : C -> D) p q h k : carries f p q -> (forall a sp, k (f a) (shift_span d sp) = g (h a sp)) ->
  carries g (p_map_with_span eoi p h) (p_map_with_span eoi' q k).
Proof. intros H Hk st. unfold p_map_with_span. rewrite H. destruct (p st); cbn [shp]; try reflexivity. rewrite since_shift, Hk. reflexivity. Qed.
End Further.

(** ** The lexer *)
Section Lexer.
Variables (u : uclass) (d : nat) (eoi : span).
Notation eoi' := (shift_span d eoi).
Lemma map_idf {A} (l : list A) : map (fun x => x) l = l. Proof. apply map_id. Qed.
Ltac cj := apply carry_just.
Lemma carry_newline : carries d (fun x => x) (t_newline eoi) (t_newline eoi').
Proof. eapply carry_to. eapply carry_or; [cj|]. eapply carry_then_ignore; cj. Qed.
Lemma carry_comment : carries d (fun x => x) (t_comment eoi) (t_comment eoi').
Proof.
  eapply carry_to. eapply carry_then; [cj|]. eapply carry_until. eapply carry_rewind. eapply carry_or; [cj|]. eapply carry_to. apply carry_end.
Qed.
Lemma carry_text {A} p q : carries (I:=A) d (fun x : A => x) p q -> carries d (fun x => x) (p_repeated p) (p_repeated q).
Proof. intros H st. rewrite (carry_repeated d _ p q H st). destruct (p_repeated p st); cbn [shp]; rewrite ?map_idf; reflexivity. Qed.
Lemma carry_int dig : carries d (fun x => x) (text_int eoi dig) (text_int eoi' dig).
Proof.
  eapply carry_or.
  - eapply carry_map; [eapply carry_then; [apply carry_filter|eapply carry_text; apply carry_filter]|]. intros []. reflexivity.
  - eapply carry_map; [cj|reflexivity].
Qed.
Lemma carry_hexnum : carries d (fun x => x) (t_hexnum eoi) (t_hexnum eoi').
Proof. eapply carry_map; [eapply carry_ignore_then; [apply carry_seq|apply carry_int]|reflexivity]. Qed.
Lemma carry_num : carries d (fun x => x) (t_num eoi) (t_num eoi').
Proof. eapply carry_map; [apply carry_int|reflexivity]. Qed.
Lemma carry_str : carries d (fun x => x) (t_str eoi) (t_str eoi').
Proof. eapply carry_map; [eapply carry_then_ignore; [eapply carry_ignore_then; [cj|eapply carry_text; apply carry_filter]|cj]|reflexivity]. Qed.
Lemma carry_punct : carries d (fun x => x) (t_punctuation eoi) (t_punctuation eoi').
Proof. eapply carry_map; [apply carry_one_of|reflexivity]. Qed.
Lemma carry_tail : carries d (fun x => x) (t_ident_tail u eoi) (t_ident_tail u eoi').
Proof.
  eapply carry_map; [eapply carry_repeated; eapply carry_then; [eapply carry_text; cj|apply carry_filter]|].
  intros a. rewrite (map_ext _ (fun x => x)) by (intros []; reflexivity). rewrite map_idf. reflexivity.
Qed.
Lemma carry_ident : carries d (fun x => x) (t_ident u eoi) (t_ident u eoi').
Proof. eapply carry_map; [eapply carry_then; [apply carry_filter|apply carry_tail]|]. intros []. reflexivity. Qed.
Lemma carry_sigil s mk : carries d (fun x => x) (t_sigil u eoi s mk) (t_sigil u eoi' s mk).
Proof. eapply carry_map; [eapply carry_then; [cj|apply carry_tail]|]. intros []. reflexivity. Qed.
Lemma carry_token : carries d (fun x => x) (t_token u eoi) (t_token u eoi').
Proof.
  apply carry_choice. repeat (apply Forall2_cons || apply Forall2_nil).
  - apply carry_comment.
  - apply carry_hexnum.
  - apply carry_num.
  - apply carry_str.
  - apply carry_punct.
  - apply carry_ident.
  - apply carry_sigil.
  - apply carry_sigil.
  - apply carry_sigil.
  - apply carry_newline.
Qed.
Lemma carry_item : carries d (shift_tok d) (t_item u eoi) (t_item u eoi').
Proof.
  eapply carry_padded; [|eapply carry_text; apply carry_one_of]. eapply carry_with_span; [eapply carry_recover, carry_token|reflexivity].
Qed.
Lemma carry_items : carries d (map (shift_tok d)) (p_repeated (t_item u eoi)) (p_repeated (t_item u eoi')).
Proof. apply carry_repeated, carry_item. Qed.

Lemma shs_enum t : forall i, shs d (enum_from i t) = enum_from (i + d) t.
Proof.
  induction t as [|c t IH]; intros i; [reflexivity|]. cbn [enum_from shs map fst snd]. fold (shs d (enum_from (i + 1) t)). rewrite IH.
  unfold shift_span. cbn. f_equal; [f_equal; f_equal; lia|f_equal; lia].
Qed.
End Lexer.

Section Lines.
Variables (u : uclass) (eoi : span).
Notation P := (t_item u eoi).
(** Blanks in front of an item make no difference. *)
Lemma item_strip i t es a alt r : P (enum_from i t) = POk es a alt r ->
  exists alt', P (enum_from (i + lead t) (skipn (lead t) t)) = POk es a alt' r.
Proof.
  assert (forall j s, exists alt, t_padding eoi (enum_from j s) = POk [] (firstn (lead s) s) alt (enum_from (j + lead s) (skipn (lead s) s))) as Hp.
  { intros j s. assert (vw (t_padding eoi (enum_from j s)) = VOk 0 (firstn (lead s) s) (enum_from (j + lead s) (skipn (lead s) s))) as E
      by (rewrite v_padding, enum_chars, skipn_enum; reflexivity).
    apply vw_ok0 in E. exact E. }
  assert (forall s, lead (skipn (lead s) s) = 0) as Hl.
  { intros s. unfold lead. induction s as [|c s IH]; [reflexivity|]. cbn [span_len]. destruct (is_blank c) eqn:E; [exact IH|]. cbn [skipn span_len]. rewrite E. reflexivity. }
  unfold t_item, p_padded_by, p_then_ignore, p_ignore_then, p_map, p_then.
  destruct (Hp i t) as (alt1 & ->). destruct (Hp (i + lead t) (skipn (lead t) t)) as (alt2 & ->). rewrite !Hl, Nat.add_0_r. cbn [skipn].
  destruct (p_map_with_span eoi (p_recover (t_token u eoi)) (fun tok sp => (tok, sp)) (enum_from (i + lead t) (skipn (lead t) t))) as [es1 a1 alt3 r1| |]; try discriminate.
  cbn [snd]. destruct (t_padding eoi r1) as [es2 a2 alt4 r2| |]; try discriminate. cbn [fst]. intros H. injection H as <- <- _ <-. eexists. reflexivity.
Qed.
End Lines.
