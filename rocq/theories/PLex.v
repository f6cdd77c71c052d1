(** The combinator lexer equals a direct lexer. *)
From Verif Require Import Text Chumsky Tokenizer SpecLex PChumsky PText.

Notation chars := (map fst).
Notation cstream := (list (char * span)).

(** ** Direct lexer *)
Fixpoint span_len (f : char -> bool) (t : text) : nat :=
  match t with
  | c :: r => if f c then S (span_len f r) else 0
  | [] => 0
  end.

Definition nzero (c : char) : bool := negb (c =? 48)%N.

Definition int_len (dig : char -> bool) (t : text) : option nat :=
  match t with
  | c :: r => if dig c && nzero c then Some (S (span_len dig r))
              else if (c =? 48)%N then Some 1 else None
  | [] => None
  end.

Fixpoint tail_len (u : uclass) (t : text) (pend : nat) : nat :=
  match t with
  | c :: r => if is_ident_char u c then pend + S (tail_len u r 0)
              else if (c =? ch ":")%N then tail_len u r (S pend)
              else 0
  | [] => 0
  end.

Definition lx1 := option (token * nat).
Definition lx_comment' (t : text) : lx1 :=
  match t with
  | c :: r => if (c =? ch "#")%N then Some (TComment, S (span_len (fun d => negb (d =? LF)%N) r)) else None
  | [] => None
  end.
Definition lx_hex' (t : text) : lx1 :=
  match t with
  | a :: b :: r => if (a =? ch "0")%N && (b =? ch "x")%N
                   then option_map (fun n => (THexNum (firstn n r), S (S n))) (int_len is_digit16 r)
                   else None
  | _ => None
  end.
Definition lx_num' (t : text) : lx1 :=
  option_map (fun n => (TNum (firstn n t), n)) (int_len is_digit10 t).
Definition lx_str' (t : text) : lx1 :=
  match t with
  | c :: r => if (c =? DQUOTE)%N then
                let n := span_len (fun d => negb (d =? DQUOTE)%N) r in
                if n <? length r then Some (TStr (firstn n r), S (S n)) else None
              else None
  | [] => None
  end.
Definition lx_punct' (t : text) : lx1 :=
  match t with
  | c :: _ => if existsb (N.eqb c) punctuation_chars then Some (TPunct c, 1) else None
  | [] => None
  end.
Definition lx_ident' (u : uclass) (t : text) : lx1 :=
  match t with
  | c :: r => if is_ident_head u c
              then Some (classify_ident (c :: firstn (tail_len u r 0) r), S (tail_len u r 0)) else None
  | [] => None
  end.
Definition lx_sigil' (u : uclass) (s : char) (mk : text -> token) (t : text) : lx1 :=
  match t with
  | c :: r => if (c =? s)%N then Some (mk (s :: firstn (tail_len u r 0) r), S (tail_len u r 0)) else None
  | [] => None
  end.
Definition lx_newline' (t : text) : lx1 :=
  match t with
  | c :: r => if (c =? LF)%N then Some (TNewline, 1)
              else if (c =? CR)%N then
                match r with
                | d :: _ => if (d =? LF)%N then Some (TNewline, 2) else None
                | [] => None
                end
              else None
  | [] => None
  end.

Fixpoint first_some {A} (l : list (option A)) : option A :=
  match l with
  | [] => None
  | Some a :: _ => Some a
  | None :: r => first_some r
  end.

Definition lex (u : uclass) (t : text) : lx1 :=
  first_some [lx_comment' t; lx_hex' t; lx_num' t; lx_str' t; lx_punct' t; lx_ident' u t;
              lx_sigil' u (ch "@") TGlobalName t; lx_sigil' u (ch "%") TLocalName t;
              lx_sigil' u (ch "!") TDebugRef t; lx_newline' t].

Definition as_view (st : cstream) (o : lx1) : view char token :=
  match o with Some (t, n) => VOk 0 t (skipn n st) | None => VFail end.

(** ** Equality with the combinators *)
Section Eq.
Variable u : uclass.
Variable eoi : span.

Lemma consumes_filter f : consumes (fun s : cstream => vw (p_filter eoi f s)).
Proof.
  intros st n a r. rewrite vw_filter. destruct st as [|[x sp] st]; [discriminate|].
  destruct (f x); [|discriminate]. intros H; injection H as <- <- <-. exists (x, sp), []. reflexivity.
Qed.

Lemma consumes_just x : consumes (fun s : cstream => vw (p_just N.eqb eoi x s)).
Proof.
  intros st n a r. rewrite vw_just. destruct st as [|[y sp] st]; [discriminate|].
  destruct (_ =? _)%N; [|discriminate]. intros H; injection H as <- <- <-. exists (y, sp), []. reflexivity.
Qed.

Lemma iter_filter f (st : cstream) :
  iter (fun s => vw (p_filter eoi f s)) st 0 (firstn (span_len f (chars st)) (chars st))
       (skipn (span_len f (chars st)) st).
Proof.
  induction st as [|[x sp] st IH]; cbn [map span_len].
  - apply iter_nil. reflexivity.
  - cbn [fst]. destruct (f x) eqn:E; cbn [firstn skipn].
    + change 0 with (0 + 0). eapply iter_cons; [|exact IH].
      rewrite vw_filter, E. reflexivity.
    + apply iter_nil. rewrite vw_filter, E. reflexivity.
Qed.
Lemma v_rep_filter f st :
  vw (p_repeated (p_filter eoi f) st) =
  VOk 0 (firstn (span_len f (chars st)) (chars st)) (skipn (span_len f (chars st)) st).
Proof. apply vw_repeated0; [apply consumes_filter | apply iter_filter]. Qed.

Lemma iter_one_of xs (st : cstream) :
  iter (fun s => vw (p_one_of N.eqb eoi xs s)) st 0
       (firstn (span_len (fun c => existsb (N.eqb c) xs) (chars st)) (chars st))
       (skipn (span_len (fun c => existsb (N.eqb c) xs) (chars st)) st).
Proof.
  induction st as [|[x sp] st IH]; cbn [map span_len].
  - apply iter_nil. reflexivity.
  - cbn [fst]. destruct (existsb (N.eqb x) xs) eqn:E; cbn [firstn skipn].
    + change 0 with (0 + 0). eapply iter_cons; [|exact IH].
      rewrite vw_one_of, E. reflexivity.
    + apply iter_nil. rewrite vw_one_of, E. reflexivity.
Qed.
Lemma consumes_one_of xs : consumes (fun s : cstream => vw (p_one_of N.eqb eoi xs s)).
Proof.
  intros st n a r. rewrite vw_one_of. destruct st as [|[y sp] st]; [discriminate|].
  destruct (existsb _ _); [|discriminate]. intros H; injection H as <- <- <-. exists (y, sp), []. reflexivity.
Qed.
Definition is_blank (c : char) : bool := existsb (N.eqb c) [SPACE; TAB].
Lemma v_padding st :
  vw (t_padding eoi st) = VOk 0 (firstn (span_len is_blank (chars st)) (chars st))
                              (skipn (span_len is_blank (chars st)) st).
Proof. apply vw_repeated0; [apply consumes_one_of | apply iter_one_of]. Qed.

Lemma v_newline st : vw (t_newline eoi st) = as_view st (lx_newline' (chars st)).
Proof.
  unfold t_newline. rewrite vw_to.
  destruct st as [|[c sp] st].
  - rewrite vw_or_fail by reflexivity. rewrite vw_then_ignore, !vw_just. reflexivity.
  - cbn [map fst lx_newline']. destruct (c =? LF)%N eqn:E.
    + rewrite (vw_or_ok _ _ _ LF st); [reflexivity|]. rewrite vw_just, E. reflexivity.
    + rewrite vw_or_fail by (rewrite vw_just, E; reflexivity).
      rewrite vw_then_ignore, vw_just. destruct (c =? CR)%N; [|reflexivity]. cbn [vbind].
      rewrite vw_just. destruct st as [|[d sp'] st]; [reflexivity|]. cbn [map fst].
      destruct (d =? LF)%N; reflexivity.
Qed.

Lemma v_comment_until (st : cstream) outs :
  vtake_until (fun s => vw (p_rewind (p_or (p_just N.eqb eoi LF) (p_to (p_end eoi) LF)) s)) outs st =
  VOk 0 (outs ++ firstn (span_len (fun d => negb (d =? LF)%N) (chars st)) (chars st), LF)
      (skipn (span_len (fun d => negb (d =? LF)%N) (chars st)) st).
Proof.
  revert outs. induction st as [|[c sp] st IH]; intros outs; cbn [vtake_until].
  - rewrite vw_rewind, vw_or_fail by reflexivity. rewrite vw_to, vw_end. cbn. rewrite app_nil_r. reflexivity.
  - rewrite vw_rewind. cbn [map fst span_len]. destruct (c =? LF)%N eqn:E.
    + rewrite (vw_or_ok _ _ _ LF st) by (rewrite vw_just, E; reflexivity).
      cbn. rewrite app_nil_r. reflexivity.
    + rewrite vw_or_fail by (rewrite vw_just, E; reflexivity).
      rewrite vw_to, vw_end. cbn [vbind negb firstn skipn].
      rewrite IH, <- app_assoc. reflexivity.
Qed.

Lemma v_comment st : vw (t_comment eoi st) = as_view st (lx_comment' (chars st)).
Proof.
  unfold t_comment. rewrite vw_to, vw_then, vw_just.
  destruct st as [|[c sp] st]; [reflexivity|]. cbn [map fst lx_comment'].
  destruct (c =? ch "#")%N; [|reflexivity]. cbn [vbind]. unfold p_take_until.
  rewrite vw_take_until_from, v_comment_until. reflexivity.
Qed.

Lemma v_int dig st :
  vw (text_int eoi dig st) =
  match int_len dig (chars st) with
  | Some n => VOk 0 (firstn n (chars st)) (skipn n st)
  | None => VFail
  end.
Proof.
  unfold text_int.
  destruct st as [|[c sp] st].
  - rewrite vw_or_fail; [reflexivity|]. rewrite vw_map, vw_then, vw_filter. reflexivity.
  - cbn [map fst int_len]. unfold nzero.
    destruct (dig c && negb (c =? 48)%N) eqn:E.
    + rewrite (vw_or_ok _ _ _ (c :: firstn (span_len dig (chars st)) (chars st)) (skipn (span_len dig (chars st)) st)).
      * reflexivity.
      * rewrite vw_map, vw_then, vw_filter, E. cbn [vbind]. rewrite v_rep_filter. reflexivity.
    + rewrite vw_or_fail by (rewrite vw_map, vw_then, vw_filter, E; reflexivity).
      rewrite vw_map, vw_just. destruct (N.eqb_spec c 48) as [->|]; reflexivity.
Qed.

Lemma v_num st : vw (t_num eoi st) = as_view st (lx_num' (chars st)).
Proof.
  unfold t_num. rewrite vw_map, v_int. unfold lx_num'. destruct (int_len is_digit10 (chars st)); reflexivity.
Qed.

Lemma v_hex st : vw (t_hexnum eoi st) = as_view st (lx_hex' (chars st)).
Proof.
  unfold t_hexnum. rewrite vw_map, vw_ignore_then.
  change (str "0x") with [ch "0"; ch "x"]. rewrite vw_just_seq.
  destruct st as [|[a sa] st]; [reflexivity|]. cbn [map fst lx_hex'].
  destruct (a =? ch "0")%N.
  - rewrite vw_just_seq. destruct st as [|[b sb] st]; [reflexivity|]. cbn [map fst].
    destruct (b =? ch "x")%N; [|reflexivity]. rewrite vw_just_seq. cbn [vbind andb].
    rewrite v_int. destruct (int_len is_digit16 (chars st)); reflexivity.
  - destruct st as [|[b sb] st]; reflexivity.
Qed.

Lemma span_len_le f t : span_len f t <= length t.
Proof. induction t as [|c t IH]; cbn; [lia|]. destruct (f c); lia. Qed.

Lemma span_len_stop f t : span_len f t < length t ->
  exists c, nth_error t (span_len f t) = Some c /\ f c = false.
Proof.
  induction t as [|c t IH]; cbn; [lia|]. destruct (f c) eqn:E; intros H.
  - apply IH. lia.
  - exists c. split; [reflexivity | exact E].
Qed.

Lemma skipn_nth {A} n (l : list A) : skipn n l = match nth_error l n with Some x => x :: skipn (S n) l | None => [] end.
Proof.
  revert l. induction n as [|n IH]; intros [|x l]; try reflexivity.
  cbn [skipn nth_error]. rewrite IH. destruct (nth_error l n); reflexivity.
Qed.

Lemma skipn_skipn {A} x : forall y (l : list A), skipn x (skipn y l) = skipn (x + y) l.
Proof.
  induction y as [|y IH]; intros [|a l]; try (rewrite ?Nat.add_0_r, ?skipn_nil; reflexivity).
  rewrite Nat.add_succ_r. apply IH.
Qed.

Lemma v_str st : vw (t_str eoi st) = as_view st (lx_str' (chars st)).
Proof.
  unfold t_str. rewrite vw_map, vw_then_ignore, vw_ignore_then, vw_just.
  destruct st as [|[c sp] st]; [reflexivity|]. cbn [map fst lx_str'].
  destruct (c =? DQUOTE)%N; [|reflexivity]. cbn [vbind]. rewrite v_rep_filter. cbn [vbind].
  set (n := span_len _ (chars st)). rewrite vw_just.
  destruct (Nat.ltb_spec n (length (chars st))) as [H|H].
  - destruct (span_len_stop (fun d => negb (d =? DQUOTE)%N) (chars st) H) as (d & Hd & Hq).
    fold n in Hd. rewrite nth_error_map in Hd. rewrite (skipn_nth n st).
    destruct (nth_error st n) as [[d' sd]|]; [|discriminate]. cbn in Hd. injection Hd as ->.
    apply negb_false_iff in Hq. rewrite Hq. reflexivity.
  - rewrite map_length in H. rewrite skipn_all2 by exact H. reflexivity.
Qed.

Lemma v_punct st : vw (t_punctuation eoi st) = as_view st (lx_punct' (chars st)).
Proof.
  unfold t_punctuation. rewrite vw_map, vw_one_of.
  destruct st as [|[c sp] st]; [reflexivity|]. cbn [map fst lx_punct'].
  destruct (existsb (N.eqb c) punctuation_chars); reflexivity.
Qed.

(** the tail of names *)
Definition colon (c : char) : bool := (c =? ch ":")%N.

Lemma tail_len_colons t : forall p,
  tail_len u t p =
  match nth_error t (span_len colon t) with
  | Some c => if is_ident_char u c then p + span_len colon t + S (tail_len u (skipn (S (span_len colon t)) t) 0) else 0
  | None => 0
  end.
Proof.
  induction t as [|c t IH]; intros p; [reflexivity|].
  cbn [tail_len span_len]. destruct (colon c) eqn:Ec.
  - pose proof Ec as Ec'. unfold colon in Ec'. apply N.eqb_eq in Ec'. subst c.
    assert (is_ident_char u (ch ":") = false) as -> by reflexivity.
    assert ((ch ":" =? ch ":")%N = true) as -> by reflexivity.
    rewrite IH. cbn [nth_error skipn]. destruct (nth_error t (span_len colon t)) as [d|]; [|reflexivity].
    destruct (is_ident_char u d); [|reflexivity]. lia.
  - unfold colon in Ec. rewrite Ec. cbn [nth_error skipn].
    destruct (is_ident_char u c); lia.
Qed.

Definition tail_step : parser (list char * char) :=
  p_then (p_repeated (p_just N.eqb eoi (ch ":"))) (p_filter eoi (is_ident_char u)).

Lemma iter_just x (st : cstream) :
  iter (fun s => vw (p_just N.eqb eoi x s)) st 0
       (firstn (span_len (fun c => (c =? x)%N) (chars st)) (chars st))
       (skipn (span_len (fun c => (c =? x)%N) (chars st)) st).
Proof.
  induction st as [|[y sp] st IH]; cbn [map span_len].
  - apply iter_nil. reflexivity.
  - cbn [fst]. destruct (N.eqb_spec y x) as [->|E]; cbn [firstn skipn].
    + change 0 with (0 + 0). eapply iter_cons; [|exact IH].
      rewrite vw_just, N.eqb_refl. reflexivity.
    + apply iter_nil. rewrite vw_just. apply N.eqb_neq in E. rewrite E. reflexivity.
Qed.

Lemma v_tail_step st :
  vw (tail_step st) =
  match nth_error (chars st) (span_len colon (chars st)) with
  | Some c => if is_ident_char u c then
                VOk 0 (firstn (span_len colon (chars st)) (chars st), c) (skipn (S (span_len colon (chars st))) st)
              else VFail
  | None => VFail
  end.
Proof.
  unfold tail_step. rewrite vw_then.
  rewrite (vw_repeated0 _ st 0 _ _ (consumes_just (ch ":")) (iter_just (ch ":") st)). cbn [vbind].
  rewrite vw_filter. change (fun c : N => (c =? ch ":")%N) with colon.
  set (k := span_len colon (chars st)). rewrite (skipn_nth k st), nth_error_map.
  destruct (nth_error st k) as [[c sp]|]; [|reflexivity]. cbn [option_map fst].
  destruct (is_ident_char u c); reflexivity.
Qed.

Lemma consumes_tail_step : consumes (fun s => vw (tail_step s)).
Proof.
  intros st n a r. rewrite v_tail_step.
  destruct (nth_error (chars st) (span_len colon (chars st))) as [c|] eqn:E; [|discriminate].
  destruct (is_ident_char u c); [|discriminate]. intros H; injection H as <- <- <-.
  destruct st as [|x st]; [destruct (span_len colon (chars [])); discriminate|].
  exists x, (firstn (span_len colon (chars (x :: st))) st). cbn [skipn]. cbn [app].
  rewrite firstn_skipn. reflexivity.
Qed.

Lemma iter_tail : forall k (st : cstream), length st <= k -> exists l,
  iter (fun s => vw (tail_step s)) st 0 l (skipn (tail_len u (chars st) 0) st) /\
  List.concat (map (fun '(cs, c) => cs ++ [c]) l) = firstn (tail_len u (chars st) 0) (chars st).
Proof.
  induction k as [|k IH]; intros st Hk.
  - destruct st; [|cbn in Hk; lia]. exists []. split; [|reflexivity]. apply iter_nil. rewrite v_tail_step. reflexivity.
  - rewrite tail_len_colons.
    destruct (nth_error (chars st) (span_len colon (chars st))) as [c|] eqn:E.
    + destruct (is_ident_char u c) eqn:Ei.
      * set (m := span_len colon (chars st)) in *.
        destruct (IH (skipn (S m) st)) as (l & Hl & Hc).
        { rewrite skipn_length. destruct st; [destruct m; discriminate|]. cbn in *. lia. }
        exists ((firstn m (chars st), c) :: l). split.
        -- change 0 with (0 + 0) at 1. eapply iter_cons.
           ++ rewrite v_tail_step. fold m. rewrite E, Ei. reflexivity.
           ++ rewrite <- (skipn_map fst (S m) st) in Hl.
              replace (0 + m + S (tail_len u (skipn (S m) (chars st)) 0))
                 with (tail_len u (skipn (S m) (chars st)) 0 + S m) by lia.
              rewrite <- skipn_skipn. exact Hl.
        -- cbn [map List.concat]. rewrite Hc. rewrite <- (skipn_map fst (S m) st).
           set (q := tail_len u (skipn (S m) (chars st)) 0).
           replace (0 + m + S q) with (S m + q) by lia.
           assert (Hf : firstn m (chars st) ++ [c] = firstn (S m) (chars st)).
           { clear - E. revert E. generalize (chars st) as t. induction m as [|m IHm]; intros [|x t] E; try discriminate.
             - cbn in *. congruence.
             - cbn [firstn app]. f_equal. apply IHm. exact E. }
           rewrite Hf. clear. generalize (chars st) as t. generalize (S m) as j.
           induction j as [|j IHj]; intros [|x t]; cbn [firstn skipn app plus]; try reflexivity.
           ++ rewrite firstn_nil. reflexivity.
           ++ f_equal. apply IHj.
      * exists []. split; [|reflexivity]. cbn [skipn]. apply iter_nil. rewrite v_tail_step, E, Ei. reflexivity.
    + exists []. split; [|reflexivity]. cbn [skipn]. apply iter_nil. rewrite v_tail_step, E. reflexivity.
Qed.

Lemma v_ident_tail st :
  vw (t_ident_tail u eoi st) = VOk 0 (firstn (tail_len u (chars st) 0) (chars st)) (skipn (tail_len u (chars st) 0) st).
Proof.
  unfold t_ident_tail. rewrite vw_map. fold tail_step.
  destruct (iter_tail (length st) st (le_n _)) as (l & Hl & Hc).
  rewrite (vw_repeated0 _ st 0 _ _ consumes_tail_step Hl). cbn [vbind]. rewrite Hc. reflexivity.
Qed.

Lemma v_ident st : vw (t_ident u eoi st) = as_view st (lx_ident' u (chars st)).
Proof.
  unfold t_ident. rewrite vw_map, vw_then, vw_filter.
  destruct st as [|[c sp] st]; [reflexivity|]. cbn [map fst lx_ident'].
  destruct (is_ident_head u c); [|reflexivity]. cbn [vbind]. rewrite v_ident_tail. reflexivity.
Qed.

Lemma v_sigil s mk st : vw (t_sigil u eoi s mk st) = as_view st (lx_sigil' u s mk (chars st)).
Proof.
  unfold t_sigil. rewrite vw_map, vw_then, vw_just.
  destruct st as [|[c sp] st]; [reflexivity|]. cbn [map fst lx_sigil'].
  destruct (c =? s)%N; [|reflexivity]. cbn [vbind]. rewrite v_ident_tail. reflexivity.
Qed.

Lemma vchoice_first st (l : list lx1) : vchoice (map (as_view st) l) = as_view st (first_some l).
Proof. induction l as [|[[t n]|] l IH]; cbn; [reflexivity | reflexivity | exact IH]. Qed.

Lemma v_token st : vw (t_token u eoi st) = as_view st (lex u (chars st)).
Proof.
  unfold t_token. rewrite vw_choice. cbn [map].
  rewrite v_comment, v_hex, v_num, v_str, v_punct, v_ident, v_newline.
  unfold t_global, t_local, t_debugref. rewrite !v_sigil. unfold lex. rewrite <- vchoice_first. reflexivity.
Qed.

End Eq.
