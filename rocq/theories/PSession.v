(** Sessions (C89). *)
From Verif Require Import Text Rope Chumsky Tokenizer Parser Numbers Index SemTok Diag Rename Cfg Backtrace Server Dispatch Session SpecText SpecServer SpecSession
  PText PServer.

Definition texts (ms : list message) : list note := flat_map (fun m => match m with MNote n => [n] | _ => [] end) ms.
Lemma texts_app a b : texts (a ++ b) = texts a ++ texts b.
Proof. apply flat_map_app. Qed.
Lemma take_all_texts e : forall ms s, take_all e s ms = receive e s (texts ms).
Proof.
  induction ms as [|m ms IH]; intros s; [reflexivity|]. cbn [take_all]. destruct m as [|n|u|u|a r]; cbn [take_message texts flat_map app rbind]; try (rewrite IH; destruct (receive e s _) as [[s1 ps]|]; reflexivity).
  cbn [receive]. destruct (notify e s n) as [[s1 p]|]; [|reflexivity]. cbn [rmap rbind]. rewrite IH. destruct (receive e s1 _) as [[s2 ps]|]; reflexivity.
Qed.
Lemma texts_single ms : Forall one_text ms -> Forall single (texts ms).
Proof. induction 1 as [|m ms H _ IH]; [constructor|]. destruct m; cbn [texts flat_map app]; try assumption. constructor; assumption. Qed.
Lemma texts_carry uri ms : Forall (fun m => ~ carries uri m) ms -> Forall (fun n => note_uri n <> uri) (texts ms).
Proof. induction 1 as [|m ms H _ IH]; [constructor|]. destruct m; cbn [texts flat_map app]; try assumption. constructor; assumption. Qed.
Definition last_note (uri : text) (ns : list note) : option note := fold_left (fun acc n => if text_eqb uri (note_uri n) then Some n else acc) ns None.
Lemma open_note uri t v : forall ms, Forall one_text ms -> open_now uri ms = Some (t, v) -> exists n, last_note uri (texts ms) = Some n /\ note_text n = Some t /\ note_version n = v.
Proof.
  induction ms as [|m ms IH] using rev_ind; [discriminate|]. intros H. apply Forall_app in H as [H _]. unfold open_now, last_note in *. rewrite fold_left_app, texts_app, fold_left_app.
  destruct m as [|n|u|u|a r]; cbn [fold_left texts flat_map app]; try (exact (IH H)).
  - destruct (text_eqb uri (note_uri n)); [|exact (IH H)]. destruct (note_text n) as [t'|] eqn:E; [|discriminate]. cbn [option_map]. intros G. inversion G; subst. exists n. auto.
  - destruct (text_eqb uri u); [discriminate|exact (IH H)].
Qed.
Lemma last_note_text uri n : forall ns, last_note uri ns = Some n -> last_text uri ns = note_text n /\ note_uri n = uri.
Proof.
  induction ns as [|m ns IH] using rev_ind; [discriminate|]. unfold last_note, last_text in *. rewrite !fold_left_app. cbn [fold_left].
  destruct (text_eqb_spec uri (note_uri m)) as [E|_]; [|exact IH]. intros G. inversion G; subst. auto.
Qed.
Lemma screen_app uri a b : on_screen uri (a ++ b) = fold_left (fun acc p => if text_eqb uri (pub_uri p) then pub_diags p else acc) b (on_screen uri a).
Proof. apply fold_left_app. Qed.
Lemma screen_last e s uri : forall ns s' ps, Forall single ns -> receive e s ns = Val (s', ps) ->
  match last_note uri ns with
  | Some n => exists t d ds, note_text n = Some t /\ analyze e uri t = Val (d, ds) /\ on_screen uri ps = ds
  | None => on_screen uri ps = []
  end.
Proof.
  induction ns as [|n ns IH] using rev_ind; intros s' ps Hs H; [cbn in H; inversion H; subst; reflexivity|].
  apply Forall_app in Hs as [Hs Hn]. inversion Hn as [|? ? Hn' _]; subst. apply receive_app in H as (s1 & p1 & p2 & H1 & H2 & ->). specialize (IH _ _ Hs H1).
  cbn [receive] in H2. destruct (notify e s1 n) as [[s2 p]|] eqn:En; [|discriminate]. cbn in H2. inversion H2; subst.
  apply notify_inv in En as (t & d & ds & E1 & E2 & _ & ->); [|exact Hn']. unfold last_note in *. rewrite fold_left_app, screen_app. cbn [fold_left pub_uri pub_diags].
  destruct (text_eqb_spec uri (note_uri n)) as [->|_]; [|exact IH]. exists t, d, ds. auto.
Qed.
Lemma after_last e s ms s' ps uri n t : Forall one_text ms -> take_all e s ms = Val (s', ps) -> last_note uri (texts ms) = Some n -> note_text n = Some t -> e_url_parse e uri = Some uri -> docs s = [] ->
  exists s0 p0, take_all e s [MNote (NOpen uri t (note_version n))] = Val (s0, [p0]) /\ on_screen uri ps = pub_diags p0 /\ forall q, about e q uri -> handle e s' q = handle e s0 q.
Proof.
  intros H R L T U D. rewrite take_all_texts in R. apply texts_single in H. pose proof (screen_last _ _ uri _ _ _ H R) as Sc. rewrite L in Sc. destruct Sc as (t' & d & ds & T' & A & Sc).
  rewrite T in T'. inversion T'; subst t'. destruct (last_note_text _ _ _ L) as [Lt Lu]. destruct (receive_docs _ _ _ _ _ H R) as (H1 & H2 & H3). specialize (H3 uri).
  rewrite Lt, T in H3. destruct H3 as (d' & ds' & E & Eg). rewrite A in E. inversion E; subst d' ds'.
  cbn [take_all take_message notify]. unfold did_open, on_change. rewrite A. cbn [rbind rmap]. eexists _, _. split; [reflexivity|]. split; [exact Sc|].
  intros q Ha. apply (handle_same _ _ _ _ uri); cbn [roots lazy_resolve]; try assumption. rewrite Eg. unfold get_doc. cbn [docs]. rewrite lookup_same. reflexivity.
Qed.
Lemma init_docs f r c : docs (fst (initialize server_init f r c)) = [].
Proof. reflexivity. Qed.

(** ** C89 *)
Lemma session_open e f r c ms s ps uri t v : Forall one_text ms -> session e f r c ms = Val (s, ps) -> open_now uri ms = Some (t, v) -> e_url_parse e uri = Some uri ->
  exists s0 p0, session e f r c [MNote (NOpen uri t v)] = Val (s0, [p0]) /\ on_screen uri ps = pub_diags p0 /\ forall q, about e q uri -> handle e s q = handle e s0 q.
Proof.
  intros H R O U. destruct (open_note _ _ _ _ H O) as (n & L & T & <-). exact (after_last _ _ _ _ _ _ _ _ H R L T U (init_docs f r c)).
Qed.
Lemma last_note_carry uri a b : Forall (fun m => ~ carries uri m) b -> last_note uri (texts (a ++ b)) = last_note uri (texts a).
Proof.
  intros H. rewrite texts_app. unfold last_note. rewrite fold_left_app. generalize (fold_left (fun acc n => if text_eqb uri (note_uri n) then Some n else acc) (texts a) None).
  induction (texts_carry _ _ H) as [|n ns Hn _ IH]; intros o; [reflexivity|]. cbn [fold_left]. destruct (text_eqb_spec uri (note_uri n)) as [E|_]; [congruence|apply IH].
Qed.
Lemma session_closed e f r c pre post s ps uri t v : Forall one_text (pre ++ MClose uri :: post) -> session e f r c (pre ++ MClose uri :: post) = Val (s, ps) -> open_now uri pre = Some (t, v) ->
  Forall (fun m => ~ carries uri m) post -> e_url_parse e uri = Some uri ->
  exists s0 p0, session e f r c [MNote (NOpen uri t v)] = Val (s0, [p0]) /\ on_screen uri ps = pub_diags p0 /\ forall q, about e q uri -> handle e s q = handle e s0 q.
Proof.
  intros H R O P U. assert (Forall one_text pre) as Hp by (apply Forall_app in H as [H _]; exact H). destruct (open_note _ _ _ _ Hp O) as (n & L & T & <-).
  refine (after_last _ _ _ _ _ _ _ _ H R _ T U (init_docs f r c)). rewrite last_note_carry; [exact L|]. constructor; [intros G; exact G|exact P].
Qed.
Lemma session_never e f r c ms s ps uri q : Forall one_text ms -> session e f r c ms = Val (s, ps) -> Forall (fun m => ~ carries uri m) ms -> about e q uri ->
  on_screen uri ps = [] /\ exists x, handle e s q = Val x /\ nothing x.
Proof.
  intros H R N A. unfold session in R. rewrite take_all_texts in R. apply texts_single in H. pose proof (screen_last _ _ uri _ _ _ H R) as Sc. pose proof (last_note_carry uri [] ms N) as L. cbn [app] in L. rewrite L in Sc. cbn in Sc.
  split; [exact Sc|]. apply (unknown_harmless _ _ _ uri); [|exact A]. destruct (receive_docs _ _ _ _ _ H R) as (_ & _ & H3). specialize (H3 uri).
  assert (last_text uri (texts ms) = None) as E.
  { pose proof (texts_carry _ _ N) as Ho. clear - Ho. induction (texts ms) as [|n ns IH] using rev_ind; [reflexivity|]. apply Forall_app in Ho as [Ho Hn]. inversion Hn; subst. rewrite last_text_app.
    destruct (text_eqb_spec uri (note_uri n)) as [E|_]; [congruence|auto]. }
  rewrite E in H3. exact H3.
Qed.
Lemma session_folders e f r c ms s ps : Forall one_text ms -> session e f r c ms = Val (s, ps) ->
  roots s = match f with Some fs => fs | None => match r with Some x => [x] | None => [] end end.
Proof. intros H R. unfold session in R. rewrite take_all_texts in R. apply texts_single in H. destruct (receive_docs _ _ _ _ _ H R) as (-> & _). reflexivity. Qed.
