(** Renaming keeps the syntax tree. *)
From Verif Require Import Text Rope Chumsky Tokenizer Parser Numbers Index SemTok Diag Rename Cfg Backtrace Server SpecText SpecLex SpecParse SpecIndex SpecDiag SpecBacktrace SpecNumbers SpecCfg SpecView SpecRename SpecPatch SpecSimilar
  PParse PIndexDoc PIndexText PNatural PRelex SpecSimilar SpecRebind.

Definition kindred (t t' : token) : Prop :=
  t = t' \/ match t, t' with TGlobalName _, TGlobalName _ | TLocalName _, TLocalName _ | TDebugRef _, TDebugRef _ | TIdent _, TIdent _ => True | _, _ => False end.
Lemma text_dec (a b : text) : a = b \/ a <> b.
Proof. destruct (text_eqb a b) eqn:E; [left; apply text_eqb_eq, E|right; intros ->; rewrite (proj2 (text_eqb_eq _ _) eq_refl) in E; discriminate]. Qed.
Lemma token_dec (a b : token) : a = b \/ a <> b.
Proof.
  destruct a, b; try (right; discriminate); try (left; reflexivity);
    match goal with
    | |- ?f ?x = ?f ?y \/ _ => first [destruct (text_dec x y) as [->|E]; [left; reflexivity|right; congruence] | destruct (N.eq_dec x y) as [->|E]; [left; reflexivity|right; congruence]]
    end.
Qed.
Lemma kindred_dec t t' : kindred t t' \/ ~ kindred t t'.
Proof.
  destruct (token_dec t t') as [->|E]; [left; left; reflexivity|].
  destruct t, t'; try (left; right; exact I); right; intros [H|H]; try contradiction; try exact H; congruence.
Qed.
Lemma with_name_kindred t y : kindred t (with_name t y).
Proof. destruct t; try (left; reflexivity); right; exact I. Qed.
Lemma retold_kindred new l toks toks' : retold new l toks toks' -> Forall2 (fun a b => kindred (fst a) (fst b)) toks toks'.
Proof.
  induction 1 as [|t t' r r' [H1 H2] _ IH]; constructor; [|exact IH]. destruct (kindred_dec (fst t) (fst t')) as [G|G]; [exact G|]. exfalso.
  apply G. rewrite H2; [left; reflexivity|]. intros x y Hx Hs Hn. apply G. rewrite (H1 _ _ Hx Hs Hn). apply with_name_kindred.
Qed.
(** labels that change are plain words *)
Definition plainly (new : occurrence -> text -> Prop) (l : list occurrence) : Prop :=
  forall x y, In x l -> new x y -> o_kind x = KLabel -> plain_word (o_name x) /\ plain_word y.
Lemma retold_similar new l toks toks' : retold new l toks toks' -> plainly new l ->
  (forall x t, In x l -> In t toks -> o_span x = snd t -> occ_token x = t) -> Forall2 (fun a b => similar (fst a) (fst b)) toks toks'.
Proof.
  intros R Hpl. pose proof (retold_kindred _ _ _ _ R) as K. induction R as [|t t' r r' [H1 H2] _ IH]; intros Hocc; [constructor|]. inversion K as [|? ? ? ? Kt Kr]; subst. constructor; [|apply IH; [exact Kr|]; intros; apply Hocc; [assumption|right; assumption|assumption]].
  destruct (token_dec (fst t) (fst t')) as [E|E]; [left; exact E|]. right. destruct Kt as [Kt|Kt]; [contradiction|].
  destruct (fst t) as [| | | | | | | |w| | | | |] eqn:Et, (fst t') as [| | | | | | | |w'| | | | |] eqn:Et'; try contradiction Kt; try exact I.
  assert ((plain_word w /\ plain_word w' -> False) -> False) as G.
  { intros Hn. apply E. symmetry. apply H2. intros x y Hx Hs Hxy. apply Hn. pose proof (Hocc x t Hx (or_introl eq_refl) Hs) as Eo.
    assert (o_kind x = KLabel) as Ek by (rewrite <- Eo in Et; unfold occ_token in Et; cbn [fst] in Et; destruct (o_kind x); discriminate Et || reflexivity).
    assert (o_name x = w) as <- by (rewrite <- Eo in Et; unfold occ_token in Et; rewrite Ek in Et; cbn [fst] in Et; congruence).
    pose proof (H1 _ _ Hx Hs Hxy) as G. cbn [with_name] in G. injection G as ->. exact (Hpl _ _ Hx Hxy Ek). }
  split; split; intros X; apply G; intros [[A1 A2] [B1 B2]]; contradiction.
Qed.

(** ** Corresponding tokens *)
Lemma combine_forall2 {A B} (R : A -> B -> Prop) a b : Forall2 R a b -> forall x y, In (x, y) (combine a b) -> R x y.
Proof. induction 1 as [|? ? ? ? H _ IH]; intros x0 y0 Hin; [contradiction|]. destruct Hin as [E|Hin]; [injection E as <- <-; exact H|apply IH, Hin]. Qed.
Lemma forall2_impl {A B} (R S : A -> B -> Prop) a b : (forall x y, R x y -> S x y) -> Forall2 R a b -> Forall2 S a b.
Proof. intros H. induction 1; constructor; auto. Qed.
Lemma counterparts_self (a b : list stoken) : length a = length b -> Forall2 (counterparts a b) a b.
Proof.
  unfold counterparts. revert b. induction a as [|x a IH]; intros [|y b] E; try discriminate; constructor; [left; reflexivity|].
  apply forall2_impl with (2 := IH b ltac:(cbn in E; congruence)). intros p q H. right. exact H.
Qed.
Lemma retold_length_eq new l toks toks' : retold new l toks toks' -> length toks = length toks'.
Proof. induction 1; cbn; congruence. Qed.
Lemma retold_parse src src' toks toks' : Forall2 (fun a b => similar (fst a) (fst b)) toks toks' ->
  match parse_tokens src toks, parse_tokens src' toks' with
  | Val (ss, errs), Val (ss', errs') => both (Forall2 (same_stmt (counterparts toks toks'))) ss ss' /\ Forall2 (same_error (counterparts toks toks') (ends src) (ends src')) errs errs'
  | Panic, Panic => True
  | _, _ => False
  end.
Proof.
  intros R. apply parse_similar.
  - intros a b H. exact (combine_forall2 _ _ _ R _ _ H).
  - apply counterparts_self. clear - R. induction R; cbn; congruence.
Qed.
(** The parse of a document whose tokens are retold. *)
Lemma reparsed u src src' pr errs toks' errs' : parse_from_str u src = Val pr -> tokenize u src = Val (Some (pr_tokens pr), errs) ->
  tokenize u src' = Val (Some toks', errs') -> Forall2 (fun a b => similar (fst a) (fst b)) (pr_tokens pr) toks' -> (errs = [] -> errs' = []) ->
  exists pr', parse_from_str u src' = Val pr' /\ pr_tokens pr' = toks' /\
    Forall2 (same_stmt (counterparts (pr_tokens pr) toks')) (pr_stmts pr) (pr_stmts pr') /\
    (errs = [] -> Forall2 same_complaint (pr_errors pr) (pr_errors pr')).
Proof.
  intros Hp Ht Ht' R Hn. pose proof (retold_parse src src' _ _ R) as H. unfold parse_from_str in Hp |- *. rewrite Ht in Hp. rewrite Ht'. cbn [rbind] in Hp |- *.
  destruct (parse_tokens src (pr_tokens pr)) as [[ss es]|]; [|discriminate Hp].
  destruct (parse_tokens src' toks') as [[ss' es']|]; [|contradiction]. cbn [rbind] in Hp |- *. injection Hp as Hp. destruct H as [Hs He].
  eexists. split; [reflexivity|]. cbn [pr_tokens pr_stmts pr_errors]. split; [reflexivity|]. rewrite <- Hp at 2. cbn [pr_stmts].
  split.
  - destruct ss, ss'; try contradiction Hs; [exact Hs|constructor].
  - intros E. rewrite (Hn E). subst errs. rewrite <- Hp. cbn [pr_errors map app]. clear - He.
    induction He as [|e e' r r' (_ & H1 & H2 & _) _ IH]; cbn [map]; constructor; [|exact IH]. unfold simple_map. cbn [e_reason e_expected]. rewrite H1, H2. split; reflexivity.
Qed.
