(** Examples for PropertiesNames.v. *)
From Verif Require Import Text Rope Chumsky Tokenizer Parser Numbers Index SemTok Diag Rename Cfg Backtrace Server SpecText SpecLex SpecParse SpecIndex SpecDiag SpecBacktrace SpecNumbers SpecCfg SpecView SpecSemTok SpecRename SpecPatch SpecSimilar SpecValues SpecRebind SpecSteps SpecDot SpecLayout SpecAfter SpecAfterHints SpecReformat SpecValued SpecWritten SpecNames
  ExamplesIndex ExamplesCfg ExamplesView ExamplesRename ExamplesPatch ExamplesAfterHints ExamplesReformat ExamplesValues.

(** all the names are chosen anew: locals and labels per function, a loop, names that are not bound,
    a name that is bound twice, and a line that cannot be read *)
Definition doc94 : text := str "define void @g(int8 %x, int1 %c) {
a_1:
  int8 %y = add %x, 17
  store %y, %z !1
  br int1 %c, a_1, b
b:
  br int1 %c, a_1, nowhere
b:
  br b
}
define void @k(define 2) {
}
define void @h(int8 %y) {
a_1:
  call @g(%y, @gone)
  br a_1
}
!1 = {""line"": 3}
".
Definition doc94_after : text := str "define void @main(int8 %argument, int1 %q) {
start:
  int8 %x = add %argument, 17
  store %x, %unknown !22
  br int1 %q, start, finish
finish:
  br int1 %q, start, missing
finish:
  br finish
}
define void @bad(define 2) {
}
define void @g(int8 %q) {
finish:
  call @main(%q, @h)
  br finish
}
!22 = {""line"": 3}
".
Definition plain_wordb (w : text) : bool := negb (existsb (text_eqb w) special_words) && negb (text_eqb (skipn (length w - 2) w) (str "br")).
Lemma plain_wordb_ok w : plain_wordb w = true -> plain_word w.
Proof.
  intros H. apply andb_true_iff in H as [H1 H2]. apply negb_true_iff in H1, H2. split.
  - intros G. assert (existsb (text_eqb w) special_words = true) by (apply existsb_exists; exists w; split; [exact G|apply text_eqb_eq; reflexivity]). congruence.
  - intros (p & ->). rewrite app_length in H2. change (length (str "br")) with 2 in H2. rewrite Nat.add_sub, skipn_app, skipn_all, Nat.sub_diag in H2. discriminate H2.
Qed.
Definition resemblesb (t t' : token) : bool :=
  match t, t' with
  | TGlobalName _, TGlobalName _ | TLocalName _, TLocalName _ | TDebugRef _, TDebugRef _ => true
  | TIdent a, TIdent b => text_eqb a b || (plain_wordb a && plain_wordb b)
  | _, _ => revaluedb t t'
  end.
Lemma revalued_like t t' : revalued t t' -> resembles t t'.
Proof. intros [->|H]; [left; reflexivity|]. right. destruct t, t'; try exact H; contradiction H. Qed.
Lemma resemblesb_ok t t' : resemblesb t t' = true -> resembles t t'.
Proof.
  intros H. destruct t, t'; try (apply revalued_like, revaluedb_ok; exact H); try (right; exact I). cbn [resemblesb] in H. apply orb_true_iff in H as [H|H]; [left; f_equal; apply text_eqb_true; exact H|].
  apply andb_true_iff in H as [H1 H2]. right. split; apply plain_wordb_ok; assumption.
Qed.
Definition listed (body : list basic_block) (n : text) (sp : span) : bool := existsb (fun x => text_eqb (fst x) n && span_eqb (snd x) sp) (label_names body).
Definition togetherb (ss : list statement) (a b : stoken) : bool :=
  match fst a, fst b with
  | TGlobalName _, TGlobalName _ | TDebugRef _, TDebugRef _ => true
  | TLocalName _, TLocalName _ => existsb (fun r => around (snd a) r && around (snd b) r) (flat_map func_ranges ss)
  | TIdent n, TIdent m => existsb (fun f => listed (fb_blocks (snd f)) n (snd a) && listed (fb_blocks (snd f)) m (snd b)) (function_defs ss)
  | _, _ => false
  end.
Lemma listed_ok body n sp : In (n, sp) (label_names body) -> listed body n sp = true.
Proof. intros H. apply existsb_exists. exists (n, sp). split; [exact H|]. cbn [fst snd]. apply andb_true_iff. split; [apply text_eqb_eq; reflexivity|]. destruct sp as [x y]. unfold span_eqb. cbn [sp_start sp_end]. rewrite !Nat.eqb_refl. reflexivity. Qed.
Lemma togetherb_ok ss a b : together ss a b -> togetherb ss a b = true.
Proof.
  unfold together, togetherb. destruct (fst a), (fst b); intros H; try contradiction H; try reflexivity.
  - destruct H as (r & Hr & H1 & H2). apply existsb_exists. exists r. split; [exact Hr|]. rewrite H1, H2. reflexivity.
  - destruct H as (f & Hf & H1 & H2). apply existsb_exists. exists f. split; [exact Hf|]. rewrite !listed_ok by assumption. reflexivity.
Qed.
Definition consistentb (ss : list statement) (l : list (stoken * stoken)) : bool :=
  forallb (fun x => forallb (fun y => negb (togetherb ss (fst x) (fst y)) || Bool.eqb (token_eqb (fst (fst x)) (fst (fst y))) (token_eqb (fst (snd x)) (fst (snd y)))) l) l.
Lemma consistentb_ok ss l : consistentb ss l = true -> forall a a' b b', In (a, a') l -> In (b, b') l -> together ss a b -> (fst a = fst b <-> fst a' = fst b').
Proof.
  intros H a a' b b' Ha Hb Ht. unfold consistentb in H. rewrite forallb_forall in H. specialize (H _ Ha). rewrite forallb_forall in H. specialize (H _ Hb). cbn [fst snd] in H. rewrite (togetherb_ok _ _ _ Ht) in H. cbn [negb orb] in H. apply eqb_prop in H.
  destruct (token_eqb_spec (fst a) (fst b)) as [E1|E1], (token_eqb_spec (fst a') (fst b')) as [E2|E2]; try discriminate H; split; congruence.
Qed.
Fixpoint all_resemble (a b : list stoken) : bool :=
  match a, b with
  | [], [] => true
  | x :: a, y :: b => resemblesb (fst x) (fst y) && all_resemble a b
  | _, _ => false
  end.
Lemma all_resemble_ok a : forall b, all_resemble a b = true -> Forall2 (fun a b : stoken => resembles (fst a) (fst b)) a b.
Proof.
  induction a as [|x a IH]; intros [|y b] H; try discriminate H; constructor; cbn [all_resemble] in H; apply andb_true_iff in H as [H1 H2]; [apply resemblesb_ok; exact H1|apply IH; exact H2].
Qed.
Lemma renamed94 : renamed_text (e_u env5) doc94 doc94_after.
Proof.
  exists (pr_of doc94), (pr_tokens (pr_of doc94)), (pr_tokens (pr_of doc94_after)). split; [vm_compute; reflexivity|]. split; [vm_compute; reflexivity|]. split; [vm_compute; reflexivity|].
  split; [apply all_resemble_ok; vm_compute; reflexivity|]. apply consistentb_ok. vm_compute. reflexivity.
Qed.
Lemma full94 : plain_document doc94 /\ plain_document doc94_after /\ opened env5 (sv88 doc94) (str "f") doc94 (doc_of env5 doc94) /\ opened env5 (sv88 doc94_after) (str "f") doc94_after (doc_of env5 doc94_after) /\
  analyze env5 (str "f") doc94 = Val (doc_of env5 doc94, diags90 doc94) /\ analyze env5 (str "f") doc94_after = Val (doc_of env5 doc94_after, diags90 doc94_after).
Proof.
  split; [split; [|split]; vm_compute; reflexivity|]. split; [split; [|split]; vm_compute; reflexivity|]. split; [apply opened88; vm_compute; discriminate|]. split; [apply opened88; vm_compute; discriminate|].
  split; vm_compute; reflexivity.
Qed.
Definition refs_ok (x : stoken * stoken) : bool := match fst (fst x), fst (snd x) with TDebugRef n, TDebugRef m => text_eqb n (str "!1") && text_eqb m (str "!22") | _, _ => true end.
Lemma refs_at l n sp n' sp' : forallb refs_ok l = true -> In ((TDebugRef n, sp), (TDebugRef n', sp')) l -> text_eqb n (str "!1") = true /\ text_eqb n' (str "!22") = true.
Proof. intros G H. rewrite forallb_forall in G. specialize (G _ H). unfold refs_ok in G. cbn [fst snd] in G. apply andb_true_iff in G. exact G. Qed.
Lemma values94 : values_renamed (counterparts (pr_tokens (pr_of doc94)) (pr_tokens (pr_of doc94_after))) doc94 doc94_after env5 (pr_stmts (pr_of doc94)) (pr_stmts (pr_of doc94_after)).
Proof.
  assert (forall n, ann_value doc94 (pr_stmts (pr_of doc94)) n = (if text_eqb n (str "!1") then Some (str "{""line"": 3}") else None)) as H by (intros n; vm_compute; reflexivity).
  assert (forall n, ann_value doc94_after (pr_stmts (pr_of doc94_after)) n = (if text_eqb n (str "!22") then Some (str "{""line"": 3}") else None)) as H' by (intros n; vm_compute; reflexivity).
  assert (forallb refs_ok (combine (pr_tokens (pr_of doc94)) (pr_tokens (pr_of doc94_after))) = true) as G by (vm_compute; reflexivity).
  unfold values_renamed, counterparts. generalize dependent (pr_stmts (pr_of doc94)). generalize dependent (pr_stmts (pr_of doc94_after)). generalize dependent (combine (pr_tokens (pr_of doc94)) (pr_tokens (pr_of doc94_after))).
  intros l G ss' H' ss H n sp n' sp' Hn. rewrite H, H'. destruct (refs_at l n sp n' sp' G Hn) as [-> ->]. reflexivity.
Qed.
Lemma shown94 :
  shown_diags doc94 = [(at90 10 15 21, str "Unexpected token in input, expected )"); (at90 14 14 19, str "Use of undefined symbol `@gone`"); (at90 10 12 14, str "Use of undefined symbol `@k`");
    (at90 6 19 26, str "Use of undefined symbol `nowhere`"); (at90 7 0 1, str "Symbol `b` already defined previously"); (at90 3 12 14, str "Use of undefined symbol `%z`")] /\
  shown_diags doc94_after = [(at90 10 17 23, str "Unexpected token in input, expected )"); (at90 14 17 19, str "Use of undefined symbol `@h`"); (at90 10 12 16, str "Use of undefined symbol `@bad`");
    (at90 6 21 28, str "Use of undefined symbol `missing`"); (at90 7 0 6, str "Symbol `finish` already defined previously"); (at90 3 12 20, str "Use of undefined symbol `%unknown`")].
Proof. split; vm_compute; reflexivity. Qed.
Lemma requests94 :
  references env5 (sv88 doc94) (str "f") (mkPos 2 7) = Val (Some [mkLocn (str "f") (at90 3 8 10)]) /\
  references env5 (sv88 doc94_after) (str "f") (mkPos 2 7) = Val (Some [mkLocn (str "f") (at90 3 8 10)]) /\
  goto_definition env5 (sv88 doc94) (str "f") (mkPos 4 14) = Val (Some (at90 4 14 17, [mkLocn (str "f") (at90 1 0 3)])) /\
  goto_definition env5 (sv88 doc94_after) (str "f") (mkPos 4 14) = Val (Some (at90 4 14 19, [mkLocn (str "f") (at90 1 0 5)])).
Proof. split; [|split; [|split]]; vm_compute; reflexivity. Qed.
(** two names are merged into one *)
Definition doc94_two : text := str "define void @f() {
}
define void @g() {
}
".
Definition doc94_one : text := str "define void @f() {
}
define void @f() {
}
".
Lemma merged : exists src src' toks toks', tokenize u0 src = Val (Some toks, []) /\ tokenize u0 src' = Val (Some toks', []) /\ Forall2 (fun a b : stoken => resembles (fst a) (fst b)) toks toks' /\
  shown_diags src = [] /\ length (shown_diags src') = 1.
Proof.
  exists doc94_two, doc94_one, (pr_tokens (pr_of doc94_two)), (pr_tokens (pr_of doc94_one)). split; [vm_compute; reflexivity|]. split; [vm_compute; reflexivity|]. split; [apply all_resemble_ok; vm_compute; reflexivity|]. split; vm_compute; reflexivity.
Qed.
