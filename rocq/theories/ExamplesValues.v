(** Examples for PropertiesValues.v. *)
From Verif Require Import Text Rope Chumsky Tokenizer Parser Numbers Index SemTok Diag Rename Cfg Backtrace Server SpecText SpecLex SpecParse SpecIndex SpecDiag SpecBacktrace SpecNumbers SpecCfg SpecView SpecSemTok SpecRename SpecPatch SpecSimilar SpecValues SpecRebind SpecSteps SpecDot SpecLayout SpecAfter SpecAfterHints SpecReformat SpecValued
  ExamplesIndex ExamplesCfg ExamplesView ExamplesRename ExamplesPatch ExamplesAfterHints ExamplesReformat.

(** numbers, texts and types, a loop, a backtrace, a name that is not bound and a line that cannot be read *)
Definition doc93 : text := str "define void @g(int8 %x, int1 %c) {
a_1:
  int8 %y = add %x, 17
  store ""text"", 0xff, %z !1
  br int1 %c, a_1, b
b:
  br int1 %c, a_1, b
}
define void @k(define 2) {
}
define void @h() {
  ret 5
}
!1 = {""line"": 3}
".
Definition doc93_after : text := str "define void @g(int64 %x, int1 %c) {
a_1:
  int32 %y = add %x, 170000
  store ""other, longer text"", 0x0, %z !1
  br int1 %c, a_1, b
b:
  br int1 %c, a_1, b
}
define void @k(define 12345) {
}
define void @h() {
  ret 6
}
!1 = {""column"": 33}
".
Definition revaluedb (t t' : token) : bool :=
  match t, t' with
  | TNum _, TNum _ | THexNum _, THexNum _ | TStr _, TStr _ | TFuncModifier _, TFuncModifier _ => true
  | TType a, TType b => text_eqb a b || (negb (text_eqb a (str "int1")) && negb (text_eqb b (str "int1")))
  | TLocalName a, TLocalName b | TGlobalName a, TGlobalName b | TDebugRef a, TDebugRef b | TIdent a, TIdent b => text_eqb a b
  | TPunct a, TPunct b => (a =? b)%N
  | TComment, TComment | TNewline, TNewline | TDeclare, TDeclare | TDefine, TDefine => true
  | _, _ => false
  end.
Fixpoint all_revalued (a b : list stoken) : bool :=
  match a, b with
  | [], [] => true
  | x :: a, y :: b => revaluedb (fst x) (fst y) && all_revalued a b
  | _, _ => false
  end.
Lemma text_eqb_true a b : text_eqb a b = true -> a = b.
Proof. intros H. apply text_eqb_eq; exact H. Qed.
Lemma revaluedb_ok t t' : revaluedb t t' = true -> revalued t t'.
Proof.
  destruct t, t'; cbn [revaluedb]; intros H; try discriminate H; try (left; f_equal; apply text_eqb_true; exact H); try (right; exact I); try (left; reflexivity).
  - apply orb_true_iff in H as [H|H]; [left; f_equal; apply text_eqb_true; exact H|]. right. apply andb_true_iff in H as [H1 H2]. apply negb_true_iff in H1, H2. split; intros ->; discriminate.
  - left. f_equal. apply N.eqb_eq. exact H.
Qed.
Lemma all_revalued_ok a : forall b, all_revalued a b = true -> Forall2 (fun a b : stoken => revalued (fst a) (fst b)) a b.
Proof.
  induction a as [|x a IH]; intros [|y b] H; try discriminate H; constructor; cbn [all_revalued] in H; apply andb_true_iff in H as [H1 H2]; [apply revaluedb_ok; exact H1|apply IH; exact H2].
Qed.
Lemma revalued93 : revalued_text (e_u env5) doc93 doc93_after.
Proof.
  exists (pr_tokens (pr_of doc93)), (pr_tokens (pr_of doc93_after)). split; [vm_compute; reflexivity|]. split; [vm_compute; reflexivity|]. apply all_revalued_ok. vm_compute. reflexivity.
Qed.
Lemma full93 : plain_document doc93 /\ plain_document doc93_after /\ opened env5 (sv88 doc93) (str "f") doc93 (doc_of env5 doc93) /\ opened env5 (sv88 doc93_after) (str "f") doc93_after (doc_of env5 doc93_after) /\
  analyze env5 (str "f") doc93 = Val (doc_of env5 doc93, diags90 doc93) /\ analyze env5 (str "f") doc93_after = Val (doc_of env5 doc93_after, diags90 doc93_after).
Proof.
  split; [split; [|split]; vm_compute; reflexivity|]. split; [split; [|split]; vm_compute; reflexivity|]. split; [apply opened88; vm_compute; discriminate|]. split; [apply opened88; vm_compute; discriminate|].
  split; vm_compute; reflexivity.
Qed.
Lemma values93 : values_alike env5 doc93 doc93_after (doc_stmts (doc_of env5 doc93)) (doc_stmts (doc_of env5 doc93_after)).
Proof.
  assert (forall n, ann_value doc93 (doc_stmts (doc_of env5 doc93)) n = (if text_eqb n (str "!1") then Some (str "{""line"": 3}") else None) /\
    ann_value doc93_after (doc_stmts (doc_of env5 doc93_after)) n = (if text_eqb n (str "!1") then Some (str "{""column"": 33}") else None)) as H by (intros n; split; vm_compute; reflexivity).
  intros n. destruct (H n) as [-> ->]. destruct (text_eqb n _); reflexivity.
Qed.
Lemma shown93 :
  shown_diags doc93 = [(at90 8 15 21, str "Unexpected token in input, expected )"); (at90 8 12 14, str "Use of undefined symbol `@k`"); (at90 3 22 24, str "Use of undefined symbol `%z`")] /\
  shown_diags doc93_after = [(at90 8 15 21, str "Unexpected token in input, expected )"); (at90 8 12 14, str "Use of undefined symbol `@k`"); (at90 3 35 37, str "Use of undefined symbol `%z`")].
Proof. split; vm_compute; reflexivity. Qed.
Lemma requests93 :
  references env5 (sv88 doc93) (str "f") (mkPos 0 20) = Val (Some [mkLocn (str "f") (at90 2 16 18)]) /\
  references env5 (sv88 doc93_after) (str "f") (mkPos 0 21) = Val (Some [mkLocn (str "f") (at90 2 17 19)]).
Proof. split; vm_compute; reflexivity. Qed.
(** only the type tells that labels follow *)
Definition doc93_int8 : text := str "define void @g(int1 %c) {
a:
  br int8 %c, a, a
}
".
Definition doc93_int1 : text := str "define void @g(int1 %c) {
a:
  br int1 %c, a, a
}
".
Definition types_differ (x y : stoken) : bool := match fst x, fst y with TType _, TType _ => true | a, b => token_eqb a b end.
Fixpoint all_differ (a b : list stoken) : bool := match a, b with [], [] => true | x :: a, y :: b => types_differ x y && all_differ a b | _, _ => false end.
Lemma token_eqb_true a b : token_eqb a b = true -> a = b.
Proof. intros H. destruct (token_eqb_spec a b) as [E|E]; [exact E|congruence]. Qed.
Lemma all_differ_ok a : forall b, all_differ a b = true -> Forall2 (fun a b : stoken => fst a = fst b \/ exists v w, fst a = TType v /\ fst b = TType w) a b.
Proof.
  induction a as [|x a IH]; intros [|y b] H; try discriminate H; constructor; cbn [all_differ] in H; apply andb_true_iff in H as [H1 H2]; [|apply IH; exact H2].
  unfold types_differ in H1. destruct (fst x), (fst y); try (left; apply token_eqb_true; exact H1). right. eauto.
Qed.
Lemma int1_special : exists src src' toks toks', tokenize u0 src = Val (Some toks, []) /\ tokenize u0 src' = Val (Some toks', []) /\
  Forall2 (fun a b : stoken => fst a = fst b \/ exists v w, fst a = TType v /\ fst b = TType w) toks toks' /\
  shown_diags src = [] /\ length (shown_diags src') = 1.
Proof.
  exists doc93_int1, doc93_int8, (pr_tokens (pr_of doc93_int1)), (pr_tokens (pr_of doc93_int8)). split; [vm_compute; reflexivity|]. split; [vm_compute; reflexivity|].
  split; [apply all_differ_ok; vm_compute; reflexivity|]. split; vm_compute; reflexivity.
Qed.
