(** Examples for PropertiesLayout.v. *)
From Verif Require Import Text Rope Chumsky Tokenizer Parser Numbers Index SemTok Diag Rename Cfg Backtrace Server SpecText SpecLex SpecParse SpecIndex SpecDiag SpecBacktrace SpecNumbers SpecCfg SpecView SpecRename SpecPatch SpecSimilar SpecRebind SpecLayout
  PLexProps PTokens ExamplesIndex ExamplesCfg ExamplesView ExamplesRename ExamplesPatch ExamplesRebind ExamplesLabel.

(** deciding whether one text is another one laid out anew *)
Definition nonempty (t : text) : bool := match t with [] => false | _ => true end.
Definition apartb (b : token) (next : text) : bool :=
  match b with TPunct c => negb (N.eqb c (ch ":")) | TStr _ => true | _ => false end ||
  match next with [] => true | c :: _ => existsb (N.eqb c) separators end.
Definition may_changeb (b : option token) (bl bl' next : text) : bool :=
  match b with None | Some TNewline => true | Some TComment => negb (nonempty bl') | Some t => nonempty bl' || negb (nonempty bl) || apartb t next end.
Definition may_varyb (b : option token) (t : token) (w w' : text) : bool :=
  match t, b with TComment, _ => true | TNewline, Some TComment => text_eqb w' w | TNewline, _ => true | _, _ => text_eqb w' w end.
Fixpoint relaid (b : option token) (i : nat) (t : text) (toks : list stoken) (i' : nat) (t' : text) (toks' : list stoken) : bool :=
  match toks, toks' with
  | (k, sp) :: r, (_, sp') :: r' =>
      let w' := firstn (sp_end sp' - sp_start sp') (skipn (sp_start sp' - i') t') in
      may_changeb b (firstn (sp_start sp - i) t) (firstn (sp_start sp' - i') t') w' &&
      may_varyb b k (firstn (sp_end sp - sp_start sp) (skipn (sp_start sp - i) t)) w' &&
      relaid (Some k) (sp_end sp) (skipn (sp_end sp - i) t) r (sp_end sp') (skipn (sp_end sp' - i') t') r'
  | [], [] => may_changeb b t t' []
  | _, _ => false
  end.
Lemma apartb_ok b next : apartb b next = true -> apart b next.
Proof.
  intros H. apply Bool.orb_true_iff in H as [H|H].
  - destruct b; try discriminate H; [right; left; eauto|left].
    match goal with |- exists c, TPunct ?x = _ /\ _ => exists x end. split; [reflexivity|]. intros E. rewrite E, N.eqb_refl in H. discriminate H.
  - right. right. destruct next as [|c r]; [left; reflexivity|right]. exists c, r. split; [reflexivity|]. apply existsb_exists in H as (x & Hx & E). apply N.eqb_eq in E. subst x. exact Hx.
Qed.
Lemma may_changeb_ok b bl bl' next : may_changeb b bl bl' next = true -> may_change b bl bl' next.
Proof.
  intros H. destruct b as [t|]; [|exact I].
  assert (t = TNewline \/ t = TComment \/ (may_change (Some t) bl bl' next = (bl' = [] -> bl = [] \/ apart t next) /\ may_changeb (Some t) bl bl' next = nonempty bl' || negb (nonempty bl) || apartb t next)) as [->|[->|[E1 E2]]]
    by (destruct t; auto); [exact I|destruct bl'; [reflexivity|discriminate H]|].
  rewrite E1. rewrite E2 in H. intros ->. apply Bool.orb_true_iff in H as [H|H]; [left; destruct bl; [reflexivity|discriminate H]|right; apply apartb_ok; exact H].
Qed.
Lemma may_varyb_ok b t w w' : may_varyb b t w w' = true -> may_vary b t w w'.
Proof.
  intros H. destruct t; cbn [may_varyb] in H; try (right; right; destruct (text_eqb_spec w' w); [assumption|discriminate H]); [left; reflexivity|].
  destruct b as [[]|]; cbn [may_varyb] in H; try (right; left; split; [reflexivity|discriminate]). right; right. destruct (text_eqb_spec w' w); [assumption|discriminate H].
Qed.
Lemma relaid_ok u i t toks n : lexes u i t toks n -> n = 0 -> forall b i' t' toks', lexes u i' t' toks' 0 -> map fst toks' = map fst toks -> relaid b i t toks i' t' toks' = true ->
  respaced u b t t'.
Proof.
  assert (forall (a b c : text), firstn (length a) (a ++ b) = a /\ skipn (length a) (a ++ b) = b) as Hcut.
  { intros a b _. rewrite firstn_app, skipn_app, Nat.sub_diag, firstn_all, skipn_all, app_nil_r. auto. }
  induction 1 as [i bl Hb|i bl k w r toks n Hb Hl Hr IH|]; intros En b i' t' toks' L' Em Hf; [| |discriminate En].
  - destruct toks'; [|discriminate Em]. cbn [relaid] in Hf. inversion L'; subst. apply rs_end; [exact Hb|assumption|apply may_changeb_ok; exact Hf].
  - remember 0 as z eqn:Ez in L'. destruct L' as [i' bl' Hb'|i' bl' k' w' r' toks' n' Hb' Hl' Hr'|]; [discriminate Em| |discriminate Ez].
    cbn [map fst] in Em. injection Em as -> Em. cbn [relaid sp_start sp_end] in Hf. cbv zeta in Hf. apply Bool.andb_true_iff in Hf as [F F3]. apply Bool.andb_true_iff in F as [F1 F2].
    replace (i + length bl - i) with (length bl) in * by lia. replace (i + length bl + length w - (i + length bl)) with (length w) in * by lia.
    replace (i + length bl + length w - i) with (length (bl ++ w)) in * by (rewrite app_length; lia).
    replace (i' + length bl' - i') with (length bl') in * by lia. replace (i' + length bl' + length w' - (i' + length bl')) with (length w') in * by lia.
    replace (i' + length bl' + length w' - i') with (length (bl' ++ w')) in * by (rewrite app_length; lia).
    rewrite !(proj2 (Hcut _ _ [])), !(proj1 (Hcut _ _ [])) in F1. rewrite !(proj2 (Hcut _ _ [])), !(proj1 (Hcut _ _ [])) in F2. rewrite !app_assoc, !(proj2 (Hcut _ _ [])) in F3.
    eapply rs_token; [exact Hb|exact Hb'|apply may_changeb_ok; exact F1|exact Hl|exact (proj1 Hl')|apply may_varyb_ok; exact F2|].
    eapply IH; [exact En|subst n'; exact Hr'|exact Em|exact F3].
Qed.

(** doc12 with other blanks, another comment and carriage returns *)
Definition doc13 : text := str "  define" ++ [TAB] ++ str " void  @g(int1 %x)  {
br int1 %x  ,a_1,b_2" ++ [CR; LF] ++ str "    a_1:#other
  br  b_2   
b_2:
	phi	[ a_1	, %x]
}
	".
Lemma respaced13 : respaced (e_u env8) None doc12 doc13.
Proof.
  eapply relaid_ok with (toks := pr_tokens (pr_of doc12)) (toks' := pr_tokens (pr_of doc13)).
  - apply (tokenize_lexes _ _ _ []). exact clean12.
  - reflexivity.
  - apply (tokenize_lexes _ _ _ []). vm_compute. reflexivity.
  - vm_compute. reflexivity.
  - vm_compute. reflexivity.
Qed.
Lemma parsed12 : parse_from_str (e_u env8) doc12 = Val (pr_of doc12) /\ pr_tokens (pr_of doc12) <> [] /\ ~ Forall blank doc12.
Proof.
  split; [vm_compute; reflexivity|]. split; [vm_compute; discriminate|]. intros H. inversion H as [|? ? [E|E] _]; vm_compute in E; discriminate E.
Qed.

Definition d13 : doc := doc_of env8 doc13.
Definition s13 : server := mkServer [root8] false [(str "f", d13)].
Definition o13 : occurrence := nth 4 (recorded (pr_stmts (pr_of doc13)) (pr_tokens (pr_of doc13))) o12.
Lemma alike13 : plain_document doc12 /\ plain_document doc13 /\ opened env8 s12 (str "f") doc12 d12 /\ opened env8 s13 (str "f") doc13 d13 /\
  roots s13 = roots s12 /\ can_resolve (roots s12) /\ lines_from_1 (doc_stmts d12) /\
  In (o12, o13) (combine occs12 (recorded (pr_stmts (pr_of doc13)) (pr_tokens (pr_of doc13)))) /\ covers (o_span o12) 48 /\ covers (o_span o13) 57 /\ ~ global (o_kind o12).
Proof.
  split; [apply opened12|]. split; [split; [|split]; vm_compute; reflexivity|]. split; [apply opened12|]. split.
  { split; [reflexivity|]. exists (match analyze env8 (str "f") doc13 with Val (_, ds) => ds | Panic => [] end). vm_compute. reflexivity. }
  split; [reflexivity|]. split; [intros r [<-|[]]; reflexivity|]. split; [intros f x Hx; vm_compute in Hx; contradiction|].
  split; [vm_compute; auto 10|]. split; [split; vm_compute; lia|]. split; [split; vm_compute; lia|]. intros [H|H]; discriminate H.
Qed.

(** ** What matters *)
(** names that meet are one name *)
Lemma glued_not_same : exists u w w' toks toks' errs, lexeme u (TIdent w) w /\ lexeme u (TIdent w') w' /\
  tokenize u (w ++ [SPACE] ++ w') = Val (Some toks, []) /\ tokenize u (w ++ w') = Val (Some toks', errs) /\ map fst toks' <> map fst toks.
Proof.
  assert (forall c, is_alphabetic (e_u env8) c = true -> forall d, is_alphabetic (e_u env8) d = true -> (forall t, ~ In ([c; d], t) reserved) -> lexeme (e_u env8) (TIdent [c; d]) [c; d]) as L.
  { intros c Hc d Hd Hn. apply lx_word; [left; exact Hc| |right; split; [exact Hn|reflexivity]].
    split; [intros x [<-|[]]; left; left; exact Hd|]. right. exists [], d. split; [reflexivity|left; exact Hd]. }
  exists (e_u env8), (str "br"), (str "ab"), [(TIdent (str "br"), mkSpan 0 2); (TIdent (str "ab"), mkSpan 3 5)], [(TIdent (str "brab"), mkSpan 0 4)], [].
  split; [apply L; [reflexivity|reflexivity|intros t H; cbn in H; intuition discriminate]|]. split; [apply L; [reflexivity|reflexivity|intros t H; cbn in H; intuition discriminate]|].
  split; [vm_compute; reflexivity|]. split; [vm_compute; reflexivity|discriminate].
Qed.
