(** How far into the text the parser looks: if an error is not behind a token
    then nothing behind this token can help. *)
From Verif Require Import Text Chumsky Tokenizer Parser SpecParse SpecFault PText PSound PPlace.

Section One.
Variable eoi : span.

(** ** Parsers that look at one token *)
Definition one {A} (f d : token -> bool) (ex : list (option token)) (p : pp A) : Prop := forall (h : stoken) (r : strm),
  if f (fst h) then exists es v, p (h :: r) = POk es v None r /\ (es = [] <-> d (fst h) = false)
  else exists e, p (h :: r) = PErr [] e /\ l_rem e = S (length r) /\ e_expected (l_err e) = ex.
Definition tame (_ : token) : bool := false.
Lemma one_just y : one (fun t => token_eqb t y) tame [Some y] (p_just token_eqb eoi y).
Proof.
  intros [tk sp] r. cbn [fst]. unfold p_just. destruct (token_eqb tk y); [exists [], y; split; [reflexivity|]; split; reflexivity|]. eexists. split; [reflexivity|]. split; reflexivity.
Qed.
Lemma one_filter_map {A} (f : span -> token -> A + text) g : (forall sp t, match f sp t with inl _ => g t = true | inr _ => g t = false end) -> one g tame [] (p_filter_map eoi f).
Proof.
  intros H [tk sp] r. cbn [fst]. unfold p_filter_map. specialize (H sp tk). destruct (f sp tk) as [o|m]; rewrite H; [exists [], o; split; [reflexivity|]; split; reflexivity|].
  eexists. split; [reflexivity|]. split; reflexivity.
Qed.
Lemma one_none_of xs : one (fun t => negb (existsb (token_eqb t) xs)) tame [] (p_none_of token_eqb eoi xs).
Proof.
  intros [tk sp] r. cbn [fst]. unfold p_none_of. destruct (existsb (token_eqb tk) xs); cbn [negb]; [eexists; split; [reflexivity|split; reflexivity]|exists [], tk; split; [reflexivity|split; reflexivity]].
Qed.
Lemma one_any : one (fun _ => true) tame [] (p_any eoi).
Proof. intros [tk sp] r. exists [], tk. split; [reflexivity|split; reflexivity]. Qed.
Lemma one_map {A B} f d ex (p : pp A) (g : A -> B) : one f d ex p -> one f d ex (p_map p g).
Proof.
  intros H h r. specialize (H h r). unfold p_map. destruct (f (fst h)); [destruct H as (es & v & -> & H); exists es, (g v); split; [reflexivity|exact H]|]. destruct H as (e & -> & H). exists e. split; [reflexivity|exact H].
Qed.
Lemma one_span {A B} f d ex (p : pp A) (g : A -> span -> B) : one f d ex p -> one f d ex (p_map_with_span eoi p g).
Proof.
  intros H h r. specialize (H h r). unfold p_map_with_span. destruct (f (fst h)); [destruct H as (es & v & -> & H); eexists es, _; split; [reflexivity|exact H]|]. destruct H as (e & -> & H). exists e. split; [reflexivity|exact H].
Qed.
Lemma one_or {A} f g ex ex' (p q : pp A) : one f tame ex p -> one g tame ex' q -> one (fun t => f t || g t) tame (ex ++ ex') (p_or p q).
Proof.
  intros Hp Hq h r. specialize (Hp h r). specialize (Hq h r). unfold p_or. destruct (f (fst h)).
  - destruct Hp as (es & v & -> & E). rewrite (proj2 E) by reflexivity. exists [], v. split; [reflexivity|split; reflexivity].
  - destruct Hp as (e & -> & L & X). cbn [orb]. destruct (g (fst h)).
    + destruct Hq as (es & v & -> & E). rewrite (proj2 E) by reflexivity. exists [], v. split; [reflexivity|split; reflexivity].
    + destruct Hq as (e' & -> & L' & X'). rewrite L, L', Nat.ltb_irrefl. eexists. split; [reflexivity|]. unfold loc_max. rewrite L, L', Nat.ltb_irrefl. split; [reflexivity|]. cbn. congruence.
Qed.
Lemma one_end {A} (v : A) : one (fun _ => false) tame [None] (p_to (p_end eoi) v).
Proof. intros [tk sp] r. eexists. split; [reflexivity|]. split; reflexivity. Qed.
Lemma one_not {A} f ex (p : pp A) : one f tame ex p -> one (fun t => negb (f t)) tame [] (p_not eoi p).
Proof.
  intros H h r. specialize (H h r). unfold p_not. destruct (f (fst h)); cbn [negb].
  - destruct H as (es & v & -> & _). destruct h. eexists. split; [reflexivity|]. split; reflexivity.
  - destruct H as (e & -> & _). destruct h as [tk sp]. exists [], tk. split; [reflexivity|split; reflexivity].
Qed.
Lemma one_validate {A} f ex (p : pp A) g (c : token -> bool) : one f tame ex p -> (forall h r v alt r', p (h :: r) = POk [] v alt r' -> match g v with None => c (fst h) = false | Some _ => c (fst h) = true end) ->
  one f c ex (p_validate eoi p g).
Proof.
  intros H Hg h r. specialize (H h r). specialize (Hg h r). unfold p_validate. destruct (f (fst h)).
  - destruct H as (es & v & E & D). rewrite (proj2 D) in E by reflexivity. specialize (Hg v None r E). rewrite E. destruct (g v); eexists _, v; (split; [reflexivity|]); (split; [intros K|intros K]); try reflexivity; try discriminate; try congruence.
  - destruct H as (e & -> & H). exists e. split; [reflexivity|exact H].
Qed.


Definition is_modifier (t : token) := match t with TFuncModifier _ => true | _ => false end.
Definition is_global (t : token) := match t with TGlobalName _ => true | _ => false end.
Definition is_local (t : token) := match t with TLocalName _ => true | _ => false end.
Definition is_type (t : token) := match t with TType _ => true | _ => false end.
Definition is_ident (t : token) := match t with TIdent _ => true | _ => false end.
Definition is_dbg (t : token) := match t with TDebugRef _ => true | _ => false end.
Definition is_hex (t : token) := match t with THexNum _ => true | _ => false end.
Lemma one_modifier : one is_modifier tame [] (g_func_modifier eoi). Proof. apply one_filter_map. intros sp t; destruct t; reflexivity. Qed.
Lemma one_global : one is_global tame [] (g_global_name eoi). Proof. apply one_filter_map. intros sp t; destruct t; reflexivity. Qed.
Lemma one_local : one is_local tame [] (g_local_name eoi). Proof. apply one_filter_map. intros sp t; destruct t; reflexivity. Qed.
Lemma one_type : one is_type tame [] (g_type eoi). Proof. apply one_filter_map. intros sp t; destruct t; reflexivity. Qed.
Lemma one_ident : one is_ident tame [] (g_ident eoi). Proof. apply one_filter_map. intros sp t; destruct t; reflexivity. Qed.
Lemma one_dbg : one is_dbg tame [] (g_dbg_ref eoi). Proof. apply one_filter_map. intros sp t; destruct t; reflexivity. Qed.
Lemma one_hex : one is_hex tame [] (g_hexnum eoi). Proof. apply one_filter_map. intros sp t; destruct t; reflexivity. Qed.
Definition odd_name (t : token) := match t with TIdent x => negb (ends_with x (str "br")) | _ => false end.
Lemma one_named : one is_ident odd_name [] (p_validate eoi (g_ident eoi) (fun x => if ends_with (fst x) (str "br") then None else Some not_overflow)).
Proof.
  apply one_validate; [apply one_ident|]. intros [tk sp] r v alt r' E. unfold g_ident, p_filter_map in E. destruct tk; try discriminate. injection E as <- <- <-. cbn [fst odd_name]. destruct (ends_with n (str "br")); reflexivity.
Qed.
Lemma one_eol : one (fun t => token_eqb t TNewline || false) tame [Some TNewline; None] (g_eol eoi).
Proof. apply (one_or _ _ [Some TNewline] [None] _ _ (one_just TNewline) (one_end TNewline)). Qed.
Lemma one_word : one (fun t => negb (token_eqb t TNewline || is_dbg t)) tame [] (p_not eoi (p_or (p_to (p_just token_eqb eoi TNewline) tt) (p_to (g_dbg_ref eoi) tt))).
Proof. eapply one_not. apply one_or; apply one_map; [apply one_just|apply one_dbg]. Qed.
Ltac one :=
  lazymatch goal with
  | |- one _ _ _ (p_just _ _ _) => apply one_just
  | |- one _ _ _ (p_none_of _ _ _) => apply one_none_of
  | |- one _ _ _ (p_any _) => apply one_any
  | |- one _ _ _ (p_validate _ _ _) => apply one_named
  | |- one _ _ _ (p_map_with_span _ _ _) => apply one_span; one
  | |- one _ _ _ (g_kw_spanned _ _) => apply one_span; apply one_just
  | |- one _ _ _ (g_func_modifier _) => apply one_modifier
  | |- one _ _ _ (g_global_name _) => apply one_global
  | |- one _ _ _ (g_local_name _) => apply one_local
  | |- one _ _ _ (g_type _) => apply one_type
  | |- one _ _ _ (g_ident _) => apply one_ident
  | |- one _ _ _ (g_dbg_ref _) => apply one_dbg
  | |- one _ _ _ (g_hexnum _) => apply one_hex
  | |- one _ _ _ (g_eol _) => apply one_eol
  | |- one _ _ _ (p_not _ _) => apply one_word
  end.

(** ** Not behind the end of the line *)
Section Line.
Variable nl : stoken.
Variable c : strm.
Hypothesis Hnl : fst nl = TNewline.
Definition flat (b : strm) : Prop := Forall (fun y : stoken => fst y <> TNewline) b /\ tidy (b ++ [nl]).
Definition aok (alt : option (located token)) : Prop := forall l, alt = Some l -> S (length c) <= l_rem l.
Definition lb {A} (p : pp A) : Prop := forall b, flat b ->
  match p (b ++ nl :: c) with
  | POk _ _ alt r => (exists b1 b2, b = b1 ++ b2 /\ r = b2 ++ nl :: c) /\ aok alt
  | PErr _ e => S (length c) <= l_rem e
  | PPanic => True
  end.
Definition lbo {A} (p : pp A) : Prop := forall b, flat b ->
  match p (b ++ nl :: c) with
  | POk _ _ alt r => (exists b1 o b2, b = b1 ++ o :: b2 /\ opener (fst o) /\ r = b2 ++ nl :: c) /\ aok alt
  | PErr _ e => S (length c) <= l_rem e
  | PPanic => True
  end.
Lemma tidy_app_r a b : tidy (a ++ b) -> tidy b.
Proof. intros H p x y q -> . apply (H (a ++ p) x y q). rewrite app_assoc. reflexivity. Qed.
Lemma tidy_app_l a b : tidy (a ++ b) -> tidy a.
Proof. intros H p x y q ->. apply (H p x y (q ++ b)). rewrite <- app_assoc. reflexivity. Qed.
Lemma flat_app b1 b2 : flat (b1 ++ b2) -> flat b2.
Proof. intros [H T]. apply Forall_app in H. rewrite <- app_assoc in T. split; [apply H|apply tidy_app_r in T; exact T]. Qed.
Lemma lbo_lb {A} (p : pp A) : lbo p -> lb p.
Proof. intros H b F. specialize (H b F). destruct (p (b ++ nl :: c)); [|exact H|exact I]. destruct H as ((b1 & o & b2 & -> & _ & ->) & H). split; [exists (b1 ++ [o]), b2; split; [rewrite <- app_assoc; reflexivity|reflexivity]|exact H]. Qed.
Lemma aok_none : aok None. Proof. discriminate. Qed.
Lemma aok_some e : S (length c) <= l_rem e -> aok (Some e). Proof. intros H l E. injection E as <-. exact H. Qed.
Lemma max_rem (a : located token) b : l_rem (loc_max a b) = match b with Some b => min (l_rem a) (l_rem b) | None => l_rem a end.
Proof. destruct b as [b|]; [|reflexivity]. unfold loc_max. destruct (Nat.ltb_spec (l_rem a) (l_rem b)); [lia|]. destruct (Nat.ltb_spec (l_rem b) (l_rem a)); [lia|]. cbn [l_rem]. lia. Qed.
Lemma aok_max a b : S (length c) <= l_rem a -> aok b -> S (length c) <= l_rem (loc_max a b).
Proof. intros H K. rewrite max_rem. destruct b as [b|]; [|exact H]. specialize (K b eq_refl). lia. Qed.
Lemma aok_alts a b : aok a -> aok b -> aok (merge_alts a b).
Proof. intros H K. destruct a as [a|]; [|exact K]. apply aok_some. apply aok_max; [apply H; reflexivity|exact K]. Qed.

Lemma lb_one {A} f d ex (p : pp A) : one f d ex p -> f TNewline = false -> lb p.
Proof.
  intros H F b Hb. destruct b as [|h b]; cbn [app].
  - specialize (H nl c). rewrite Hnl, F in H. destruct H as (e & -> & L & _). lia.
  - specialize (H h (b ++ nl :: c)). destruct (f (fst h)).
    + destruct H as (es & v & -> & _). split; [exists [h], b; split; reflexivity|apply aok_none].
    + destruct H as (e & -> & L & _). rewrite L, app_length. cbn [length]. lia.
Qed.
Lemma lbo_one {A} f d ex (p : pp A) : one f d ex p -> (forall t, f t = true -> opener t) -> lbo p.
Proof.
  intros H F b Hb. destruct b as [|h b]; cbn [app].
  - specialize (H nl c). rewrite Hnl in H. destruct (f TNewline) eqn:E.
    + destruct (F _ E) as [X|[x X]]; discriminate.
    + destruct H as (e & -> & L & _). lia.
  - specialize (H h (b ++ nl :: c)). destruct (f (fst h)) eqn:E.
    + destruct H as (es & v & -> & _). split; [exists [], h, b; split; [reflexivity|split; [apply F; exact E|reflexivity]]|apply aok_none].
    + destruct H as (e & -> & L & _). rewrite L, app_length. cbn [length]. lia.
Qed.
Lemma lb_rewind {A} f d ex (p : pp A) : one f d ex p -> lb (p_rewind p).
Proof.
  intros H b Hb. unfold p_rewind. destruct b as [|h b]; cbn [app].
  - specialize (H nl c). destruct (f (fst nl)).
    + destruct H as (es & v & -> & _). split; [exists [], []; split; reflexivity|apply aok_none].
    + destruct H as (e & -> & L & _). lia.
  - specialize (H h (b ++ nl :: c)). destruct (f (fst h)).
    + destruct H as (es & v & -> & _). split; [exists [], (h :: b); split; reflexivity|apply aok_none].
    + destruct H as (e & -> & L & _). rewrite L, app_length. cbn [length]. lia.
Qed.
Lemma lb_map {A B} (p : pp A) (g : A -> B) : lb p -> lb (p_map p g).
Proof. intros H b Hb. specialize (H b Hb). unfold p_map. destruct (p _); exact H. Qed.
Lemma lbo_map {A B} (p : pp A) (g : A -> B) : lbo p -> lbo (p_map p g).
Proof. intros H b Hb. specialize (H b Hb). unfold p_map. destruct (p _); exact H. Qed.
Lemma lb_span {A B} (p : pp A) (g : A -> span -> B) : lb p -> lb (p_map_with_span eoi p g).
Proof. intros H b Hb. specialize (H b Hb). unfold p_map_with_span. destruct (p _); exact H. Qed.
Lemma lb_then {A B} (p : pp A) (q : pp B) : lb p -> lb q -> lb (p_then p q).
Proof.
  intros Hp Hq b Hb. specialize (Hp b Hb). unfold p_then. destruct (p _) as [es v alt r|es e|]; [|exact Hp|exact I]. destruct Hp as ((b1 & b2 & -> & ->) & Ha).
  specialize (Hq b2 (flat_app _ _ Hb)). destruct (q _) as [es' v' alt' r'|es' e'|]; [| |exact I].
  - destruct Hq as ((b3 & b4 & -> & ->) & Ha'). split; [exists (b1 ++ b3), b4; split; [rewrite app_assoc; reflexivity|reflexivity]|apply aok_alts; assumption].
  - apply aok_max; assumption.
Qed.
Lemma lbo_then {A B} (p : pp A) (q : pp B) : lb p -> lbo q -> lbo (p_then p q).
Proof.
  intros Hp Hq b Hb. specialize (Hp b Hb). unfold p_then. destruct (p _) as [es v alt r|es e|]; [|exact Hp|exact I]. destruct Hp as ((b1 & b2 & -> & ->) & Ha).
  specialize (Hq b2 (flat_app _ _ Hb)). destruct (q _) as [es' v' alt' r'|es' e'|]; [| |exact I].
  - destruct Hq as ((b3 & o & b4 & -> & O & ->) & Ha'). split; [exists (b1 ++ b3), o, b4; split; [rewrite <- app_assoc; reflexivity|split; [exact O|reflexivity]]|apply aok_alts; assumption].
  - apply aok_max; assumption.
Qed.
Lemma lb_then_any {A B} f d ex (p : pp A) (q : pp B) : lbo p -> one f d ex q -> lb (p_then p q).
Proof.
  intros Hp Hq b Hb. specialize (Hp b Hb). unfold p_then. destruct (p _) as [es v alt r|es e|]; [|exact Hp|exact I]. destruct Hp as ((b1 & o & b2 & -> & O & ->) & Ha).
  destruct b2 as [|h b2].
  - exfalso. destruct Hb as [_ T]. apply (T b1 o nl []); [rewrite <- app_assoc; reflexivity|exact O|exact Hnl].
  - cbn [app]. specialize (Hq h (b2 ++ nl :: c)). destruct (f (fst h)).
    + destruct Hq as (es' & v' & -> & _). split; [exists (b1 ++ [o; h]), b2; split; [rewrite <- app_assoc; reflexivity|reflexivity]|apply aok_alts; [exact Ha|apply aok_none]].
    + destruct Hq as (e & -> & L & _). apply aok_max; [|exact Ha]. rewrite L, app_length. cbn [length]. lia.
Qed.
Lemma lb_or {A} (p q : pp A) : lb p -> lb q -> lb (p_or p q).
Proof.
  intros Hp Hq b Hb. specialize (Hp b Hb). specialize (Hq b Hb). unfold p_or.
  destruct (p _) as [[|y es] v alt r|es e|]; [exact Hp| | |exact I].
  - destruct (q _) as [[|y' es'] v' alt' r'|es' e'|]; [exact Hq| | |exact I].
    + cbv zeta. destruct (_ <? _); assumption.
    + destruct Hp as (H1 & H2). split; [exact H1|apply aok_alts; [exact H2|apply aok_some; exact Hq]].
  - destruct (q _) as [[|y' es'] v' alt' r'|es' e'|]; [exact Hq| | |exact I].
    + destruct Hq as (H1 & H2). split; [exact H1|apply aok_alts; [exact H2|apply aok_some; exact Hp]].
    + destruct (_ <? _); [exact Hq|]. destruct (_ <? _); [exact Hp|]. apply aok_max; [exact Hp|apply aok_some; exact Hq].
Qed.
Lemma lb_or_not {A} (p : pp A) : lb p -> lb (p_or_not p).
Proof.
  intros H b Hb. specialize (H b Hb). unfold p_or_not. destruct (p _); [exact H| |exact I]. split; [exists [], b; split; reflexivity|apply aok_some; exact H].
Qed.
Lemma lb_rep {A} (p : pp A) : lb p -> forall fuel k old es outs alt b0 b, flat (b0 ++ b) -> aok alt ->
  match p_rep fuel p k old es outs alt (b ++ nl :: c) with
  | POk _ _ alt r => (exists b1 b2, b0 ++ b = b1 ++ b2 /\ r = b2 ++ nl :: c) /\ aok alt
  | PErr _ e => S (length c) <= l_rem e
  | PPanic => True
  end.
Proof.
  intros H. induction fuel as [|fuel IH]; intros k old es outs alt b0 b Hb Ha; [exact I|]. cbn [p_rep]. pose proof (H b (flat_app _ _ Hb)) as K. destruct (p _) as [es' v alt' r|es' e|]; [| |exact I].
  - destruct K as ((b1 & b2 & -> & ->) & K). destruct (match old with Some _ => _ | None => _ end); [exact I|].
    rewrite app_assoc in *. apply IH; [exact Hb|apply aok_alts; assumption].
  - destruct (_ <? _); [apply aok_max; assumption|]. split; [exists b0, b; split; reflexivity|apply aok_alts; [exact Ha|apply aok_some; exact K]].
Qed.
Lemma lb_repeated {A} k (p : pp A) : lb p -> lb (p_repeated_at_least k p).
Proof. intros H b Hb. apply (lb_rep p H _ k None [] [] None [] b Hb aok_none). Qed.
Lemma lb_sep {A B} (p : pp A) (q : pp B) : lb p -> lb q -> forall fuel es outs alt b0 b, flat (b0 ++ b) -> aok alt ->
  match p_sep_tail fuel p q es outs alt (b ++ nl :: c) with
  | POk _ _ alt r => (exists b1 b2, b0 ++ b = b1 ++ b2 /\ r = b2 ++ nl :: c) /\ aok alt
  | PErr _ e => S (length c) <= l_rem e
  | PPanic => True
  end.
Proof.
  intros Hp Hq. induction fuel as [|fuel IH]; intros es outs alt b0 b Hb Ha; [exact I|]. cbn [p_sep_tail]. pose proof (Hq b (flat_app _ _ Hb)) as K. destruct (q _) as [es' v alt' r|es' e|]; [| |exact I].
  - destruct K as ((b1 & b2 & -> & ->) & K). assert (Hb' := Hb). rewrite app_assoc in Hb'. pose proof (Hp b2 (flat_app _ _ Hb')) as L. destruct (p _) as [es2 v2 alt2 r2|es2 e2|]; [| |exact I].
    + destruct L as ((b3 & b4 & -> & ->) & L). specialize (IH (es ++ es' ++ es2) (outs ++ [v2]) (merge_alts (merge_alts alt alt') alt2) (b0 ++ b1 ++ b3) b4).
      rewrite <- !app_assoc in IH. apply IH; [exact Hb|]. apply aok_alts; [apply aok_alts; assumption|exact L].
    + split; [exists b0, (b1 ++ b2); split; [reflexivity|rewrite <- ?app_assoc; reflexivity]|]. apply aok_alts; [apply aok_alts; assumption|apply aok_some; exact L].
  - split; [exists b0, b; split; reflexivity|]. apply aok_alts; [exact Ha|apply aok_some; exact K].
Qed.
Lemma lb_separated {A B} (p : pp A) (q : pp B) : lb p -> lb q -> lb (p_separated_by p q).
Proof.
  intros Hp Hq b Hb. unfold p_separated_by. pose proof (Hp b Hb) as K. destruct (p _) as [es v alt r|es e|]; [| |exact I].
  - destruct K as ((b1 & b2 & -> & ->) & K). apply lb_sep; assumption.
  - split; [exists [], b; split; reflexivity|apply aok_some; exact K].
Qed.

Ltac lbo :=
  lazymatch goal with
  | |- lbo (p_then_ignore _ _) => apply lbo_map; apply lbo_then; [eapply lb_one; [one|reflexivity]|lbo]
  | |- lbo (g_type _) => eapply lbo_one; [one|let t := fresh in intros t; destruct t; try discriminate; right; eauto]
  | |- lbo (p_just _ _ ?x) => eapply lbo_one; [one|let t := fresh in let E := fresh in intros t; cbv beta; destruct (token_eqb_spec t x) as [->|]; [intros _|discriminate]; first [left; reflexivity|right; eauto]]
  end.
Ltac lb :=
  lazymatch goal with
  | |- lb (p_map_with_span _ (p_just _ _ _) _) => eapply lb_one; [one|reflexivity]
  | |- lb (p_map_with_span _ _ _) => apply lb_span; lb
  | |- lb (p_map _ _) => apply lb_map; lb
  | |- lb (p_then_ignore _ (p_any _)) => apply lb_map; lb
  | |- lb (p_then_ignore _ _) => apply lb_map; lb
  | |- lb (p_ignore_then _ _) => apply lb_map; lb
  | |- lb (p_delimited_by _ _ _) => unfold p_delimited_by; lb
  | |- lb (p_then _ (p_any _)) => eapply lb_then_any; [lbo|one]
  | |- lb (p_then (p_just _ _ _) (p_none_of _ _ _)) => eapply lb_then_any; [lbo|one]
  | |- lb (p_then _ _) => apply lb_then; lb
  | |- lb (p_or _ _) => apply lb_or; lb
  | |- lb (p_or_not _) => apply lb_or_not; lb
  | |- lb (p_repeated _) => apply lb_repeated; lb
  | |- lb (p_separated_by _ _) => apply lb_separated; lb
  | |- lb (p_rewind _) => eapply lb_rewind; one
  | |- lb (g_nl_ahead _) => eapply lb_rewind; one
  | |- lb (g_skip_to _ _) => unfold g_skip_to; lb
  | |- lb (g_switch_case _) => unfold g_switch_case; lb
  | |- lb (g_phi_entry _) => unfold g_phi_entry; lb
  | |- _ => eapply lb_one; [one|reflexivity]
  end.
Lemma lb_br : lb (g_br eoi). Proof. unfold g_br. lb. Qed.
Lemma lb_condbr : lb (g_condbr eoi). Proof. unfold g_condbr. lb. Qed.
Lemma lb_overflowbr : lb (g_overflowbr eoi). Proof. unfold g_overflowbr. lb. Qed.
Lemma lb_switch : lb (g_switch eoi). Proof. unfold g_switch. lb. Qed.
Lemma lb_phi : lb (g_phi eoi). Proof. unfold g_phi. lb. Qed.
End Line.

Ltac llia := unfold stoken in *; cbn [length] in *; lia.
(** ** Parsers without complaints *)
Definition clean {A} (p : pp A) : Prop := forall s es v alt r, p s = POk es v alt r -> es = [].
Definition pure {A} (p : pp A) : Prop := forall s, match p s with POk es _ _ _ => es = [] | PErr es _ => es = [] | PPanic => True end.
Lemma pure_clean {A} (p : pp A) : pure p -> clean p.
Proof. intros H s es v alt r E. specialize (H s). rewrite E in H. exact H. Qed.
Lemma pure_err {A} (p : pp A) : pure p -> forall s es e, p s = PErr es e -> es = [].
Proof. intros H s es e E. specialize (H s). rewrite E in H. exact H. Qed.
Lemma pure_map {A B} (p : pp A) (g : A -> B) : pure p -> pure (p_map p g).
Proof. intros H s. specialize (H s). unfold p_map. destruct (p s); exact H. Qed.
Lemma pure_span {A B} (p : pp A) (g : A -> span -> B) : pure p -> pure (p_map_with_span eoi p g).
Proof. intros H s. specialize (H s). unfold p_map_with_span. destruct (p s); exact H. Qed.
Lemma pure_then {A B} (p : pp A) (q : pp B) : pure p -> pure q -> pure (p_then p q).
Proof.
  intros Hp Hq s. specialize (Hp s). unfold p_then. destruct (p s) as [es v alt r|es e|]; [|exact Hp|exact I]. specialize (Hq r). destruct (q r); [| |exact I]; rewrite Hp, Hq; reflexivity.
Qed.
Lemma pure_or {A} (p q : pp A) : pure p -> pure q -> pure (p_or p q).
Proof.
  intros Hp Hq s. specialize (Hp s). specialize (Hq s). unfold p_or. destruct (p s) as [es v alt r|es e|]; [rewrite Hp; reflexivity| |exact I].
  destruct (q s) as [es' v' alt' r'|es' e'|]; [rewrite Hq; reflexivity| |exact I]. destruct (_ <? _); [exact Hq|]. destruct (_ <? _); exact Hp.
Qed.
Lemma pure_or_not {A} (p : pp A) : pure p -> pure (p_or_not p).
Proof. intros H s. specialize (H s). unfold p_or_not. destruct (p s); [exact H|reflexivity|exact I]. Qed.
Lemma pure_rewind {A} (p : pp A) : pure p -> pure (p_rewind p).
Proof. intros H s. specialize (H s). unfold p_rewind. destruct (p s); exact H. Qed.
Lemma pure_rep {A} (p : pp A) : pure p -> forall fuel k old outs alt s, match p_rep fuel p k old [] outs alt s with POk es _ _ _ => es = [] | PErr es _ => es = [] | PPanic => True end.
Proof.
  intros H. induction fuel as [|fuel IH]; intros k old outs alt s; [exact I|]. cbn [p_rep]. specialize (H s). destruct (p s) as [es v alt' r|es e|]; [| |exact I].
  - destruct (match old with Some _ => _ | None => _ end); [exact I|]. rewrite H. apply IH.
  - destruct (_ <? _); [exact H|reflexivity].
Qed.
Lemma pure_repeated {A} k (p : pp A) : pure p -> pure (p_repeated_at_least k p).
Proof. intros H s. apply pure_rep. exact H. Qed.
Lemma pure_sep {A B} (p : pp A) (q : pp B) : pure p -> pure q -> forall fuel outs alt s, match p_sep_tail fuel p q [] outs alt s with POk es _ _ _ => es = [] | PErr es _ => es = [] | PPanic => True end.
Proof.
  intros Hp Hq. induction fuel as [|fuel IH]; intros outs alt s; [exact I|]. cbn [p_sep_tail]. specialize (Hq s). destruct (q s) as [es v alt' r|es e|]; [|exact Hq|exact I].
  specialize (Hp r). destruct (p r) as [es2 v2 alt2 r2|es2 e2|]; [| |exact I]; rewrite Hq, Hp; [apply IH|reflexivity].
Qed.
Lemma pure_separated {A B} (p : pp A) (q : pp B) : pure p -> pure q -> pure (p_separated_by p q).
Proof. intros Hp Hq s. unfold p_separated_by. pose proof (Hp s) as H. destruct (p s); [rewrite H; apply pure_sep; assumption|exact H|exact I]. Qed.
Lemma pure_just x : pure (p_just token_eqb eoi x).
Proof. intros [|[y sp] r]; cbn [p_just]; [reflexivity|]. destruct (token_eqb y x); reflexivity. Qed.
Lemma pure_none_of xs : pure (p_none_of token_eqb eoi xs).
Proof. intros [|[y sp] r]; cbn [p_none_of]; [reflexivity|]. destruct (existsb _ _); reflexivity. Qed.
Lemma pure_filter_map {A} (f : span -> token -> A + text) : pure (p_filter_map eoi f).
Proof. intros [|[y sp] r]; cbn [p_filter_map]; [reflexivity|]. destruct (f sp y); reflexivity. Qed.
Lemma pure_any : pure (p_any eoi).
Proof. intros [|[y sp] r]; reflexivity. Qed.
Lemma pure_end : pure (p_end eoi).
Proof. intros [|[y sp] r]; reflexivity. Qed.
Lemma pure_not {A} (p : pp A) : pure (p_not eoi p).
Proof. intros s. unfold p_not. destruct (p s); [reflexivity| |exact I]. destruct s as [|[y sp] r]; reflexivity. Qed.
Ltac pure :=
  lazymatch goal with
  | |- pure (p_map_with_span _ _ _) => apply pure_span; pure
  | |- pure (p_map _ _) => apply pure_map; pure
  | |- pure (p_to _ _) => apply pure_map; pure
  | |- pure (p_then_ignore _ _) => apply pure_map; pure
  | |- pure (p_ignore_then _ _) => apply pure_map; pure
  | |- pure (p_delimited_by _ _ _) => unfold p_delimited_by; pure
  | |- pure (p_then _ _) => apply pure_then; pure
  | |- pure (p_or _ _) => apply pure_or; pure
  | |- pure (p_or_not _) => apply pure_or_not; pure
  | |- pure (p_repeated _) => apply pure_repeated; pure
  | |- pure (p_repeated_at_least _ _) => apply pure_repeated; pure
  | |- pure (p_separated_by _ _) => apply pure_separated; pure
  | |- pure (p_rewind _) => apply pure_rewind; pure
  | |- pure (p_just _ _ _) => apply pure_just
  | |- pure (p_none_of _ _ _) => apply pure_none_of
  | |- pure (p_any _) => apply pure_any
  | |- pure (p_end _) => apply pure_end
  | |- pure (p_not _ _) => apply pure_not
  | |- pure (p_filter_map _ _) => apply pure_filter_map
  | |- pure (?g eoi) => unfold g; pure
  | |- pure (?g eoi _) => unfold g; pure
  end.

(** ** First tokens *)
Definition starts {A} (f : token -> bool) (p : pp A) : Prop := forall (h : stoken) (r : strm), f (fst h) = false -> exists es e, p (h :: r) = PErr es e /\ l_rem e = S (length r).
Lemma starts_one {A} f d ex (p : pp A) : one f d ex p -> starts f p.
Proof. intros H h r E. specialize (H h r). rewrite E in H. destruct H as (e & H & L & _). exists [], e. auto. Qed.
Lemma starts_map {A B} f (p : pp A) (g : A -> B) : starts f p -> starts f (p_map p g).
Proof. intros H h r E. destruct (H h r E) as (es & e & K & L). exists es, e. unfold p_map. rewrite K. auto. Qed.
Lemma starts_then {A B} f (p : pp A) (q : pp B) : starts f p -> starts f (p_then p q).
Proof. intros H h r E. destruct (H h r E) as (es & e & K & L). exists es, e. unfold p_then. rewrite K. auto. Qed.
Lemma starts_or {A} f g (p q : pp A) : starts f p -> starts g q -> starts (fun t => f t || g t) (p_or p q).
Proof.
  intros H K h r E. apply orb_false_iff in E. destruct (H h r (proj1 E)) as (es & e & E1 & L1), (K h r (proj2 E)) as (es' & e' & E2 & L2). unfold p_or. rewrite E1, E2, L1, L2, Nat.ltb_irrefl.
  eexists _, _. split; [reflexivity|]. rewrite max_rem. lia.
Qed.
Ltac starts :=
  lazymatch goal with
  | |- starts _ (p_map _ _) => apply starts_map; starts
  | |- starts _ (p_then_ignore _ _) => apply starts_map; starts
  | |- starts _ (p_ignore_then _ _) => apply starts_map; starts
  | |- starts _ (p_then _ _) => apply starts_then; starts
  | |- _ => eapply starts_one; one
  end.
Lemma starts_gv : starts is_global (g_global_var eoi). Proof. unfold g_global_var. starts. Qed.
Lemma starts_decl : starts (fun t => token_eqb t TDeclare) (g_func_decl eoi). Proof. unfold g_func_decl. starts. Qed.
Lemma starts_def : starts (fun t => token_eqb t TDefine) (g_func_def eoi). Proof. unfold g_func_def. starts. Qed.
Lemma starts_deps : starts is_global (g_func_deps eoi). Proof. unfold g_func_deps. starts. Qed.
Lemma starts_ann : starts is_dbg (g_dbg_annotation eoi). Proof. unfold g_dbg_annotation. starts. Qed.

(** instructions end in front of a line break *)
Definition to_nl {A} (p : pp A) : Prop := forall s es v alt r, p s = POk es v alt r -> exists h q, r = h :: q /\ fst h = TNewline.
Lemma to_nl_ahead {A B} (p : pp A) (g : A -> span -> B) : to_nl (p_map_with_span eoi (p_then_ignore p (g_nl_ahead eoi)) g).
Proof.
  intros s es v alt r E. unfold p_map_with_span, p_then_ignore, p_map, p_then, g_nl_ahead, p_rewind, p_just in E.
  destruct (p s) as [es1 v1 alt1 r1|es1 e1|]; [|discriminate|discriminate]. destruct r1 as [|[y sp] r1]; [discriminate|]. destruct (token_eqb_spec y TNewline) as [->|]; [|discriminate].
  injection E as <- <- <- <-. exists (TNewline, sp), r1. auto.
Qed.
Lemma to_nl_or {A} (p q : pp A) : to_nl p -> to_nl q -> to_nl (p_or p q).
Proof.
  intros Hp Hq s es v alt r E. unfold p_or in E. specialize (Hp s). specialize (Hq s).
  destruct (p s) as [[|y1 es1] v1 alt1 r1|es1 e1|]; [| | |discriminate].
  - injection E as <- <- <- <-. apply (Hp _ _ _ _ eq_refl).
  - destruct (q s) as [[|y2 es2] v2 alt2 r2|es2 e2|]; [injection E as <- <- <- <-; apply (Hq _ _ _ _ eq_refl)| | |discriminate].
    + cbv zeta in E. destruct (_ <? _); injection E as <- <- <- <-; [apply (Hq _ _ _ _ eq_refl)|apply (Hp _ _ _ _ eq_refl)].
    + injection E as <- <- <- <-. apply (Hp _ _ _ _ eq_refl).
  - destruct (q s) as [[|y2 es2] v2 alt2 r2|es2 e2|]; [injection E as <- <- <- <-; apply (Hq _ _ _ _ eq_refl)|injection E as <- <- <- <-; apply (Hq _ _ _ _ eq_refl)| |discriminate].
    destruct (_ <? _); [discriminate|]. destruct (_ <? _); discriminate.
Qed.

(** ** Two texts that agree up to a token *)
Section Far.
Variable t : stoken.
Variables w w' : strm.
Definition srel (s s' : strm) : Prop := exists a, tidy (a ++ [t]) /\ s = a ++ t :: w /\ s' = a ++ t :: w'.
Definition far (alt : option (located token)) : Prop := exists l, alt = Some l /\ l_rem l <= length w.
Definition reach {A} (r : pres token A) : Prop :=
  match r with
  | PPanic => True
  | PErr _ e => l_rem e <= length w
  | POk _ _ alt r => length r <= length w \/ far alt
  end.
Definition erel (e e' : located token) : Prop := length w < l_rem e /\ l_rem e + length w' = l_rem e' + length w.
Definition arel (a a' : option (located token)) : Prop :=
  match a, a' with None, None => True | Some e, Some e' => erel e e' | _, _ => False end.
Definition agree {A} (r r' : pres token A) : Prop :=
  match r, r' with
  | _, PPanic => True
  | POk es _ alt q, POk es' _ alt' q' => (es = [] <-> es' = []) /\ arel alt alt' /\ srel q q'
  | PErr _ e, PErr _ e' => erel e e'
  | _, _ => False
  end.
Definition rel {A} (p : pp A) : Prop := forall s s', srel s s' -> reach (p s) \/ agree (p s) (p s').

Lemma far_l a b : far a -> far (merge_alts a b).
Proof. intros (l & -> & H). exists (loc_max l b). split; [reflexivity|]. rewrite max_rem. destruct b; llia. Qed.
Lemma far_r a b : far b -> far (merge_alts a b).
Proof. intros (l & -> & H). destruct a as [a|]; [|exists l; auto]. exists (loc_max a (Some l)). split; [reflexivity|]. rewrite max_rem. llia. Qed.
Lemma far_some (e : located token) : l_rem e <= length w -> far (Some e).
Proof. intros H. exists e. auto. Qed.
Lemma max_far (e : located token) a : far a -> l_rem (loc_max e a) <= length w.
Proof. intros (l & -> & H). rewrite max_rem. llia. Qed.
Lemma max_le (e : located token) a : l_rem e <= length w -> l_rem (loc_max e a) <= length w.
Proof. intros H. rewrite max_rem. destruct a; llia. Qed.
Lemma erel_max e e' a a' : erel e e' -> arel a a' -> erel (loc_max e a) (loc_max e' a').
Proof. unfold erel. intros [H1 H2] H. rewrite !max_rem. destruct a, a'; try contradiction; [destruct H; llia|llia]. Qed.
Lemma arel_merge a a' b b' : arel a a' -> arel b b' -> arel (merge_alts a b) (merge_alts a' b').
Proof. intros H K. destruct a, a'; try contradiction; [|exact K]. apply erel_max; assumption. Qed.
Lemma srel_len s s' : srel s s' -> length w < length s /\ length s + length w' = length s' + length w.
Proof. intros (a & _ & -> & ->). rewrite !app_length. llia. Qed.

(** behind the token everything counts as looked at *)
Lemma past {A} (p : pp A) (s : strm) : fwd eoi p -> length s <= length w -> reach (p s).
Proof.
  intros H L. specialize (H s). destruct (p s) as [es a alt r|es e|]; [| |exact I].
  - left. destruct H as ((pre & ->) & _). rewrite app_length in L. cbn; llia.
  - destruct H as [H _]. apply place_le in H. cbn; llia.
Qed.

Lemma rel_one {A} f d ex (p : pp A) : one f d ex p -> rel p.
Proof.
  intros H s s' (a & T & -> & ->). destruct a as [|h a]; cbn [app].
  - pose proof (H t w) as K. pose proof (H t w') as K'. destruct (f (fst t)).
    + destruct K as (es & v & -> & _). left. left. apply Nat.le_refl.
    + destruct K as (e & -> & L & _), K' as (e' & -> & L' & _). right. unfold agree, erel. llia.
  - pose proof (H h (a ++ t :: w)) as K. pose proof (H h (a ++ t :: w')) as K'. destruct (f (fst h)).
    + destruct K as (es & v & -> & E), K' as (es' & v' & -> & E'). right. cbn [agree]. split; [rewrite E, E'; reflexivity|]. split; [exact I|].
      exists a. split; [exact (tidy_app_r [h] (a ++ [t]) T)|]. split; reflexivity.
    + destruct K as (e & -> & L & _), K' as (e' & -> & L' & _). right. unfold agree, erel. rewrite L, L', !app_length. llia.
Qed.
Lemma rel_rewind {A} f d ex (p : pp A) : one f d ex p -> rel (p_rewind p).
Proof.
  intros H s s' R. pose proof R as (a & T & -> & ->). right. unfold p_rewind. destruct a as [|h a]; cbn [app] in *.
  - pose proof (H t w) as K. pose proof (H t w') as K'. destruct (f (fst t)).
    + destruct K as (es & v & -> & E), K' as (es' & v' & -> & E'). cbn [agree]. split; [rewrite E, E'; reflexivity|]. split; [exact I|exact R].
    + destruct K as (e & -> & L & _), K' as (e' & -> & L' & _). unfold agree, erel. llia.
  - pose proof (H h (a ++ t :: w)) as K. pose proof (H h (a ++ t :: w')) as K'. destruct (f (fst h)).
    + destruct K as (es & v & -> & E), K' as (es' & v' & -> & E'). cbn [agree]. split; [rewrite E, E'; reflexivity|]. split; [exact I|exact R].
    + destruct K as (e & -> & L & _), K' as (e' & -> & L' & _). unfold agree, erel. rewrite L, L', !app_length. llia.
Qed.
Lemma rel_map {A B} (p : pp A) (g : A -> B) : rel p -> rel (p_map p g).
Proof. intros H s s' R. specialize (H s s' R). unfold p_map. destruct (p s), (p s'); exact H. Qed.
Lemma rel_span {A B} (p : pp A) (g : A -> span -> B) : rel p -> rel (p_map_with_span eoi p g).
Proof. intros H s s' R. specialize (H s s' R). unfold p_map_with_span. destruct (p s), (p s'); exact H. Qed.
Lemma nil_app {A} (a b : list A) : a ++ b = [] <-> a = [] /\ b = [].
Proof. split; [apply app_eq_nil|intros [-> ->]; reflexivity]. Qed.
Lemma rel_then {A B} (p : pp A) (q : pp B) : rel p -> fwd eoi q -> rel q -> rel (p_then p q).
Proof.
  intros Hp Fq Hq s s' R. specialize (Hp s s' R). unfold p_then. destruct (p s) as [es v alt r|es e|]; [| |left; exact I].
  - destruct Hp as [[L|L]|Ha].
    + left. pose proof (past q r Fq L) as P. destruct (q r) as [es2 v2 alt2 r2|es2 e2|]; [destruct P as [P|P]; [left; exact P|right; apply far_r; exact P]|apply max_le; exact P|exact I].
    + left. destruct (q r) as [es2 v2 alt2 r2|es2 e2|]; [right; apply far_l; exact L|apply max_far; exact L|exact I].
    + destruct (p s') as [es' v' alt' r'|es' e'|]; [|contradiction|right; destruct (q r); exact I]. destruct Ha as (E & Al & Rr). specialize (Hq r r' Rr).
      destruct (q r) as [es2 v2 alt2 r2|es2 e2|]; [| |left; exact I].
      * destruct Hq as [[P|P]|P]; [left; left; exact P|left; right; apply far_r; exact P|]. right.
        destruct (q r') as [es2' v2' alt2' r2'|es2' e2'|]; [|contradiction|exact I]. destruct P as (E2 & Al2 & R2). cbn [agree]. split; [rewrite !nil_app; tauto|]. split; [apply arel_merge; assumption|exact R2].
      * destruct Hq as [P|P]; [left; apply max_le; exact P|]. right. destruct (q r') as [es2' v2' alt2' r2'|es2' e2'|]; [contradiction| |exact I]. apply erel_max; assumption.
  - destruct Hp as [L|Ha]; [left; exact L|]. right. destruct (p s') as [es' v' alt' r'|es' e'|]; [contradiction|exact Ha|exact I].
Qed.
Lemma rel_or_not {A} (p : pp A) : rel p -> rel (p_or_not p).
Proof.
  intros H s s' R. specialize (H s s' R). unfold p_or_not. destruct (p s) as [es v alt r|es e|]; [| |left; exact I].
  - destruct H as [L|H]; [left; exact L|]. right. destruct (p s'); [exact H|contradiction|exact I].
  - destruct H as [L|H]; [left; right; apply far_some; exact L|]. right. destruct (p s'); [contradiction| |exact I]. split; [tauto|]. split; [exact H|exact R].
Qed.
Lemma rel_or {A} (p q : pp A) : rel p -> rel q -> clean p \/ clean q ->
  (forall a v alt r, tidy (a ++ [t]) -> p (a ++ t :: w) <> PPanic -> reach (p (a ++ t :: w)) -> q (a ++ t :: w) = POk [] v alt r -> reach (q (a ++ t :: w))) ->
  rel (p_or p q).
Proof.
  intros Hp Hq C S s s' R. pose proof (Hp s s' R) as Kp. pose proof (Hq s s' R) as Kq.
  assert (Sq : forall v alt r, p s <> PPanic -> reach (p s) -> q s = POk [] v alt r -> reach (q s)) by (destruct R as (a & T & -> & _); intros v alt r; apply S; exact T).
  assert (Cp : clean p \/ clean q) by exact C. clear S Hp Hq.
  unfold p_or. destruct (p s) as [[|y es] v alt r|es e|] eqn:Ep; [| | |left; exact I].
  - destruct Kp as [L|Ha]; [left; exact L|]. right. destruct (p s') as [es' v' alt' r'|es' e'|]; [|contradiction|exact I].
    destruct es' as [|y' es']; [exact Ha|]. destruct Ha as ((E & _) & _). discriminate (E eq_refl).
  - destruct C as [C|C]; [discriminate (C _ _ _ _ _ Ep)|].
    destruct (q s) as [[|y2 es2] v2 alt2 r2|es2 e2|] eqn:Eq; [|discriminate (C _ _ _ _ _ Eq)| |left; exact I].
    + destruct Kp as [L|Ha]; [left; refine (Sq v2 alt2 r2 _ L eq_refl); discriminate|]. destruct Kq as [L|Kq]; [left; exact L|]. right.
      destruct (p s') as [[|y' es'] v' alt' r'|es' e'|]; [destruct Ha as ((_ & E) & _); discriminate (E eq_refl)| |contradiction|exact I].
      destruct (q s') as [[|y2' es2'] v2' alt2' r2'|es2' e2'|]; [exact Kq|destruct Kq as ((E & _) & _); discriminate (E eq_refl)|contradiction|exact I].
    + destruct Kp as [[L|L]|Ha]; [left; left; exact L|left; right; apply far_l; exact L|]. destruct Kq as [L|Kq]; [left; right; apply far_r, far_some; exact L|]. right.
      destruct (p s') as [[|y' es'] v' alt' r'|es' e'|]; [destruct Ha as ((_ & E) & _); discriminate (E eq_refl)| |contradiction|exact I].
      destruct (q s') as [[|y2' es2'] v2' alt2' r2'|es2' e2'|]; [contradiction|contradiction| |exact I].
      destruct Ha as (E & Al & Rr). split; [split; discriminate|]. split; [apply arel_merge; [exact Al|exact Kq]|exact Rr].
  - destruct (q s) as [[|y2 es2] v2 alt2 r2|es2 e2|] eqn:Eq; [| | |left; exact I].
    + destruct Kp as [L|Ha]; [left; refine (Sq v2 alt2 r2 _ L eq_refl); discriminate|]. destruct Kq as [L|Kq]; [left; exact L|]. right.
      destruct (p s') as [es' v' alt' r'|es' e'|]; [contradiction| |exact I].
      destruct (q s') as [[|y2' es2'] v2' alt2' r2'|es2' e2'|]; [exact Kq|destruct Kq as ((E & _) & _); discriminate (E eq_refl)|contradiction|exact I].
    + destruct Kp as [L|Ha]; [left; right; apply far_r, far_some; exact L|]. destruct Kq as [[L|L]|Kq]; [left; left; exact L|left; right; apply far_l; exact L|]. right.
      destruct (p s') as [es' v' alt' r'|es' e'|]; [contradiction| |exact I].
      destruct (q s') as [[|y2' es2'] v2' alt2' r2'|es2' e2'|]; [destruct Kq as ((_ & E) & _); discriminate (E eq_refl)| |contradiction|exact I].
      destruct Kq as (E & Al & Rr). split; [split; discriminate|]. split; [apply arel_merge; [exact Al|exact Ha]|exact Rr].
    + destruct Kp as [L|Ha].
      { left. destruct (Nat.ltb_spec (l_rem e2) (l_rem e)); [cbn in *; llia|]. destruct (Nat.ltb_spec (l_rem e) (l_rem e2)); [exact L|]. apply max_le. exact L. }
      destruct Kq as [L|Kq].
      { left. cbn [reach] in L. destruct (Nat.ltb_spec (l_rem e2) (l_rem e)); [exact L|]. destruct (Nat.ltb_spec (l_rem e) (l_rem e2)); [cbn [reach]; llia|]. apply max_le. llia. }
      right. destruct (p s') as [es' v' alt' r'|es' e'|]; [contradiction| |destruct (_ <? _); [exact I|destruct (_ <? _); exact I]].
      destruct (q s') as [[|y2' es2'] v2' alt2' r2'|es2' e2'|]; [contradiction|contradiction| |destruct (_ <? _); [exact I|destruct (_ <? _); exact I]].
      cbn [agree] in Ha, Kq. pose proof (erel_max e e' (Some e2) (Some e2') Ha Kq) as M. destruct Ha as [A1 A2], Kq as [B1 B2].
      destruct (Nat.ltb_spec (l_rem e2) (l_rem e)), (Nat.ltb_spec (l_rem e2') (l_rem e')); try llia; [split; assumption|].
      destruct (Nat.ltb_spec (l_rem e) (l_rem e2)), (Nat.ltb_spec (l_rem e') (l_rem e2')); try llia; [split; assumption|]. exact M.
Qed.

Lemma rep_past {A} (p : pp A) : fwd eoi p -> forall fuel k old es outs alt (s : strm), length s <= length w \/ far alt -> reach (p_rep fuel p k old es outs alt s).
Proof.
  intros F. induction fuel as [|fuel IH]; intros k old es outs alt s H; [exact I|]. cbn [p_rep]. pose proof (F s) as K. destruct (p s) as [es' v alt' r|es' e|]; [| |exact I].
  - destruct (match old with Some _ => _ | None => _ end); [exact I|]. apply IH. destruct H as [H|H]; [|right; apply far_l; exact H].
    left. destruct K as ((pre & ->) & _). rewrite app_length in H. llia.
  - destruct K as [K _]. apply place_le in K. destruct H as [H|H].
    + destruct (_ <? _); [apply max_le; llia|]. left. exact H.
    + destruct (_ <? _); [apply max_far; exact H|]. right. apply far_l. exact H.
Qed.
Lemma rel_rep {A} (p : pp A) : fwd eoi p -> rel p -> forall k fuel fuel' old old' es es' outs outs' alt alt' s s', srel s s' -> arel alt alt' -> (es = [] <-> es' = []) -> length outs = length outs' ->
  match old, old' with Some m, Some m' => m + length w' = m' + length w | None, None => True | _, _ => False end ->
  reach (p_rep fuel p k old es outs alt s) \/ agree (p_rep fuel p k old es outs alt s) (p_rep fuel' p k old' es' outs' alt' s').
Proof.
  intros F H k. induction fuel as [|fuel IH]; intros fuel' old old' es es' outs outs' alt alt' s s' R Al E O Od; [left; exact I|].
  destruct fuel' as [|fuel']; [right; cbn [p_rep]; destruct (match p s with POk _ _ _ _ => _ | PErr _ _ => _ | PPanic => _ end); exact I|].
  cbn [p_rep]. pose proof (H s s' R) as K. destruct (p s) as [es2 v alt2 r|es2 e|]; [| |left; exact I].
  - destruct (match old with Some _ => _ | None => _ end) eqn:Oe; [left; exact I|]. destruct K as [K|K].
    { left. apply rep_past; [exact F|]. destruct K as [K|K]; [left; exact K|right; apply far_r; exact K]. }
    destruct (p s') as [es2' v' alt2' r'|es2' e'|]; [|contradiction|right; destruct (p_rep _ _ _ _ _ _ _ _); exact I]. destruct K as (E2 & Al2 & R2). pose proof (srel_len _ _ R2) as L2.
    replace (match old' with Some m => m =? length r' | None => false end) with false.
    { apply IH; [exact R2|apply arel_merge; assumption|rewrite !nil_app; tauto|rewrite !app_length; cbn [length]; lia|llia]. }
    destruct old, old'; try contradiction; [|reflexivity]. symmetry. apply Nat.eqb_neq. apply Nat.eqb_neq in Oe. llia.
  - rewrite O. destruct K as [K|K].
    { left. cbn [reach] in K. destruct (_ <? _); [apply max_le; exact K|]. right. apply far_r, far_some. exact K. }
    destruct (p s') as [es2' v' alt2' r'|es2' e'|]; [contradiction| |right; destruct (_ <? _); exact I]. right.
    destruct (_ <? _); [apply erel_max; assumption|]. split; [exact E|]. split; [apply arel_merge; [exact Al|exact K]|exact R].
Qed.
Lemma rel_repeated {A} k (p : pp A) : fwd eoi p -> rel p -> rel (p_repeated_at_least k p).
Proof. intros F H s s' R. unfold p_repeated_at_least. apply rel_rep; try assumption; try exact I; tauto. Qed.
Lemma sep_past {A B} (p : pp A) (q : pp B) : fwd eoi p -> fwd eoi q -> forall fuel es outs alt (s : strm), length s <= length w \/ far alt -> reach (p_sep_tail fuel p q es outs alt s).
Proof.
  intros Fp Fq. induction fuel as [|fuel IH]; intros es outs alt s H; [exact I|]. cbn [p_sep_tail]. pose proof (Fq s) as K. destruct (q s) as [es' v alt' r|es' e|]; [| |exact I].
  - destruct K as ((pre & ->) & _). pose proof (Fp r) as L. destruct (p r) as [es2 v2 alt2 r2|es2 e2|]; [| |exact I].
    + destruct L as ((pre2 & ->) & _). apply IH. destruct H as [H|H]; [left; rewrite !app_length in H; llia|right; apply far_l, far_l; exact H].
    + destruct H as [H|H]; [left; exact H|right; apply far_l, far_l; exact H].
  - destruct H as [H|H]; [left; exact H|right; apply far_l; exact H].
Qed.
Lemma rel_sep {A B} (p : pp A) (q : pp B) : fwd eoi p -> fwd eoi q -> rel p -> rel q -> clean p -> clean q -> (forall s es e, p s = PErr es e -> es = []) -> (forall s es e, q s = PErr es e -> es = []) ->
  forall fuel fuel' es es' outs outs' alt alt' s s', srel s s' -> arel alt alt' -> (es = [] <-> es' = []) ->
  reach (p_sep_tail fuel p q es outs alt s) \/ agree (p_sep_tail fuel p q es outs alt s) (p_sep_tail fuel' p q es' outs' alt' s').
Proof.
  intros Fp Fq Hp Hq Cp Cq Dp Dq. induction fuel as [|fuel IH]; intros fuel' es es' outs outs' alt alt' s s' R Al E; [left; exact I|].
  destruct fuel' as [|fuel']; [right; cbn [p_sep_tail]; destruct (match q s with POk _ _ _ _ => _ | PErr _ _ => _ | PPanic => _ end); exact I|].
  cbn [p_sep_tail]. pose proof (Hq s s' R) as K. destruct (q s) as [es2 v alt2 r|es2 e|] eqn:Q; [| |left; exact I].
  - assert (es2 = []) as -> by (apply (Cq _ _ _ _ _ Q)). destruct K as [K|K].
    { left. destruct K as [K|K].
      - pose proof (past p r Fp K) as P. pose proof (Fp r) as FF. destruct (p r) as [es3 v3 alt3 r3|es3 e3|]; [| |exact I].
        + apply sep_past; [exact Fp|exact Fq|]. left. destruct FF as ((pre & ->) & _). rewrite app_length in K. llia.
        + right. apply far_r, far_some. exact P.
      - destruct (p r) as [es3 v3 alt3 r3|es3 e3|]; [| |exact I].
        + apply sep_past; [exact Fp|exact Fq|]. right. apply far_l, far_r. exact K.
        + right. apply far_l, far_r. exact K. }
    destruct (q s') as [es2' v' alt2' r'|es2' e'|] eqn:Q'; [|contradiction|right; destruct (p r) as [? ? ? ?| |]; [destruct (p_sep_tail _ _ _ _ _ _ _)| |]; exact I].
    assert (es2' = []) as -> by (apply (Cq _ _ _ _ _ Q')). destruct K as (_ & Al2 & R2). pose proof (Hp r r' R2) as L.
    destruct (p r) as [es3 v3 alt3 r3|es3 e3|] eqn:P; [| |left; exact I].
    + assert (es3 = []) as -> by (apply (Cp _ _ _ _ _ P)). destruct L as [L|L].
      { left. apply sep_past; [exact Fp|exact Fq|]. destruct L as [L|L]; [left; exact L|right; apply far_r; exact L]. }
      destruct (p r') as [es3' v3' alt3' r3'|es3' e3'|] eqn:P'; [|contradiction|right; destruct (p_sep_tail _ _ _ _ _ _ _); exact I].
      assert (es3' = []) as -> by (apply (Cp _ _ _ _ _ P')). destruct L as (_ & Al3 & R3). apply IH; [exact R3|apply arel_merge; [apply arel_merge; assumption|exact Al3]|rewrite !app_nil_r; exact E].
    + assert (es3 = []) as -> by (apply (Dp _ _ _ P)). destruct L as [L|L]; [left; right; apply far_r, far_some; exact L|]. right.
      destruct (p r') as [es3' v3' alt3' r3'|es3' e3'|] eqn:P'; [contradiction| |exact I]. assert (es3' = []) as -> by (apply (Dp _ _ _ P')).
      split; [rewrite !app_nil_r; exact E|]. split; [apply arel_merge; [apply arel_merge; assumption|exact L]|exact R].
  - assert (es2 = []) as -> by (apply (Dq _ _ _ Q)). destruct K as [K|K]; [left; right; apply far_r, far_some; exact K|]. right.
    destruct (q s') as [es2' v' alt2' r'|es2' e'|] eqn:Q'; [contradiction| |exact I]. assert (es2' = []) as -> by (apply (Dq _ _ _ Q')).
    split; [rewrite !app_nil_r; exact E|]. split; [apply arel_merge; [exact Al|exact K]|exact R].
Qed.
Lemma rel_separated {A B} (p : pp A) (q : pp B) : fwd eoi p -> fwd eoi q -> rel p -> rel q -> clean p -> clean q -> (forall s es e, p s = PErr es e -> es = []) -> (forall s es e, q s = PErr es e -> es = []) ->
  rel (p_separated_by p q).
Proof.
  intros Fp Fq Hp Hq Cp Cq Dp Dq s s' R. unfold p_separated_by. pose proof (Hp s s' R) as K. destruct (p s) as [es v alt r|es e|] eqn:P; [| |left; exact I].
  - destruct K as [K|K].
    { left. apply sep_past; [exact Fp|exact Fq|]. exact K. }
    destruct (p s') as [es' v' alt' r'|es' e'|] eqn:P'; [|contradiction|right; destruct (p_sep_tail _ _ _ _ _ _ _); exact I]. destruct K as (E & Al & R2). apply rel_sep; assumption.
  - destruct K as [K|K]; [left; right; apply far_some; exact K|]. right. destruct (p s') as [es' v' alt' r'|es' e'|] eqn:P'; [contradiction| |exact I].
    rewrite (Dp _ _ _ P), (Dp _ _ _ P'). split; [tauto|]. split; [exact K|exact R].
Qed.

(** ** The grammar *)
Lemma first_newline (l : strm) : Forall (fun y : stoken => fst y <> TNewline) l \/ exists b nl d, l = b ++ nl :: d /\ fst nl = TNewline /\ Forall (fun y : stoken => fst y <> TNewline) b.
Proof.
  induction l as [|y l IH]; [left; constructor|]. destruct (token_eqb_spec (fst y) TNewline) as [E|E]; [right; exists [], y, l; auto|].
  destruct IH as [IH|(b & nl & d & -> & E1 & E2)]; [left; constructor; assumption|]. right. exists (y :: b), nl, d. auto.
Qed.
Lemma side_instr {A} (p q : pp A) : (forall nl c, fst nl = TNewline -> lb nl c p) -> to_nl q -> fwd eoi q ->
  forall a v alt r, tidy (a ++ [t]) -> p (a ++ t :: w) <> PPanic -> reach (p (a ++ t :: w)) -> q (a ++ t :: w) = POk [] v alt r -> reach (q (a ++ t :: w)).
Proof.
  intros Lp Nq Fq a v alt r T Np Rp E. destruct (first_newline (a ++ [t])) as [F|(b & nl & d & Eb & En & F)].
  - destruct (Nq _ _ _ _ _ E) as (h & q0 & -> & Eh). pose proof (Fq (a ++ t :: w)) as K. rewrite E in K |- *. destruct K as ((pre & K) & _). left.
    destruct (Nat.le_gt_cases (length (h :: q0)) (length w)) as [L|L]; [exact L|]. exfalso.
    assert (In h (a ++ [t])).
    { assert (K' : (a ++ [t]) ++ w = pre ++ h :: q0) by (rewrite <- app_assoc; exact K). clear K. revert pre K' L. generalize (a ++ [t]) as l. induction l as [|y l IH]; intros pre K L.
      - apply (f_equal (@length _)) in K. rewrite !app_length in K. llia.
      - destruct pre as [|y' pre]; [injection K as <- _; left; reflexivity|]. injection K as _ K. right. apply (IH pre K L). }
    rewrite Forall_forall in F. exact (F _ H Eh).
  - exfalso. assert (Es : a ++ t :: w = b ++ nl :: (d ++ w)).
    { transitivity ((a ++ [t]) ++ w); [rewrite <- app_assoc; reflexivity|]. rewrite Eb, <- app_assoc. reflexivity. }
    assert (Fl : flat nl b) by (split; [exact F|]; rewrite Eb in T; apply (tidy_app_l (b ++ [nl]) d); rewrite <- app_assoc; exact T).
    pose proof (Lp nl (d ++ w) En b Fl) as K. rewrite Es in Rp, Np. destruct (p (b ++ nl :: d ++ w)) as [es1 v1 alt1 r1|es1 e1|].
    + destruct K as ((b1 & b2 & _ & ->) & Ka). destruct Rp as [L|(l & El & L)]; [rewrite !app_length in L; cbn [length] in L; rewrite app_length in L; llia|].
      specialize (Ka l El). rewrite app_length in Ka. llia.
    + cbn [reach] in Rp. rewrite app_length in K. llia.
    + apply Np. reflexivity.
Qed.

Lemma rel_skip word : rel (g_skip_to eoi word).
Proof.
  unfold g_skip_to. apply rel_repeated; [fwd|]. apply rel_or; [eapply rel_one; one|apply rel_map; apply rel_then; [eapply rel_one; one|fwd|eapply rel_one; one]|left; apply pure_clean; pure|].
  intros a v alt r T N R E. destruct a as [|h a]; cbn [app] in *.
  - unfold p_then_ignore, p_map, p_then in E |- *. pose proof (one_just (TPunct (ch ",")) t w) as K. cbv beta in K. destruct (token_eqb (fst t) _).
    + destruct K as (es & v1 & K & _). rewrite K in E |- *. pose proof (past (p_none_of token_eqb eoi [TIdent word]) w (fwd_none_of eoi _) (Nat.le_refl _)) as P.
      destruct (p_none_of _ _ _ w) as [es2 v2 alt2 r2|es2 e2|]; [|discriminate|discriminate]. destruct P as [P|P]; [left; exact P|right; apply far_r; exact P].
    + destruct K as (e & K & _). rewrite K in E. discriminate.
  - exfalso. pose proof (one_none_of [TPunct (ch ","); TNewline] h (a ++ t :: w)) as K. cbv beta in K. destruct (negb _) eqn:B.
    + destruct K as (es & v1 & K & _). rewrite K in R. destruct R as [R|(l & R & _)]; [|discriminate]. rewrite app_length in R. llia.
    + destruct K as (e & K & L & _). rewrite K in R. cbn [reach] in R. rewrite L, app_length in R. llia.
Qed.
Ltac rel :=
  lazymatch goal with
  | |- rel (p_map_with_span _ (p_just _ _ _) _) => eapply rel_one; one
  | |- rel (p_map_with_span _ (p_none_of _ _ _) _) => eapply rel_one; one
  | |- rel (p_map_with_span _ _ _) => apply rel_span; rel
  | |- rel (p_map _ _) => apply rel_map; rel
  | |- rel (p_then_ignore _ _) => apply rel_map; rel
  | |- rel (p_ignore_then _ _) => apply rel_map; rel
  | |- rel (p_delimited_by _ _ _) => unfold p_delimited_by; rel
  | |- rel (p_padded_by _ _) => unfold p_padded_by; rel
  | |- rel (p_then _ _) => apply rel_then; [rel|fwd|rel]
  | |- rel (p_or_not _) => apply rel_or_not; rel
  | |- rel (p_repeated _) => apply rel_repeated; [fwd|rel]
  | |- rel (p_repeated_at_least _ _) => apply rel_repeated; [fwd|rel]
  | |- rel (p_separated_by _ _) => apply rel_separated; [fwd|fwd|rel|rel|apply pure_clean; pure|apply pure_clean; pure|apply pure_err; pure|apply pure_err; pure]
  | |- rel (p_rewind _) => eapply rel_rewind; one
  | |- rel (g_nl_ahead _) => eapply rel_rewind; one
  | |- rel (g_skip_to _ _) => apply rel_skip
  | |- rel (g_switch_case _) => unfold g_switch_case; rel
  | |- rel (g_phi_entry _) => unfold g_phi_entry; rel
  | |- rel (g_token_soup _) => unfold g_token_soup; rel
  | |- rel (g_nls _) => unfold g_nls; rel
  | |- rel (g_nls1 _) => unfold g_nls1; rel
  | |- rel (g_func_signature _) => unfold g_func_signature; rel
  | |- rel (g_func_args _) => unfold g_func_args; rel
  | |- rel (g_func_arg _) => unfold g_func_arg; rel
  | |- rel (g_func_addr _) => unfold g_func_addr; rel
  | |- rel (g_instruction _) => idtac
  | |- rel (g_func_body _) => idtac
  | |- _ => eapply rel_one; one
  end.
Lemma rel_br : rel (g_br eoi). Proof. unfold g_br. rel. Qed.
Lemma rel_condbr : rel (g_condbr eoi). Proof. unfold g_condbr. rel. Qed.
Lemma rel_overflowbr : rel (g_overflowbr eoi). Proof. unfold g_overflowbr. rel. Qed.
Lemma rel_switch : rel (g_switch eoi). Proof. unfold g_switch, g_switch_case. rel. Qed.
Lemma rel_phi : rel (g_phi eoi). Proof. unfold g_phi, g_phi_entry. rel. Qed.
Lemma rel_any : rel (g_any_instr eoi). Proof. unfold g_any_instr. rel. Qed.
Lemma rel_alternatives : rel (g_instr_alternatives eoi).
Proof.
  unfold g_instr_alternatives.
  assert (L1 : forall nl c, fst nl = TNewline -> lb nl c (p_or (g_br eoi) (g_condbr eoi))) by (intros nl c H; apply lb_or; [apply lb_br|apply lb_condbr]; exact H).
  assert (L2 : forall nl c, fst nl = TNewline -> lb nl c (p_or (p_or (g_br eoi) (g_condbr eoi)) (g_overflowbr eoi))) by (intros nl c H; apply lb_or; [apply L1|apply lb_overflowbr]; exact H).
  assert (L3 : forall nl c, fst nl = TNewline -> lb nl c (p_or (p_or (p_or (g_br eoi) (g_condbr eoi)) (g_overflowbr eoi)) (g_switch eoi))) by (intros nl c H; apply lb_or; [apply L2|apply lb_switch]; exact H).
  assert (L4 : forall nl c, fst nl = TNewline -> lb nl c (p_or (p_or (p_or (p_or (g_br eoi) (g_condbr eoi)) (g_overflowbr eoi)) (g_switch eoi)) (g_phi eoi))) by (intros nl c H; apply lb_or; [apply L3|apply lb_phi]; exact H).
  apply rel_or; [apply rel_or; [apply rel_or; [apply rel_or; [apply rel_or|..]|..]|..]|..].
  - apply rel_br.
  - apply rel_condbr.
  - left. apply pure_clean. pure.
  - apply side_instr; [intros nl c H; apply lb_br; exact H|apply to_nl_ahead|unfold g_condbr; fwd].
  - apply rel_overflowbr.
  - left. apply pure_clean. pure.
  - apply side_instr; [exact L1|apply to_nl_ahead|unfold g_overflowbr; fwd].
  - apply rel_switch.
  - right. apply pure_clean. pure.
  - apply side_instr; [exact L2|apply to_nl_ahead|unfold g_switch, g_switch_case; fwd].
  - apply rel_phi.
  - right. apply pure_clean. pure.
  - apply side_instr; [exact L3|apply to_nl_ahead|unfold g_phi, g_phi_entry; fwd].
  - apply rel_any.
  - right. apply pure_clean. pure.
  - apply side_instr; [exact L4|apply to_nl_ahead|unfold g_any_instr; fwd].
Qed.

Lemma rel_instruction : rel (g_instruction eoi).
Proof.
  unfold g_instruction. apply rel_span. apply rel_then; [rel|apply fwd_alternatives|apply rel_alternatives].
Qed.
Lemma fwd_padded : fwd eoi (p_padded_by (g_instruction eoi) (g_nls eoi)).
Proof. fwd. apply fwd_instruction. Qed.
Lemma rel_padded : rel (p_padded_by (g_instruction eoi) (g_nls eoi)).
Proof. unfold p_padded_by. apply rel_map. apply rel_then; [apply rel_map; apply rel_then; [rel|apply fwd_instruction|apply rel_instruction]|fwd|rel]. Qed.
Lemma fwd_block : fwd eoi (g_basic_block eoi).
Proof. unfold g_basic_block. fwd. apply fwd_instruction. Qed.
Lemma rel_block : rel (g_basic_block eoi).
Proof.
  unfold g_basic_block. apply rel_map. apply rel_then; [rel|apply fwd_repeated, fwd_padded|]. apply rel_repeated; [apply fwd_padded|apply rel_padded].
Qed.
Lemma rel_body : rel (g_func_body eoi).
Proof.
  unfold g_func_body. apply rel_map. apply rel_then; [|fwd|rel]. apply rel_then; [|apply fwd_repeated, fwd_block|apply rel_repeated; [apply fwd_block|apply rel_block]].
  apply rel_then; [rel|apply fwd_or_not, fwd_map, fwd_repeated, fwd_padded|]. apply rel_or_not, rel_map. apply rel_repeated; [apply fwd_padded|apply rel_padded].
Qed.
Lemma rel_gv : rel (g_global_var eoi). Proof. unfold g_global_var. rel. Qed.
Lemma rel_decl : rel (g_func_decl eoi). Proof. unfold g_func_decl, g_func_addr. rel. Qed.
Lemma rel_def : rel (g_func_def eoi).
Proof. unfold g_func_def. apply rel_map, rel_map. apply rel_then; [|fwd|rel]. apply rel_then; [rel|apply fwd_body|apply rel_body]. Qed.
Lemma rel_deps : rel (g_func_deps eoi). Proof. unfold g_func_deps. rel. Qed.
Lemma rel_ann : rel (g_dbg_annotation eoi). Proof. unfold g_dbg_annotation. rel. Qed.

(** alternatives that start with different tokens *)
Lemma side_starts {A} f g (p q : pp A) : starts f p -> starts g q -> (forall x, g x = true -> f x = false) ->
  forall a v alt r, tidy (a ++ [t]) -> p (a ++ t :: w) <> PPanic -> reach (p (a ++ t :: w)) -> q (a ++ t :: w) = POk [] v alt r -> reach (q (a ++ t :: w)).
Proof.
  intros Hp Hq D a v alt r T N R E. exfalso. assert (X : exists h l, a ++ t :: w = h :: l /\ length w <= length l).
  { destruct a as [|h a]; [exists t, w; auto|]. exists h, (a ++ t :: w). split; [reflexivity|]. rewrite app_length. llia. }
  destruct X as (h & l & X & L). rewrite X in *. destruct (g (fst h)) eqn:G.
  - destruct (Hp h l (D _ G)) as (es & e & K & Le). rewrite K in R. cbn [reach] in R. llia.
  - destruct (Hq h l G) as (es & e & K & _). rewrite K in E. discriminate.
Qed.
Lemma deps_two (s : strm) v alt r : g_func_deps eoi s = POk [] v alt r ->
  exists h h2 q, s = h :: h2 :: q /\ is_global (fst h) = true /\ fst h2 = TIdent (str "depends") /\ length r <= length q.
Proof.
  intros E. unfold g_func_deps, p_then_ignore, p_map in E. destruct s as [|h s]; [discriminate|]. unfold p_then at 1 2 3 in E.
  pose proof (one_global h s) as K. destruct (is_global (fst h)) eqn:G; [|destruct K as (e & K & _); rewrite K in E; discriminate]. destruct K as (es & v1 & K & _). rewrite K in E. clear K.
  destruct s as [|h2 s]; [discriminate|]. pose proof (one_just (TIdent (str "depends")) h2 s) as K. cbv beta in K. destruct (token_eqb_spec (fst h2) (TIdent (str "depends"))) as [D|D]; [|destruct K as (e & K & _); rewrite K in E; discriminate].
  destruct K as (es2 & v2 & K & _). rewrite K in E. clear K. exists h, h2, s. split; [reflexivity|]. split; [exact G|]. split; [exact D|].
  pose proof (fwd_just eoi (TIdent (str "on")) s) as K. destruct (p_just token_eqb eoi (TIdent (str "on")) s) as [es3 v3 alt3 r3|es3 e3|]; [|discriminate|discriminate]. destruct K as ((pre & K) & _).
  pose proof (fwd_separated eoi _ _ (fwd_global eoi) (fwd_just eoi (TPunct (ch ","))) r3) as M. destruct (p_separated_by _ _ r3) as [es4 v4 alt4 r4|es4 e4|]; [|discriminate|discriminate].
  destruct M as ((pre4 & M) & _). injection E as _ _ _ <-. subst s r3. rewrite !app_length. llia.
Qed.
Lemma gv_second (h h2 : stoken) (q : strm) : is_global (fst h) = true -> fst h2 <> TPunct (ch "=") -> exists e, g_global_var eoi (h :: h2 :: q) = PErr [] e /\ l_rem e = S (length q).
Proof.
  intros G D. unfold g_global_var, p_then_ignore, p_map, p_then. pose proof (one_global h (h2 :: q)) as K. rewrite G in K. destruct K as (es & v1 & K & X). rewrite K. rewrite (proj2 X eq_refl).
  pose proof (one_just (TPunct (ch "=")) h2 q) as K2. cbv beta in K2. destruct (token_eqb_spec (fst h2) (TPunct (ch "="))) as [Y|_]; [contradiction|]. destruct K2 as (e & K2 & L & _). rewrite K2. exists e. split; [reflexivity|exact L].
Qed.
Lemma side_deps : let p := p_or (p_or (g_global_var eoi) (g_func_decl eoi)) (g_func_def eoi) in
  forall a v alt r, tidy (a ++ [t]) -> p (a ++ t :: w) <> PPanic -> reach (p (a ++ t :: w)) -> g_func_deps eoi (a ++ t :: w) = POk [] v alt r -> reach (g_func_deps eoi (a ++ t :: w)).
Proof.
  intros p a v alt r T N R E. destruct (deps_two _ _ _ _ E) as (h & h2 & q & Es & G & D & L). destruct a as [|h' a]; cbn [app] in *.
  - rewrite E. left. injection Es as _ Ew. rewrite Ew. llia.
  - exfalso. assert (Lq : length w <= length q).
    { injection Es as _ Ew. apply (f_equal (@length _)) in Ew. rewrite app_length in Ew. llia. }
    rewrite Es in R. destruct (gv_second h h2 q G) as (e & K & Le); [rewrite D; discriminate|].
    assert (G' : token_eqb (fst h) TDeclare = false /\ token_eqb (fst h) TDefine = false) by (destruct (fst h); try discriminate; split; reflexivity).
    destruct (starts_decl h (h2 :: q) (proj1 G')) as (es1 & e1 & K1 & L1). destruct (starts_def h (h2 :: q) (proj2 G')) as (es2 & e2 & K2 & L2).
    unfold p, p_or in R. rewrite K, K1, K2 in R. cbn [length] in L1, L2. rewrite L1, Le in R. destruct (Nat.ltb_spec (S (S (length q))) (S (length q))); [lia|]. destruct (Nat.ltb_spec (S (length q)) (S (S (length q)))); [|lia].
    rewrite L2, Le in R. destruct (Nat.ltb_spec (S (S (length q))) (S (length q))); [lia|]. destruct (Nat.ltb_spec (S (length q)) (S (S (length q)))); [|lia]. cbn [reach] in R. llia.
Qed.
Lemma rel_statement : rel (g_statement eoi).
Proof.
  unfold g_statement, p_padded_by. apply rel_map. apply rel_then; [|fwd|rel]. apply rel_map. apply rel_then; [rel| |].
  { apply fwd_or; [apply fwd_or; [apply fwd_or; [apply fwd_or|]|]|]; unfold g_global_var, g_func_decl, g_func_def, g_func_deps, g_dbg_annotation, g_func_addr; fwd. apply fwd_body. }
  apply rel_or; [apply rel_or; [apply rel_or; [apply rel_or|..]|..]|..].
  - apply rel_gv.
  - apply rel_decl.
  - left. apply pure_clean. pure.
  - apply (side_starts _ _ _ _ starts_gv starts_decl). intros x; destruct x; try discriminate; reflexivity.
  - apply rel_def.
  - left. apply pure_clean. pure.
  - apply (side_starts _ _ _ _ (starts_or _ _ _ _ starts_gv starts_decl) starts_def). intros x; destruct x; try discriminate; reflexivity.
  - apply rel_deps.
  - right. apply pure_clean. pure.
  - apply side_deps.
  - apply rel_ann.
  - right. apply pure_clean. pure.
  - apply (side_starts _ _ _ _ (starts_or _ _ _ _ (starts_or _ _ _ _ (starts_or _ _ _ _ starts_gv starts_decl) starts_def) starts_deps) starts_ann). intros x; destruct x; try discriminate; reflexivity.
Qed.
End Far.
End One.
