(** Where the parser reports errors. *)
From Verif Require Import Text Chumsky Tokenizer Parser SpecParse SpecFault PText PSound.

Notation pp A := (parser (I:=token) A).

Section One.
Variable eoi : span.

(** ** Where errors are *)
Definition named_token (y : strm) (e : simple token) : Prop :=
  match y with
  | [] => faults_end eoi e
  | (tk, sp) :: _ => e_span e = sp /\ faults tk e
  end.
Definition stands (st : strm) (e : located token) : Prop :=
  exists pre y : strm, st = pre ++ y /\ l_rem e = length y /\ named_token y (l_err e).
Definition sec (st : strm) (e : located token) : Prop := exists m, In (TIdent m, e_span (l_err e)) st /\ faults_name m (l_err e).
Definition fwd {A} (p : pp A) : Prop := forall st : strm,
  match p st with
  | POk es _ alt r => (exists pre, st = pre ++ r) /\ (forall l, alt = Some l -> stands st l) /\ Forall (sec st) es
  | PErr es e => stands st e /\ Forall (sec st) es
  | PPanic => True
  end.

Lemma app_same_length {A} (a b c d : list A) : length a = length b -> a ++ c = b ++ d -> c = d.
Proof. revert b. induction a as [|x a IH]; intros [|y b] L E; try discriminate; [exact E|]. injection E as _ E. injection L as L. apply (IH b L E). Qed.
Lemma place_le st e : stands st e -> l_rem e <= length st.
Proof. intros (pre & y & -> & -> & _). rewrite app_length. lia. Qed.
Lemma place_app pre st e : stands st e -> stands (pre ++ st) e.
Proof. intros (p & y & -> & H). exists (pre ++ p), y. split; [rewrite app_assoc; reflexivity|exact H]. Qed.
Lemma sec_app pre st e : sec st e -> sec (pre ++ st) e.
Proof. intros (m & H & K). exists m. split; [apply in_or_app; right; exact H|exact K]. Qed.
Lemma secs_app pre st es : Forall (sec st) es -> Forall (sec (pre ++ st)) es.
Proof. apply Forall_impl. apply sec_app. Qed.
Lemma place_max st a b : stands st a -> (forall l, b = Some l -> stands st l) -> stands st (loc_max a b).
Proof.
  intros Ha Hb. destruct b as [b|]; [|exact Ha]. specialize (Hb _ eq_refl). unfold loc_max. destruct (l_rem a <? l_rem b) eqn:C1; [exact Ha|]. destruct (l_rem b <? l_rem a) eqn:C2; [exact Hb|].
  apply Nat.ltb_ge in C1, C2.
  destruct Ha as (p & y & E & L & H). destruct Hb as (p' & y' & E' & L' & H'). exists p, y. split; [exact E|]. split; [exact L|].
  assert (Y : y' = y).
  { assert (P : length p = length p') by (apply (f_equal (@length _)) in E; apply (f_equal (@length _)) in E'; rewrite app_length in E, E'; lia).
    rewrite E in E'. symmetry. apply (app_same_length _ _ _ _ P E'). }
  subst y'. destruct y as [|[tk sp] y]; cbn [named_token l_err] in *; unfold merge.
  - destruct H as (? & ? & ? & N), H' as (_ & _ & _ & N'). split; [assumption|]. split; [assumption|]. split; [assumption|]. cbn [e_expected]. intros X. apply in_app_or in X. tauto.
  - destruct H as (S1 & N & F), H' as (_ & N' & _). split; [exact S1|]. split; [cbn [e_expected]; intros X; apply in_app_or in X; tauto|exact F].
Qed.
Lemma place_alts st a b : (forall l, a = Some l -> stands st l) -> (forall l, b = Some l -> stands st l) -> forall l, merge_alts a b = Some l -> stands st l.
Proof.
  intros Ha Hb l E. destruct a as [a|]; cbn [merge_alts] in E; [|apply Hb; exact E]. injection E as <-. apply place_max; [apply Ha; reflexivity|exact Hb].
Qed.
Lemma place_here st ex : match st with [] => ~ In None ex | (x, _) :: _ => ~ In (Some x) ex end -> stands st (err_here eoi st ex).
Proof.
  intros N. destruct st as [|[tk sp] r].
  - exists [], []. split; [reflexivity|]. split; [reflexivity|]. cbn. repeat split; auto.
  - exists [], ((tk, sp) :: r). split; [reflexivity|]. split; [reflexivity|]. cbn. split; [reflexivity|]. split; [exact N|auto].
Qed.
Lemma place_nothing st : stands st (err_here eoi st []).
Proof. apply place_here. destruct st as [|[x sp] r]; auto. Qed.
Lemma place_some st e : stands st e -> forall l, Some e = Some l -> stands st l.
Proof. intros H l E. injection E as <-. exact H. Qed.
Lemma place_none st : forall l : located token, None = Some l -> stands st l.
Proof. discriminate. Qed.

Lemma fwd_map {A B} (p : pp A) (f : A -> B) : fwd p -> fwd (p_map p f).
Proof. intros H st. specialize (H st). unfold p_map. destruct (p st); exact H. Qed.
Lemma fwd_span {A B} (p : pp A) (f : A -> span -> B) : fwd p -> fwd (p_map_with_span eoi p f).
Proof. intros H st. specialize (H st). unfold p_map_with_span. destruct (p st); exact H. Qed.
Lemma fwd_then {A B} (p : pp A) (q : pp B) : fwd p -> fwd q -> fwd (p_then p q).
Proof.
  intros Hp Hq st. specialize (Hp st). unfold p_then. destruct (p st) as [es a alt r|es e|]; [|exact Hp|exact I]. destruct Hp as ((pre & ->) & Ha & Hs).
  specialize (Hq r). destruct (q r) as [es' b alt' r'|es' e'|]; [| |exact I].
  - destruct Hq as ((pre' & ->) & Ha' & Hs'). split; [exists (pre ++ pre'); rewrite app_assoc; reflexivity|]. split; [apply place_alts; [exact Ha|intros l E; apply place_app; apply Ha'; exact E]|].
    apply Forall_app. split; [exact Hs|apply secs_app; exact Hs'].
  - destruct Hq as [He Hs']. split; [apply place_max; [apply place_app; exact He|exact Ha]|]. apply Forall_app. split; [exact Hs|apply secs_app; exact Hs'].
Qed.
Lemma fwd_or {A} (p q : pp A) : fwd p -> fwd q -> fwd (p_or p q).
Proof.
  intros Hp Hq st. specialize (Hp st). specialize (Hq st). unfold p_or.
  destruct (p st) as [[|y es] a alt r|es e|]; [exact Hp| | |exact I].
  - destruct (q st) as [[|y' es'] b alt' r'|es' e'|]; [exact Hq| | |exact I].
    + cbv zeta. destruct (_ <? _); assumption.
    + destruct Hp as (H1 & H2 & H3). split; [exact H1|]. split; [apply place_alts; [exact H2|apply place_some; apply Hq]|exact H3].
  - destruct (q st) as [[|y' es'] b alt' r'|es' e'|]; [exact Hq| | |exact I].
    + destruct Hq as (H1 & H2 & H3). split; [exact H1|]. split; [apply place_alts; [exact H2|apply place_some; apply Hp]|exact H3].
    + destruct (_ <? _); [exact Hq|]. destruct (_ <? _); [exact Hp|]. destruct Hp, Hq. split; [apply place_max; [assumption|apply place_some; assumption]|assumption].
Qed.
Lemma fwd_or_not {A} (p : pp A) : fwd p -> fwd (p_or_not p).
Proof.
  intros H st. specialize (H st). unfold p_or_not. destruct (p st); [exact H| |exact I]. split; [exists []; reflexivity|]. split; [apply place_some; apply H|constructor].
Qed.
Lemma fwd_not {A} (p : pp A) : fwd (p_not eoi p).
Proof.
  intros st. unfold p_not. destruct (p st); [split; [apply place_nothing|constructor]| |exact I]. destruct st as [|[x sp] r]; [split; [apply place_nothing|constructor]|].
  split; [exists [(x, sp)]; reflexivity|]. split; [apply place_none|constructor].
Qed.
Lemma fwd_rewind {A} (p : pp A) : fwd p -> fwd (p_rewind p).
Proof. intros H st. specialize (H st). unfold p_rewind. destruct (p st); [|exact H|exact I]. split; [exists []; reflexivity|]. apply H. Qed.
Lemma fwd_rep {A} (p : pp A) : fwd p -> forall fuel k old es outs alt pre0 (st : strm), (forall l, alt = Some l -> stands (pre0 ++ st) l) -> Forall (sec (pre0 ++ st)) es ->
  match p_rep fuel p k old es outs alt st with
  | POk es _ alt r => (exists pre, pre0 ++ st = pre ++ r) /\ (forall l, alt = Some l -> stands (pre0 ++ st) l) /\ Forall (sec (pre0 ++ st)) es
  | PErr es e => stands (pre0 ++ st) e /\ Forall (sec (pre0 ++ st)) es
  | PPanic => True
  end.
Proof.
  intros H. induction fuel as [|fuel IH]; intros k old es outs alt pre0 st Ha Hs; [exact I|]. cbn [p_rep]. specialize (H st). destruct (p st) as [es' a alt' r|es' e|]; [| |exact I].
  - destruct H as ((pre & ->) & H2 & H3). destruct (match old with Some n => n =? length r | None => false end); [exact I|].
    specialize (IH k (Some (length r)) (es ++ es') (outs ++ [a]) (merge_alts alt alt') (pre0 ++ pre) r). rewrite <- app_assoc in IH. apply IH.
    + apply place_alts; [exact Ha|]. intros l E. apply place_app. apply H2. exact E.
    + apply Forall_app. split; [exact Hs|apply secs_app; exact H3].
  - destruct H as [H1 H2]. destruct (_ <? _).
    + split; [apply place_max; [apply place_app; exact H1|exact Ha]|apply Forall_app; split; [exact Hs|apply secs_app; exact H2]].
    + split; [exists pre0; reflexivity|]. split; [apply place_alts; [exact Ha|apply place_some, place_app; exact H1]|exact Hs].
Qed.
Lemma fwd_repeated {A} k (p : pp A) : fwd p -> fwd (p_repeated_at_least k p).
Proof. intros H st. apply (fwd_rep p H _ k None [] [] None [] st); [apply place_none|constructor]. Qed.
Lemma fwd_sep {A B} (p : pp A) (q : pp B) : fwd p -> fwd q -> forall fuel es outs alt pre0 (st : strm), (forall l, alt = Some l -> stands (pre0 ++ st) l) -> Forall (sec (pre0 ++ st)) es ->
  match p_sep_tail fuel p q es outs alt st with
  | POk es _ alt r => (exists pre, pre0 ++ st = pre ++ r) /\ (forall l, alt = Some l -> stands (pre0 ++ st) l) /\ Forall (sec (pre0 ++ st)) es
  | PErr es e => stands (pre0 ++ st) e /\ Forall (sec (pre0 ++ st)) es
  | PPanic => True
  end.
Proof.
  intros Hp Hq. induction fuel as [|fuel IH]; intros es outs alt pre0 st Ha Hs; [exact I|]. cbn [p_sep_tail]. specialize (Hq st). destruct (q st) as [es' a alt' r|es' e|]; [| |exact I].
  - destruct Hq as ((pre & ->) & H2 & H3). specialize (Hp r). destruct (p r) as [es2 b alt2 r2|es2 e2|]; [| |exact I].
    + destruct Hp as ((pre2 & ->) & K2 & K3). specialize (IH (es ++ es' ++ es2) (outs ++ [b]) (merge_alts (merge_alts alt alt') alt2) (pre0 ++ pre ++ pre2) r2). rewrite <- !app_assoc in IH. apply IH.
      * apply place_alts; [apply place_alts; [exact Ha|]|]; intros l E; apply place_app; [apply H2; exact E|apply place_app, K2; exact E].
      * apply Forall_app. split; [exact Hs|]. apply secs_app. apply Forall_app. split; [exact H3|apply secs_app; exact K3].
    + destruct Hp as [K1 K2]. split; [exists pre0; reflexivity|]. split; [|apply Forall_app; split; [exact Hs|]; apply secs_app; apply Forall_app; split; [exact H3|apply secs_app; exact K2]].
      apply place_alts; [apply place_alts; [exact Ha|]|]; [intros l E; apply place_app; apply H2; exact E|apply place_some, place_app, place_app; exact K1].
  - destruct Hq as [H1 H2]. split; [exists pre0; reflexivity|]. split; [apply place_alts; [exact Ha|apply place_some, place_app; exact H1]|apply Forall_app; split; [exact Hs|apply secs_app; exact H2]].
Qed.
Lemma fwd_separated {A B} (p : pp A) (q : pp B) : fwd p -> fwd q -> fwd (p_separated_by p q).
Proof.
  intros Hp Hq st. unfold p_separated_by. pose proof (Hp st) as H. destruct (p st) as [es a alt r|es e|]; [| |exact I].
  - destruct H as ((pre & ->) & H2 & H3). apply (fwd_sep p q Hp Hq _ es [a] alt pre r); assumption.
  - destruct H as [H1 H2]. split; [exists []; reflexivity|]. split; [apply place_some; exact H1|exact H2].
Qed.


Lemma fwd_just x : fwd (p_just token_eqb eoi x).
Proof.
  intros [|[y sp] r]; cbn [p_just]; [split; [apply place_here; intros [E|[]]; discriminate|constructor]|]. destruct (token_eqb y x) eqn:T.
  - split; [exists [(y, sp)]; reflexivity|]. split; [apply place_none|constructor].
  - split; [|constructor]. apply place_here. intros [E|[]]. injection E as ->. destruct (token_eqb_spec y y); congruence.
Qed.
Lemma fwd_filter_map {A} (f : span -> token -> A + text) : (forall sp t m, f sp t = inr m -> exists good, demand m good /\ ~ good t) -> fwd (p_filter_map eoi f).
Proof.
  intros Hf. intros [|[y sp] r]; cbn [p_filter_map]; [split; [apply place_nothing|constructor]|]. destruct (f sp y) as [v|m] eqn:E.
  - split; [exists [(y, sp)]; reflexivity|]. split; [apply place_none|constructor].
  - split; [|constructor]. exists [], ((y, sp) :: r). split; [reflexivity|]. split; [reflexivity|]. cbn. split; [reflexivity|]. split; [auto|]. right.
    destruct (Hf _ _ _ E) as (good & D & G). exists m, good. auto.
Qed.
Lemma fwd_filter f : fwd (p_filter eoi f).
Proof.
  intros [|[y sp] r]; cbn [p_filter]; [split; [apply place_nothing|constructor]|]. destruct (f y); [|split; [apply place_nothing|constructor]].
  split; [exists [(y, sp)]; reflexivity|]. split; [apply place_none|constructor].
Qed.
Lemma fwd_none_of xs : fwd (p_none_of token_eqb eoi xs).
Proof.
  intros [|[y sp] r]; cbn [p_none_of]; [split; [apply place_nothing|constructor]|]. destruct (existsb _ xs); [split; [apply place_nothing|constructor]|].
  split; [exists [(y, sp)]; reflexivity|]. split; [apply place_none|constructor].
Qed.
Lemma fwd_end : fwd (p_end eoi).
Proof.
  intros [|[y sp] r]; cbn [p_end]; [|split; [apply place_here; intros [E|[]]; discriminate|constructor]]. split; [exists []; reflexivity|]. split; [apply place_none|constructor].
Qed.
Lemma fwd_modifier : fwd (g_func_modifier eoi).
Proof. apply fwd_filter_map. intros sp t m E. exists (fun t => exists x, t = TFuncModifier x). destruct t; try discriminate; injection E as <-; (split; [exact dm_modifier|]); intros [z Z]; discriminate. Qed.
Lemma fwd_global : fwd (g_global_name eoi).
Proof. apply fwd_filter_map. intros sp t m E. exists (fun t => exists x, t = TGlobalName x). destruct t; try discriminate; injection E as <-; (split; [exact dm_global|]); intros [z Z]; discriminate. Qed.
Lemma fwd_local : fwd (g_local_name eoi).
Proof. apply fwd_filter_map. intros sp t m E. exists (fun t => exists x, t = TLocalName x). destruct t; try discriminate; injection E as <-; (split; [exact dm_local|]); intros [z Z]; discriminate. Qed.
Lemma fwd_type : fwd (g_type eoi).
Proof. apply fwd_filter_map. intros sp t m E. exists (fun t => exists x, t = TType x). destruct t; try discriminate; injection E as <-; (split; [exact dm_type|]); intros [z Z]; discriminate. Qed.
Lemma fwd_ident : fwd (g_ident eoi).
Proof. apply fwd_filter_map. intros sp t m E. exists (fun t => exists x, t = TIdent x). destruct t; try discriminate; injection E as <-; (split; [exact dm_ident|]); intros [z Z]; discriminate. Qed.
Lemma fwd_dbg : fwd (g_dbg_ref eoi).
Proof. apply fwd_filter_map. intros sp t m E. exists (fun t => exists x, t = TDebugRef x). destruct t; try discriminate; injection E as <-; (split; [exact dm_dbg|]); intros [z Z]; discriminate. Qed.
Lemma fwd_hex : fwd (g_hexnum eoi).
Proof. apply fwd_filter_map. intros sp t m E. exists (fun t => exists x, t = THexNum x). destruct t; try discriminate; injection E as <-; (split; [exact dm_hex|]); intros [z Z]; discriminate. Qed.
Lemma fwd_validate : fwd (p_validate eoi (g_ident eoi) (fun x => if ends_with (fst x) (str "br") then None else Some not_overflow)).
Proof.
  intros st. pose proof (fwd_ident st) as H. unfold p_validate. destruct (g_ident eoi st) as [es [x sp'] alt r|es e|] eqn:E; [|exact H|exact I].
  cbn [fst]. destruct (ends_with x (str "br")) eqn:B; [exact H|]. destruct H as (H1 & H2 & H3). split; [exact H1|]. split; [exact H2|]. apply Forall_app. split; [exact H3|]. constructor; [|constructor].
  unfold g_ident, p_filter_map in E. destruct st as [|[tk sp] q]; [discriminate|]. destruct tk; try discriminate. injection E as <- <- <- <- <-.
  exists n. split; [|split; [exact B|cbn; auto]]. left. apply f_equal. cbn [l_err e_span]. transitivity (cover [(TIdent n, sp)]); [destruct sp; reflexivity|]. symmetry. apply (span_since_cover eoi [(TIdent n, sp)] q). discriminate.
Qed.

Ltac fwd :=
  lazymatch goal with
  | |- fwd (p_map_with_span _ _ _) => apply fwd_span; fwd
  | |- fwd (p_map _ _) => apply fwd_map; fwd
  | |- fwd (p_to _ _) => apply fwd_map; fwd
  | |- fwd (p_then _ _) => apply fwd_then; fwd
  | |- fwd (p_then_ignore _ _) => apply fwd_map; apply fwd_then; fwd
  | |- fwd (p_ignore_then _ _) => apply fwd_map; apply fwd_then; fwd
  | |- fwd (p_delimited_by _ _ _) => unfold p_delimited_by; fwd
  | |- fwd (p_padded_by _ _) => unfold p_padded_by; fwd
  | |- fwd (p_or _ _) => apply fwd_or; fwd
  | |- fwd (p_or_not _) => apply fwd_or_not; fwd
  | |- fwd (p_not _ _) => apply fwd_not
  | |- fwd (p_rewind _) => apply fwd_rewind; fwd
  | |- fwd (p_repeated _) => apply fwd_repeated; fwd
  | |- fwd (p_repeated_at_least _ _) => apply fwd_repeated; fwd
  | |- fwd (p_separated_by _ _) => apply fwd_separated; fwd
  | |- fwd (p_just _ _ _) => apply fwd_just
  | |- fwd (p_none_of _ _ _) => apply fwd_none_of
  | |- fwd (p_any _) => apply fwd_filter
  | |- fwd (p_end _) => apply fwd_end
  | |- fwd (p_validate _ _ _) => apply fwd_validate
  | |- fwd (g_func_modifier _) => apply fwd_modifier
  | |- fwd (g_global_name _) => apply fwd_global
  | |- fwd (g_local_name _) => apply fwd_local
  | |- fwd (g_type _) => apply fwd_type
  | |- fwd (g_ident _) => apply fwd_ident
  | |- fwd (g_dbg_ref _) => apply fwd_dbg
  | |- fwd (g_hexnum _) => apply fwd_hex
  | |- fwd (g_token_soup _) => unfold g_token_soup; fwd
  | |- fwd (g_func_arg _) => unfold g_func_arg; fwd
  | |- fwd (g_func_args _) => unfold g_func_args; fwd
  | |- fwd (g_func_signature _) => unfold g_func_signature; fwd
  | |- fwd (g_eol _) => unfold g_eol; fwd
  | |- fwd (g_kw_spanned _ _) => unfold g_kw_spanned; fwd
  | |- fwd (g_skip_to _ _) => unfold g_skip_to; fwd
  | |- fwd (g_nl_ahead _) => unfold g_nl_ahead; fwd
  | |- fwd (g_nls _) => unfold g_nls; fwd
  | |- fwd (g_nls1 _) => unfold g_nls1; fwd
  | |- _ => idtac
  end.
Lemma fwd_alternatives : fwd (g_instr_alternatives eoi).
Proof. unfold g_instr_alternatives, g_br, g_condbr, g_overflowbr, g_switch, g_phi, g_any_instr, g_switch_case, g_phi_entry. fwd. Qed.
Lemma fwd_instruction : fwd (g_instruction eoi).
Proof. unfold g_instruction. fwd. apply fwd_alternatives. Qed.
Lemma fwd_body : fwd (g_func_body eoi).
Proof. unfold g_func_body, g_basic_block. fwd; apply fwd_instruction. Qed.
Lemma fwd_statement : fwd (g_statement eoi).
Proof. unfold g_statement, g_global_var, g_func_decl, g_func_def, g_func_deps, g_dbg_annotation, g_func_addr. fwd. apply fwd_body. Qed.

Lemma fwd_retry {A} (p : pp A) : fwd p -> forall (st : list (token * span)) es fatal (pre0 : list (token * span)), stands (pre0 ++ st) fatal -> Forall (sec (pre0 ++ st)) es ->
  match p_retry p es fatal st with
  | POk es _ alt r => (exists pre, pre0 ++ st = pre ++ r) /\ (forall l, alt = Some l -> stands (pre0 ++ st) l) /\ Forall (fun e => stands (pre0 ++ st) e \/ sec (pre0 ++ st) e) es
  | PErr es e => stands (pre0 ++ st) e /\ Forall (sec (pre0 ++ st)) es
  | PPanic => True
  end.
Proof.
  intros Hp. induction st as [|y st IH]; intros es fatal pre0 Hf Hs; cbn [p_retry]; [pose proof (Hp (@nil (token * span))) as H|pose proof (Hp (y :: st)) as H].
  - destruct (p []) as [es' a alt r|es' e|]; [| |exact I].
    + destruct H as ((pre & E) & H2 & H3). destruct (app_eq_nil pre r (eq_sym E)) as [-> ->]. split; [exists pre0; reflexivity|]. split; [intros l L; apply place_app, H2, L|].
      apply Forall_app. split; [eapply Forall_impl; [|exact (secs_app pre0 _ _ H3)]; intros ? ?; right; assumption|]. constructor; [left; exact Hf|constructor].
    + split; assumption.
  - destruct (p (y :: st)) as [es' a alt r|es' e|]; [| |exact I].
    + destruct H as ((pre & E) & H2 & H3). split; [exists (pre0 ++ pre); rewrite <- app_assoc, E; reflexivity|]. split; [intros l L; apply place_app, H2, L|].
      apply Forall_app. split; [eapply Forall_impl; [|exact (secs_app pre0 _ _ H3)]; intros ? ?; right; assumption|]. constructor; [left; exact Hf|constructor].
    + specialize (IH es fatal (pre0 ++ [y])). rewrite <- !app_assoc in IH. apply IH; assumption.
Qed.

Definition here (st : strm) (e : located token) : Prop := stands st e \/ sec st e.
Lemma here_app pre st e : here st e -> here (pre ++ st) e.
Proof. intros [H|H]; [left; apply place_app; exact H|right; apply sec_app; exact H]. Qed.
Lemma heres_app pre st es : Forall (here st) es -> Forall (here (pre ++ st)) es.
Proof. apply Forall_impl. apply here_app. Qed.
(** like [fwd], for parsers that recover *)
Definition lax {A} (p : pp A) : Prop := forall st : list (token * span),
  match p st with
  | POk es _ alt r => (exists pre, st = pre ++ r) /\ (forall l, alt = Some l -> stands st l) /\ Forall (here st) es
  | PErr es e => stands st e /\ Forall (here st) es
  | PPanic => True
  end.
Lemma lax_recover {A} (p : pp A) : fwd p -> lax (p_recover p).
Proof.
  intros Hp st. pose proof (Hp st) as H. unfold p_recover. destruct (p st) as [es a alt r|es e|]; [| |exact I].
  - destruct H as (H1 & H2 & H3). split; [exact H1|]. split; [exact H2|]. eapply Forall_impl; [|exact H3]. intros x X. right. exact X.
  - destruct H as [H1 H2]. destruct st as [|y st].
    + pose proof (fwd_retry p Hp [] es e [] H1 H2) as R. destruct (p_retry p es e []) as [es' a alt r|es' e'|]; [exact R| |exact I].
      destruct R as [R1 R2]. split; [exact R1|]. eapply Forall_impl; [|exact R2]. intros x X. right. exact X.
    + pose proof (fwd_retry p Hp st es e [y] H1 H2) as R. destruct (p_retry p es e st) as [es' a alt r|es' e'|]; [exact R| |exact I].
      destruct R as [R1 R2]. split; [exact R1|]. eapply Forall_impl; [|exact R2]. intros x X. right. exact X.
Qed.
Lemma lax_rep {A} (p : pp A) : lax p -> forall fuel k old es outs alt pre0 (st : list (token * span)), (forall l, alt = Some l -> stands (pre0 ++ st) l) -> Forall (here (pre0 ++ st)) es ->
  match p_rep fuel p k old es outs alt st with
  | POk es _ alt r => (exists pre, pre0 ++ st = pre ++ r) /\ (forall l, alt = Some l -> stands (pre0 ++ st) l) /\ Forall (here (pre0 ++ st)) es
  | PErr es e => stands (pre0 ++ st) e /\ Forall (here (pre0 ++ st)) es
  | PPanic => True
  end.
Proof.
  intros H. induction fuel as [|fuel IH]; intros k old es outs alt pre0 st Ha Hs; [exact I|]. cbn [p_rep]. specialize (H st). destruct (p st) as [es' a alt' r|es' e|]; [| |exact I].
  - destruct H as ((pre & ->) & H2 & H3). destruct (match old with Some n => n =? length r | None => false end); [exact I|].
    specialize (IH k (Some (length r)) (es ++ es') (outs ++ [a]) (merge_alts alt alt') (pre0 ++ pre) r). rewrite <- app_assoc in IH. apply IH.
    + apply place_alts; [exact Ha|]. intros l E. apply place_app. apply H2. exact E.
    + apply Forall_app. split; [exact Hs|apply heres_app; exact H3].
  - destruct H as [H1 H2]. destruct (_ <? _).
    + split; [apply place_max; [apply place_app; exact H1|exact Ha]|apply Forall_app; split; [exact Hs|apply heres_app; exact H2]].
    + split; [exists pre0; reflexivity|]. split; [apply place_alts; [exact Ha|apply place_some, place_app; exact H1]|exact Hs].
Qed.
Lemma lax_module : lax (g_module eoi).
Proof.
  intros st. unfold g_module, p_then_ignore, p_map, p_then, p_repeated, p_repeated_at_least.
  pose proof (lax_rep (p_recover (g_statement eoi)) (lax_recover _ fwd_statement) (length st + 3) 0 None [] [] None [] st (place_none _) (Forall_nil _)) as H.
  destruct (p_rep _ _ _ _ _ _ _ st) as [es a alt r|es e|]; [|exact H|exact I]. destruct H as ((pre & E) & H2 & H3). cbn [app] in E. subst st.
  pose proof (fwd_end r) as K. destruct (p_end eoi r) as [es' b alt' r'|es' e'|]; [| |exact I].
  - destruct K as ((pre' & ->) & K2 & K3). split; [exists (pre ++ pre'); rewrite app_assoc; reflexivity|].
    split; [apply place_alts; [exact H2|]; intros l L; apply place_app; apply K2; exact L|]. apply Forall_app. split; [exact H3|].
    apply heres_app. eapply Forall_impl; [|exact K3]. intros x X. right. exact X.
  - destruct K as [K1 K2]. split; [apply place_max; [apply place_app; exact K1|exact H2]|]. apply Forall_app. split; [exact H3|].
    apply heres_app. eapply Forall_impl; [|exact K2]. intros x X. right. exact X.
Qed.
Lemma here_fault st e : here st e -> fault eoi st (l_err e).
Proof.
  intros [(pre & y & -> & L & H)|(m & H & K)]; [|apply (f_name _ _ _ m); assumption]. destruct y as [|[tk sp] y]; [apply f_end; exact H|].
  destruct H as [<- H]. apply (f_token _ _ _ tk); [apply in_or_app; right; left; reflexivity|exact H].
Qed.
End One.
(** the same outside the section *)
Ltac fwd :=
  lazymatch goal with
  | |- fwd _ (p_map_with_span _ _ _) => apply fwd_span; fwd
  | |- fwd _ (p_map _ _) => apply fwd_map; fwd
  | |- fwd _ (p_to _ _) => apply fwd_map; fwd
  | |- fwd _ (p_then _ _) => apply fwd_then; fwd
  | |- fwd _ (p_then_ignore _ _) => apply fwd_map; apply fwd_then; fwd
  | |- fwd _ (p_ignore_then _ _) => apply fwd_map; apply fwd_then; fwd
  | |- fwd _ (p_delimited_by _ _ _) => unfold p_delimited_by; fwd
  | |- fwd _ (p_padded_by _ _) => unfold p_padded_by; fwd
  | |- fwd _ (p_or _ _) => apply fwd_or; fwd
  | |- fwd _ (p_or_not _) => apply fwd_or_not; fwd
  | |- fwd _ (p_not _ _) => apply fwd_not
  | |- fwd _ (p_rewind _) => apply fwd_rewind; fwd
  | |- fwd _ (p_repeated _) => apply fwd_repeated; fwd
  | |- fwd _ (p_repeated_at_least _ _) => apply fwd_repeated; fwd
  | |- fwd _ (p_separated_by _ _) => apply fwd_separated; fwd
  | |- fwd _ (p_just _ _ _) => apply fwd_just
  | |- fwd _ (p_none_of _ _ _) => apply fwd_none_of
  | |- fwd _ (p_any _) => apply fwd_filter
  | |- fwd _ (p_end _) => apply fwd_end
  | |- fwd _ (p_validate _ _ _) => apply fwd_validate
  | |- fwd _ (g_func_modifier _) => apply fwd_modifier
  | |- fwd _ (g_global_name _) => apply fwd_global
  | |- fwd _ (g_local_name _) => apply fwd_local
  | |- fwd _ (g_type _) => apply fwd_type
  | |- fwd _ (g_ident _) => apply fwd_ident
  | |- fwd _ (g_dbg_ref _) => apply fwd_dbg
  | |- fwd _ (g_hexnum _) => apply fwd_hex
  | |- fwd _ (g_token_soup _) => unfold g_token_soup; fwd
  | |- fwd _ (g_func_arg _) => unfold g_func_arg; fwd
  | |- fwd _ (g_func_args _) => unfold g_func_args; fwd
  | |- fwd _ (g_func_signature _) => unfold g_func_signature; fwd
  | |- fwd _ (g_eol _) => unfold g_eol; fwd
  | |- fwd _ (g_kw_spanned _ _) => unfold g_kw_spanned; fwd
  | |- fwd _ (g_skip_to _ _) => unfold g_skip_to; fwd
  | |- fwd _ (g_nl_ahead _) => unfold g_nl_ahead; fwd
  | |- fwd _ (g_nls _) => unfold g_nls; fwd
  | |- fwd _ (g_nls1 _) => unfold g_nls1; fwd
  | |- _ => idtac
  end.

(** every syntax error is about a token, or about the end *)
Lemma parse_faults src toks o errs : parse_tokens src toks = Val (o, errs) -> Forall (fault (mkSpan (byte_len src) (byte_len src + 1)) (without_comments toks)) errs.
Proof.
  unfold parse_tokens, parse_recovery. replace (filter not_comment toks) with (without_comments toks) by (apply filter_ext; intros [t sp]; destruct t; reflexivity). set (eoi := mkSpan _ _). intros E.
  pose proof (lax_module eoi (without_comments toks)) as H. destruct (g_module eoi (without_comments toks)) as [es a alt r|es e|]; [| |discriminate].
  - injection E as <- <-. apply Forall_map. destruct H as (_ & _ & H). eapply Forall_impl; [|exact H]. apply here_fault.
  - injection E as <- <-. apply Forall_map. destruct H as (H1 & H). apply Forall_app. split; [eapply Forall_impl; [|exact H]; apply here_fault|]. constructor; [|constructor]. apply here_fault. left. exact H1.
Qed.
