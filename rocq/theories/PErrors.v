(** Where errors are located: at an item of the input or at its end. *)
From Verif Require Import Text Chumsky Tokenizer Parser.

Section Errors.
Context {I : Type}.
Variable eqb : I -> I -> bool.
Variable eoi : span.
Variable P : span -> Prop.
Hypothesis Peoi : P eoi.

Definition okl (e : located I) : Prop := P (e_span (l_err e)).
Definition oka (a : option (located I)) : Prop := match a with Some e => okl e | None => True end.
Definition oks (st : stream (I := I)) : Prop := Forall (fun x => P (snd x)) st.
Definition okr {O} (r : pres I O) : Prop :=
  match r with
  | POk es _ alt st => Forall okl es /\ oka alt /\ oks st
  | PErr es e => Forall okl es /\ okl e
  | PPanic => True
  end.
Definition good {O} (p : parser (I := I) O) : Prop := forall st, oks st -> okr (p st).

Lemma ok_err st x : oks st -> okl (err_here eoi st x).
Proof. intros H. unfold err_here. destruct st as [|[y sp] r]; [exact Peoi|]. inversion H; subst. assumption. Qed.
Lemma ok_max a b : okl a -> oka b -> okl (loc_max a b).
Proof.
  intros Ha Hb. unfold loc_max. destruct b as [b|]; [|exact Ha]. destruct (_ <? _); [exact Ha|]. destruct (_ <? _); [exact Hb|]. exact Ha.
Qed.
Lemma ok_alts a b : oka a -> oka b -> oka (merge_alts a b).
Proof. intros Ha Hb. unfold merge_alts. destruct a as [a|]; [|exact Hb]. apply ok_max; assumption. Qed.
Hint Resolve ok_err ok_max ok_alts Forall_nil : ok.

Ltac start := intros st H; unfold okr; cbn.
Lemma good_filter f : good (p_filter eoi f).
Proof.
  start. unfold p_filter. destruct st as [|[x sp] r]; cbn; [split; [constructor|exact Peoi]|]. inversion H; subst.
  destruct (f x); cbn; repeat split; auto.
Qed.
Lemma good_any : good (p_any eoi).
Proof. apply good_filter. Qed.
Lemma good_filter_map {O} (f : span -> I -> O + text) : good (p_filter_map eoi f).
Proof.
  start. unfold p_filter_map. destruct st as [|[x sp] r]; cbn; [split; [constructor|exact Peoi]|]. inversion H; subst.
  destruct (f sp x); cbn; repeat split; auto.
Qed.
Lemma good_just x : good (p_just eqb eoi x).
Proof.
  start. unfold p_just. destruct st as [|[y sp] r]; cbn; [split; [constructor|exact Peoi]|]. inversion H; subst.
  destruct (eqb y x); cbn; repeat split; auto.
Qed.
Lemma good_just_seq xs : good (p_just_seq eqb eoi xs).
Proof.
  induction xs as [|x xs IH]; start; [repeat split; auto|]. pose proof (good_just x st H) as G. unfold okr in G.
  destruct (p_just eqb eoi x st); [|exact G|exact Logic.I]. apply IH. tauto.
Qed.
Lemma good_one_of xs : good (p_one_of eqb eoi xs).
Proof.
  start. unfold p_one_of. destruct st as [|[y sp] r]; cbn; [split; [constructor|exact Peoi]|]. inversion H; subst.
  destruct (existsb _ _); cbn; repeat split; auto.
Qed.
Lemma good_none_of xs : good (p_none_of eqb eoi xs).
Proof.
  start. unfold p_none_of. destruct st as [|[y sp] r]; cbn; [split; [constructor|exact Peoi]|]. inversion H; subst.
  destruct (existsb _ _); cbn; repeat split; auto.
Qed.
Lemma good_end : good (p_end eoi).
Proof. start. unfold p_end. destruct st as [|[y sp] r]; cbn; [repeat split; auto|]. inversion H; subst. repeat split; auto. Qed.
Lemma good_map {A B} p (f : A -> B) : good p -> good (p_map p f).
Proof. intros Hp. start. pose proof (Hp st H) as G. unfold p_map, okr in *. destruct (p st); assumption. Qed.
Lemma good_to {A B} (p : parser A) (b : B) : good p -> good (p_to p b).
Proof. apply good_map. Qed.
Lemma good_map_with_span {A B} p (f : A -> span -> B) : good p -> good (p_map_with_span eoi p f).
Proof. intros Hp. start. pose proof (Hp st H) as G. unfold p_map_with_span, okr in *. destruct (p st); assumption. Qed.
Lemma good_then {A B} (p : parser A) (q : parser B) : good p -> good q -> good (p_then p q).
Proof.
  intros Hp Hq. start. pose proof (Hp st H) as G. unfold p_then, okr in *. destruct (p st) as [es a alt r| |]; [|exact G|exact Logic.I].
  destruct G as (G1 & G2 & G3). pose proof (Hq r G3) as G. unfold okr in G. destruct (q r); [| |exact Logic.I].
  - destruct G as (G4 & G5 & G6). split; [apply Forall_app; auto|]. split; [apply ok_alts; assumption|assumption].
  - destruct G as (G4 & G5). split; [apply Forall_app; auto|]. apply ok_max; assumption.
Qed.
Lemma good_ignore_then {A B} (p : parser A) (q : parser B) : good p -> good q -> good (p_ignore_then p q).
Proof. intros. apply good_map, good_then; assumption. Qed.
Lemma good_then_ignore {A B} (p : parser A) (q : parser B) : good p -> good q -> good (p_then_ignore p q).
Proof. intros. apply good_map, good_then; assumption. Qed.
Lemma good_padded_by {A B} (p : parser A) (q : parser B) : good p -> good q -> good (p_padded_by p q).
Proof. intros. apply good_then_ignore; [apply good_ignore_then|]; assumption. Qed.
Lemma good_delimited_by {A B C} (p : parser A) (q : parser B) (r : parser C) : good p -> good q -> good r -> good (p_delimited_by p q r).
Proof. intros. apply good_then_ignore; [apply good_ignore_then|]; assumption. Qed.
Lemma good_or {A} (p q : parser A) : good p -> good q -> good (p_or p q).
Proof.
  intros Hp Hq. start. pose proof (Hp st H) as G. pose proof (Hq st H) as F. unfold p_or, okr in *.
  destruct (p st) as [[|e es] a alt r|es e|]; [tauto| | |exact Logic.I];
  (destruct (q st) as [[|e' es'] a' alt' r'|es' e'|]; [tauto| | |exact Logic.I]).
  - destruct (_ <? _); tauto.
  - destruct G as (G1 & G2 & G3). destruct F as [F1 F2]. split; [exact G1|]. split; [apply ok_alts; assumption|assumption].
  - destruct G as (G1 & G2). destruct F as (F1 & F2 & F3). split; [exact F1|]. split; [apply ok_alts; assumption|assumption].
  - destruct (_ <? _); [exact F|]. destruct (_ <? _); [exact G|]. split; [apply G|]. apply ok_max; [apply G|apply F].
Qed.
Lemma good_choice_from {A} (ps : list (parser A)) : Forall good ps -> forall alt, oka alt -> good (p_choice_from eoi alt ps).
Proof.
  induction 1 as [|p ps Hp Hps IH]; intros alt Ha; start.
  - destruct alt as [e|]; cbn; [repeat split; auto|]. split; [constructor|]. apply ok_err. exact H.
  - pose proof (Hp st H) as G. unfold okr in *. destruct (p st); [| |exact Logic.I].
    + exact G.
    + apply IH; [|exact H]. apply ok_alts; [exact Ha|apply G].
Qed.
Lemma good_choice {A} (ps : list (parser A)) : Forall good ps -> good (p_choice eoi ps).
Proof. intros H. apply good_choice_from; [exact H|exact Logic.I]. Qed.
Lemma good_or_not {A} (p : parser A) : good p -> good (p_or_not p).
Proof.
  intros Hp. start. pose proof (Hp st H) as G. unfold p_or_not, okr in *. destruct (p st); [exact G| |exact Logic.I].
  split; [constructor|]. split; [apply G|exact H].
Qed.
Lemma good_not {A} (p : parser A) : good p -> good (p_not eoi p).
Proof.
  intros Hp. start. unfold p_not, okr in *. destruct (p st); [| |exact Logic.I].
  - split; [constructor|apply ok_err; exact H].
  - destruct st as [|[x sp] r]; [split; [constructor|apply ok_err; exact H]|]. inversion H; subst. repeat split; auto.
Qed.
Lemma good_rewind {A} (p : parser A) : good p -> good (p_rewind p).
Proof. intros Hp. start. pose proof (Hp st H) as G. unfold p_rewind, okr in *. destruct (p st); [|exact G|exact Logic.I]. tauto. Qed.
Lemma good_rep {A} (p : parser A) n : good p -> forall fuel old errs outs alt, Forall okl errs -> oka alt -> good (p_rep fuel p n old errs outs alt).
Proof.
  intros Hp. induction fuel as [|fuel IH]; intros old errs outs alt He Ha st H; cbn [p_rep]; [exact Logic.I|].
  pose proof (Hp st H) as G. unfold okr in G. destruct (p st) as [es a alt' r|es e|]; [| |exact Logic.I].
  - destruct G as (G1 & G2 & G3). destruct (match old with Some _ => _ | None => _ end); [exact Logic.I|].
    apply IH; [apply Forall_app; auto|apply ok_alts; assumption|assumption].
  - destruct G as [G1 G2]. destruct (_ <? _); cbn [okr].
    + split; [apply Forall_app; auto|]. apply ok_max; assumption.
    + split; [exact He|]. split; [apply ok_alts; assumption|exact H].
Qed.
Lemma good_repeated_at_least {A} n (p : parser A) : good p -> good (p_repeated_at_least n p).
Proof. intros Hp st H. apply good_rep; [exact Hp|constructor|exact Logic.I|exact H]. Qed.
Lemma good_repeated {A} (p : parser A) : good p -> good (p_repeated p).
Proof. apply good_repeated_at_least. Qed.
Lemma good_sep_tail {A B} (p : parser A) (q : parser B) : good p -> good q ->
  forall fuel errs outs alt, Forall okl errs -> oka alt -> good (p_sep_tail fuel p q errs outs alt).
Proof.
  intros Hp Hq. induction fuel as [|fuel IH]; intros errs outs alt He Ha st H; cbn [p_sep_tail]; [exact Logic.I|].
  pose proof (Hq st H) as G. unfold okr in G. destruct (q st) as [es a alt' r|es e|]; [| |exact Logic.I].
  - destruct G as (G1 & G2 & G3). pose proof (Hp r G3) as F. unfold okr in F. destruct (p r) as [es' a' alt'' r'|es' e'|]; [| |exact Logic.I].
    + destruct F as (F1 & F2 & F3). apply IH; [rewrite !Forall_app; auto|repeat apply ok_alts; assumption|assumption].
    + destruct F as [F1 F2]. cbn. split; [rewrite !Forall_app; auto|]. split; [repeat apply ok_alts; assumption|exact H].
  - destruct G as [G1 G2]. cbn. split; [rewrite !Forall_app; auto|]. split; [repeat apply ok_alts; assumption|exact H].
Qed.
Lemma good_separated_by {A B} (p : parser A) (q : parser B) : good p -> good q -> good (p_separated_by p q).
Proof.
  intros Hp Hq. start. pose proof (Hp st H) as G. unfold p_separated_by, okr in *. destruct (p st) as [es a alt r|es e|]; [| |exact Logic.I].
  - destruct G as (G1 & G2 & G3). apply (good_sep_tail p q Hp Hq); assumption.
  - split; [apply G|]. split; [apply G|exact H].
Qed.
(** a validated parser must not consume more than one item *)
Lemma good_validate {A} (p : parser A) f : good p ->
  (forall st es a alt r, p st = POk es a alt r -> exists x, st = x :: r) -> good (p_validate eoi p f).
Proof.
  intros Hp Hone. start. pose proof (Hp st H) as G. unfold p_validate, okr in *. destruct (p st) as [es a alt r|es e|] eqn:E; [|exact G|exact Logic.I].
  destruct (f a) as [m|]; [|exact G]. destruct G as (G1 & G2 & G3). split; [|auto]. apply Forall_app. split; [exact G1|]. constructor; [|constructor].
  destruct (Hone _ _ _ _ _ E) as ([x sp] & ->). unfold okl. cbn [l_err e_span]. unfold span_since. cbn [length].
  replace (S (length r) - length r) with 1 by lia. cbn. inversion H; subst. destruct sp. assumption.
Qed.
Lemma good_take_until_from {B} (p : parser B) : good p -> forall st outs alt, oka alt -> oks st -> okr (p_take_until_from eoi p outs alt st).
Proof.
  intros Hp. induction st as [|[x sp] r IH]; intros outs alt Ha H; cbn [p_take_until_from]; (pose proof (Hp _ H) as G; unfold okr in G; destruct (p _) as [es b alt' r'|es e|]; [| |exact Logic.I]).
  - cbn. destruct G as (G1 & G2 & G3). split; [exact G1|]. split; [apply ok_alts; assumption|assumption].
  - cbn [okr]. split; [apply G|]. apply ok_max; [apply G|apply ok_err; exact H].
  - cbn. destruct G as (G1 & G2 & G3). split; [exact G1|]. split; [apply ok_alts; assumption|assumption].
  - apply IH; [apply ok_alts; [exact Ha|apply G]|]. inversion H; subst. assumption.
Qed.
Lemma good_take_until {B} (p : parser B) : good p -> good (p_take_until eoi p).
Proof. intros Hp st H. apply good_take_until_from; [exact Hp|exact Logic.I|exact H]. Qed.
Lemma good_retry {A} (p : parser A) : good p -> forall st errs fatal, Forall okl errs -> okl fatal -> oks st -> okr (p_retry p errs fatal st).
Proof.
  intros Hp. induction st as [|[x sp] r IH]; intros errs fatal He Hf H; cbn [p_retry]; (pose proof (Hp _ H) as G; unfold okr in G; destruct (p _) as [es b alt' r'|es e|]; [| |exact Logic.I]).
  - cbn. destruct G as (G1 & G2 & G3). split; [rewrite Forall_app; split; [exact G1|]; constructor; [exact Hf|constructor]|auto].
  - cbn. auto.
  - cbn. destruct G as (G1 & G2 & G3). split; [rewrite Forall_app; split; [exact G1|]; constructor; [exact Hf|constructor]|auto].
  - apply IH; [exact He|exact Hf|]. inversion H; subst. assumption.
Qed.
Lemma good_recover {A} (p : parser A) : good p -> good (p_recover p).
Proof.
  intros Hp. start. pose proof (Hp st H) as G. unfold p_recover. unfold okr in G. destruct (p st) as [es b alt' r'|es e|]; [exact G| |exact Logic.I].
  apply good_retry; [exact Hp|apply G|apply G|]. destruct st as [|x r]; [constructor|]. inversion H; subst. assumption.
Qed.
Lemma good_errors {A} (p : parser A) st o errs : good p -> oks st -> parse_recovery p st = Val (o, errs) -> Forall (fun e => P (e_span e)) errs.
Proof.
  intros Hp H E. pose proof (Hp st H) as G. unfold parse_recovery in E. unfold okr in G. destruct (p st); inversion E; subst.
  - apply Forall_map. apply G.
  - apply Forall_map. apply Forall_app. split; [apply G|]. constructor; [apply G|constructor].
Qed.
End Errors.

(** ** The lexer and the parser *)
Ltac good_tac := repeat first
  [ assumption | apply good_then_ignore | apply good_ignore_then | apply good_padded_by | apply good_delimited_by
  | apply good_to | apply good_map | apply good_map_with_span | apply good_then | apply good_or
  | apply good_or_not | apply good_not | apply good_rewind | apply good_repeated | apply good_repeated_at_least
  | apply good_separated_by | apply good_take_until | apply good_recover | apply good_choice
  | apply good_filter | apply good_any | apply good_filter_map | apply good_just | apply good_just_seq
  | apply good_one_of | apply good_none_of | apply good_end | apply Forall_cons | apply Forall_nil ].
Lemma good_tokenizer u eoi (P : span -> Prop) : P eoi -> good P (tokenizer u eoi).
Proof.
  intros He. unfold tokenizer, t_item, t_padding, t_token, t_comment, t_hexnum, t_num, t_str, t_punctuation, t_ident, t_global, t_local,
    t_debugref, t_sigil, t_newline, text_int, t_ident_tail. good_tac.
Qed.
Lemma good_validated eoi (P : span -> Prop) f : P eoi -> good P (p_validate eoi (g_ident eoi) f).
Proof.
  intros He. apply good_validate; [unfold g_ident; good_tac|]. intros st es a alt r E. unfold g_ident, p_filter_map in E.
  destruct st as [|[x sp] st]; [discriminate|]. destruct x; try discriminate. inversion E; subst. eauto.
Qed.
Lemma good_instruction eoi (P : span -> Prop) : P eoi -> good P (g_instruction eoi).
Proof.
  intros He. unfold g_instruction, g_instr_alternatives, g_br, g_condbr, g_overflowbr, g_switch, g_phi, g_any_instr, g_kw_spanned, g_ident, g_dbg_ref, g_nl_ahead,
    g_skip_to, g_switch_case, g_phi_entry, g_type, g_local_name. 
  repeat (first [apply good_validated | progress good_tac]).
Qed.
Lemma good_module eoi (P : span -> Prop) : P eoi -> good P (g_module eoi).
Proof.
  intros He. pose proof (good_instruction eoi P He).
  unfold g_module, g_statement, g_global_var, g_func_decl, g_func_def, g_func_deps, g_dbg_annotation, g_func_body, g_basic_block, g_func_signature,
    g_func_args, g_func_arg, g_func_addr, g_func_modifier, g_hexnum, g_nls, g_nls1, g_eol, g_token_soup, g_dbg_ref, g_ident, g_type, g_local_name, g_global_name.
  good_tac.
Qed.
