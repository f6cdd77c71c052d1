(** Every successful parse follows the grammar of SpecParse.v. *)
From Verif Require Import Text Chumsky Tokenizer Parser PChumsky PGram SpecParse PParse.

#[export] Hint Resolve s_func_modifier s_global_name s_local_name s_type s_ident s_dbg_ref s_hexnum
  p_func_modifier p_global_name p_local_name p_type p_ident p_dbg_ref p_hexnum
  good_eol pure_eol good_soup pure_soup s_func_arg pure_func_arg good_func_args pure_func_args
  good_func_signature pure_func_signature s_func_addr pure_func_addr
  good_nl_ahead pure_nl_ahead s_kw_spanned pure_kw_spanned good_skip_to pure_skip_to
  s_switch_case pure_switch_case s_phi_entry pure_phi_entry
  s_br s_condbr s_overflowbr s_switch s_phi s_any_instr
  pure_br pure_condbr pure_switch pure_phi pure_any_instr
  s_instr_alternatives s_instruction good_nls pure_nls s_nls1 s_padded_instruction s_basic_block s_func_body
  s_global_var s_func_decl s_func_def s_func_deps s_dbg_annotation s_statement s_stmt_recover
  s_soup_item : gram.

Notation strm := (list stoken).

Lemma cover_one t sp : cover [(t, sp)] = mkSpan (sp_start sp) (sp_end sp).
Proof. reflexivity. Qed.
Lemma span_eta sp : mkSpan (sp_start sp) (sp_end sp) = sp. Proof. destruct sp; reflexivity. Qed.
Lemma span_since_cover eoi seg (r : strm) : seg <> [] -> span_since eoi (seg ++ r) r = cover seg.
Proof.
  intros H. destruct seg as [|[t sp] seg]; [congruence|]. unfold span_since. cbn [app].
  change ((t, sp) :: seg ++ r) with (((t, sp) :: seg) ++ r).
  rewrite app_length, Nat.add_sub, firstn_app, Nat.sub_diag, firstn_O, app_nil_r, firstn_all.
  unfold cover, last_end, stoken in *. destruct (rev ((t, sp) :: seg)) as [|[t2 sp2] q] eqn:E; [|reflexivity].
  apply (f_equal (@length _)) in E. rewrite rev_length in E. discriminate.
Qed.

Section S.
Variable eoi : span.
Notation just := (p_just token_eqb eoi).
Notation none_of := (p_none_of token_eqb eoi).

Lemma inv_just x (st : strm) n a r : vw (just x st) = VOk n a r -> n = 0 /\ a = x /\ exists sp, st = (x, sp) :: r.
Proof.
  rewrite vw_just. destruct st as [|[y sp] s]; [discriminate|].
  destruct (token_eqb_spec y x); [|discriminate]. intros H; injection H as <- <- <-. subst. eauto.
Qed.
Lemma inv_none_of xs (st : strm) n a r : vw (none_of xs st) = VOk n a r ->
  n = 0 /\ ~ In a xs /\ exists sp, st = (a, sp) :: r.
Proof.
  rewrite vw_none_of. destruct st as [|[y sp] s]; [discriminate|].
  destruct (existsb _ _) eqn:E; [discriminate|]. intros H; injection H as <- <- <-.
  split; [reflexivity|]. split; [|eauto]. intros Hi. 
  assert (existsb (token_eqb y) xs = true); [|congruence].
  apply existsb_exists. exists y. split; [exact Hi|]. destruct (token_eqb_spec y y); congruence.
Qed.
Lemma inv_any (st : strm) n a r : vw (p_any eoi st) = VOk n a r -> n = 0 /\ exists sp, st = (a, sp) :: r.
Proof.
  unfold p_any. rewrite vw_filter. destruct st as [|[y sp] s]; [discriminate|]. intros H; injection H as <- <- <-. eauto.
Qed.
Lemma inv_end (st : strm) n a r : vw (p_end eoi st) = VOk n a r -> n = 0 /\ st = [] /\ r = [].
Proof. rewrite vw_end. destruct st; [|discriminate]. intros H; injection H as <- <- <-. auto. Qed.
Ltac leaf := match goal with |- vw (_ ?st) = _ -> _ =>
  let H := fresh in intros H; destruct st as [|[[] ?] ?]; try discriminate; injection H as <- <- <-; split; reflexivity end.
Lemma inv_func_modifier (st : strm) n a r : vw (g_func_modifier eoi st) = VOk n a r -> n = 0 /\ st = tmod a :: r.
Proof. leaf. Qed.
Lemma inv_global_name (st : strm) n a r : vw (g_global_name eoi st) = VOk n a r -> n = 0 /\ st = tglobal a :: r.
Proof. leaf. Qed.
Lemma inv_local_name (st : strm) n a r : vw (g_local_name eoi st) = VOk n a r -> n = 0 /\ st = tlocal a :: r.
Proof. leaf. Qed.
Lemma inv_type (st : strm) n a r : vw (g_type eoi st) = VOk n a r -> n = 0 /\ st = ttype a :: r.
Proof. leaf. Qed.
Lemma inv_ident (st : strm) n a r : vw (g_ident eoi st) = VOk n a r -> n = 0 /\ st = tident a :: r.
Proof. leaf. Qed.
Lemma inv_dbg_ref (st : strm) n a r : vw (g_dbg_ref eoi st) = VOk n a r -> n = 0 /\ st = tdbg a :: r.
Proof. leaf. Qed.
Lemma inv_hexnum (st : strm) n a r : vw (g_hexnum eoi st) = VOk n a r -> n = 0 /\ st = thex a :: r.
Proof. leaf. Qed.
Lemma inv_nl_ahead (st : strm) n a r : vw (g_nl_ahead eoi st) = VOk n a r ->
  n = 0 /\ r = st /\ exists sp q, st = tnl sp :: q.
Proof.
  unfold g_nl_ahead. intros H. apply inv_rewind in H as (-> & r' & H). apply inv_just in H as (-> & _ & sp & ->).
  unfold tnl. eauto.
Qed.
Lemma inv_kw_spanned k (st : strm) n a r : vw (g_kw_spanned eoi k st) = VOk n a r ->
  n = 0 /\ fst a = k /\ st = tident a :: r.
Proof.
  unfold g_kw_spanned. intros H. apply inv_mws in H as (b & H & ->). apply inv_just in H as (-> & -> & sp & ->).
  change ((TIdent k, sp) :: r) with ([(TIdent k, sp)] ++ r). rewrite span_since_cover by discriminate.
  rewrite cover_one, span_eta. auto.
Qed.
Lemma inv_just_span x (st : strm) n a r : vw (p_map_with_span eoi (just x) (fun _ sp => sp) st) = VOk n a r ->
  n = 0 /\ st = (x, a) :: r.
Proof.
  intros H. apply inv_mws in H as (b & H & ->). apply inv_just in H as (-> & -> & sp & ->).
  change ((x, sp) :: r) with ([(x, sp)] ++ r). rewrite span_since_cover by discriminate.
  rewrite cover_one, span_eta. auto.
Qed.
Lemma inv_dbg_opt (st : strm) n a r : vw (p_or_not (g_dbg_ref eoi) st) = VOk n a r ->
  n = 0 /\ st = opt_seg tdbg a ++ r.
Proof.
  intros H. apply inv_or_not in H as [(x & -> & H)|(-> & -> & -> & _)]; [|auto].
  apply inv_dbg_ref in H as (-> & ->). auto.
Qed.
Lemma inv_eol (st : strm) n a r : vw (g_eol eoi st) = VOk n a r -> n = 0 /\ exists e, eol_seg e r /\ st = e ++ r.
Proof.
  unfold g_eol. intros H. destruct (vw_or_inv (just TNewline) (p_to (p_end eoi) TNewline) st) as [E|E]; rewrite E in H.
  - apply inv_just in H as (-> & _ & sp & ->). split; [reflexivity|]. exists [tnl sp]. split; [left; eauto|reflexivity].
  - apply inv_map in H as (u & H & _). apply inv_end in H as (-> & -> & ->). split; [reflexivity|].
    exists []. split; [right; auto|reflexivity].
Qed.

Ltac apps := repeat first [progress cbn [app] | rewrite <- app_assoc]; reflexivity.
Ltac pinv1 := match goal with
  | H : vw (p_map _ _ _) = VOk _ _ _ |- _ => apply inv_map in H as (? & H & ?)
  | H : vw (p_map_with_span _ _ _ _) = VOk _ _ _ |- _ =>
      first [apply inv_just_span in H as (? & ?) | apply inv_mws in H as (? & H & ?)]
  | H : vw (p_then _ _ _) = VOk _ _ _ |- _ =>
      apply inv_then in H; let H' := fresh "H" in destruct H as (? & ? & ? & ? & ? & H & H' & ? & ?)
  | H : vw (p_ignore_then _ _ _) = VOk _ _ _ |- _ =>
      apply inv_ignore_then in H; let H' := fresh "H" in destruct H as (? & ? & ? & ? & H & H' & ?)
  | H : vw (p_then_ignore _ _ _) = VOk _ _ _ |- _ =>
      apply inv_then_ignore in H; let H' := fresh "H" in destruct H as (? & ? & ? & ? & H & H' & ?)
  | H : vw (p_just _ _ _ _) = VOk _ _ _ |- _ => apply inv_just in H as (? & ? & ? & ?)
  | H : vw (p_any _ _) = VOk _ _ _ |- _ => apply inv_any in H as (? & ? & ?)
  | H : vw (p_end _ _) = VOk _ _ _ |- _ => apply inv_end in H as (? & ? & ?)
  | H : vw (g_func_modifier _ _) = VOk _ _ _ |- _ => apply inv_func_modifier in H as (? & ?)
  | H : vw (g_global_name _ _) = VOk _ _ _ |- _ => apply inv_global_name in H as (? & ?)
  | H : vw (g_local_name _ _) = VOk _ _ _ |- _ => apply inv_local_name in H as (? & ?)
  | H : vw (g_type _ _) = VOk _ _ _ |- _ => apply inv_type in H as (? & ?)
  | H : vw (g_ident _ _) = VOk _ _ _ |- _ => apply inv_ident in H as (? & ?)
  | H : vw (g_dbg_ref _ _) = VOk _ _ _ |- _ => apply inv_dbg_ref in H as (? & ?)
  | H : vw (g_hexnum _ _) = VOk _ _ _ |- _ => apply inv_hexnum in H as (? & ?)
  | H : vw (g_nl_ahead _ _) = VOk _ _ _ |- _ => apply inv_nl_ahead in H as (? & ? & ? & ? & ?)
  | H : vw (g_kw_spanned _ _ _) = VOk _ _ _ |- _ => apply inv_kw_spanned in H as (? & ? & ?)
  | H : vw (g_eol _ _) = VOk _ _ _ |- _ => apply inv_eol in H as (? & ? & ? & ?)
  | H : vw (p_or_not (g_dbg_ref _) _) = VOk _ _ _ |- _ => apply inv_dbg_opt in H as (? & ?)
  end; subst.
Ltac pinv := unfold p_delimited_by, p_padded_by in *; repeat pinv1.

(** token soups *)
Lemma inv_soup (st : strm) n a r : vw (g_token_soup eoi st) = VOk n a r -> n = 0 /\ no_newline a /\ st = a ++ r.
Proof.
  unfold g_token_soup. intros H. apply inv_rep0 in H; [|gp].
  induction H as [st H|st m a r n l r' H _ (-> & IH1 & ->)]; [repeat split; constructor|].
  apply inv_mws in H as (t & H & ->). apply inv_none_of in H as (-> & Hn & sp & ->).
  change ((t, sp) :: l ++ r') with ([(t, sp)] ++ (l ++ r')). rewrite span_since_cover by discriminate.
  rewrite cover_one, span_eta. split; [reflexivity|]. split; [|reflexivity].
  constructor; [|exact IH1]. cbn in *. intros ->. apply Hn. auto.
Qed.
Lemma inv_skip_item w (st : strm) n a r :
  vw (p_or (none_of [TPunct (ch ","); TNewline])
          (p_then_ignore (just (TPunct (ch ","))) (none_of [TIdent w])) st) = VOk n a r ->
  n = 0 /\ ((exists t, st = t :: r /\ fst t <> TPunct (ch ",") /\ fst t <> TNewline) \/
            (exists sp t, st = tp (ch ",") sp :: t :: r /\ fst t <> TIdent w)).
Proof.
  intros H. match type of H with vw (p_or ?p ?q ?s) = _ => destruct (vw_or_inv p q s) as [E|E] end; rewrite E in H; clear E.
  - apply inv_none_of in H as (-> & Hn & sp & ->). split; [reflexivity|]. left. eexists. split; [reflexivity|].
    split; intros E; apply Hn; cbn in *; rewrite E; auto.
  - apply inv_then_ignore in H as (n1 & n2 & b & r1 & H & H2 & ->). apply inv_just in H as (-> & -> & sp & ->).
    apply inv_none_of in H2 as (-> & Hn & sp2 & ->). split; [reflexivity|]. right. do 2 eexists. split; [reflexivity|].
    intros E; apply Hn; cbn in *; rewrite E; auto.
Qed.
Lemma s_skip_item w : strict (p_or (none_of [TPunct (ch ","); TNewline])
          (p_then_ignore (just (TPunct (ch ","))) (none_of [TIdent w]))).
Proof. gp. Qed.
Lemma inv_skip_to w (st : strm) n a r : vw (g_skip_to eoi w st) = VOk n a r -> n = 0 /\ exists seg, skip_seg w seg /\ st = seg ++ r.
Proof.
  unfold g_skip_to. intros H. apply inv_rep0 in H; [|gp].
  induction H as [st H|st m a r n l r' H _ (-> & seg & Hs & ->)]; [split; [reflexivity|]; exists []; split; constructor|].
  apply inv_skip_item in H as (-> & [(t & -> & H1 & H2)|(sp & t & -> & H)]); (split; [reflexivity|]).
  - exists (t :: seg). split; [apply sk_tok; assumption|reflexivity].
  - exists (tp (ch ",") sp :: t :: seg). split; [apply sk_comma; assumption|reflexivity].
Qed.
Lemma inv_nls (st : strm) n a r : vw (g_nls eoi st) = VOk n a r ->
  n = 0 /\ exists seg, newlines seg /\ st = seg ++ r /\ forall sp q, r <> tnl sp :: q.
Proof.
  unfold g_nls. intros H. apply inv_rep0 in H; [|gp].
  induction H as [st H|st m a r n l r' H _ (-> & seg & Hs & -> & Hx)].
  - split; [reflexivity|]. exists []. split; [constructor|]. split; [reflexivity|]. intros sp q ->.
    rewrite vw_just in H. cbn in H. discriminate.
  - apply inv_just in H as (-> & -> & sp & ->). split; [reflexivity|]. exists (tnl sp :: seg).
    split; [constructor; [reflexivity|exact Hs]|]. split; [reflexivity|exact Hx].
Qed.
Lemma inv_nls1 (st : strm) n a r : vw (g_nls1 eoi st) = VOk n a r ->
  n = 0 /\ exists seg, newlines seg /\ seg <> [] /\ st = seg ++ r /\ forall sp q, r <> tnl sp :: q.
Proof.
  unfold g_nls1. intros H. apply inv_rep in H as [H Hl]; [|gp].
  assert (forall st n a r, iter (fun s => vw (just TNewline s)) st n a r ->
     n = 0 /\ exists seg, newlines seg /\ length seg = length a /\ st = seg ++ r /\ forall sp q, r <> tnl sp :: q) as Hg.
  { clear. intros st n a r H. induction H as [st H|st m a r n l r' H _ (-> & seg & Hs & Hl & -> & Hx)].
    - split; [reflexivity|]. exists []. split; [constructor|]. split; [reflexivity|]. split; [reflexivity|]. intros sp q ->.
      rewrite vw_just in H. cbn in H. discriminate.
    - apply inv_just in H as (-> & -> & sp & ->). split; [reflexivity|]. exists (tnl sp :: seg).
      split; [constructor; [reflexivity|exact Hs]|]. split; [cbn; congruence|]. split; [reflexivity|exact Hx]. }
  apply Hg in H as (-> & seg & H1 & H2 & -> & H3). split; [reflexivity|]. exists seg.
  split; [exact H1|]. split; [intros ->; cbn in H2; lia|]. auto.
Qed.

(** separated lists *)
Lemma inv_sep_stop {A} (p : parser (I:=token) A) (item : A -> strm -> Prop) (st : strm) n l r :
  strict p -> pure p ->
  (forall st n a r, vw (p st) = VOk n a r -> exists seg, item a seg /\ st = seg ++ r) ->
  vw (p_separated_by p (just (TPunct (ch ","))) st) = VOk n l r ->
  n = 0 /\ exists seg, comma_sep item l seg /\ st = seg ++ r /\
    match l with [] => vw (p r) = VFail | _ => forall sp q, r = tp (ch ",") sp :: q -> vw (p q) = VFail end.
Proof.
  intros Hs Hp Hi H.
  assert (strict (just (TPunct (ch ",")))) as Hs' by gp. assert (pure (just (TPunct (ch ",")))) as Hp' by gp.
  destruct (sep_cases p (just (TPunct (ch ","))) st (strict_good p Hs) Hs' Hp Hp')
    as [[Hf E]|(a & r1 & l' & r' & Ha & Hit & E)]; rewrite E in H; injection H as <- <- <-; (split; [reflexivity|]).
  - exists []. split; [constructor|]. split; [reflexivity|exact Hf].
  - clear E. revert st a Ha. induction Hit as [st' H|st' b r H Hf|st' b r a1 r1 l r' H Hf _ IH]; intros st a Ha.
    + apply Hi in Ha as (seg & H1 & ->). exists seg. split; [constructor; exact H1|]. split; [reflexivity|].
      intros sp q ->. rewrite vw_just in H. unfold tp in H. destruct (token_eqb_spec (TPunct (ch ",")) (TPunct (ch ","))); [discriminate|congruence].
    + apply Hi in Ha as (seg & H1 & ->). exists seg. split; [constructor; exact H1|]. split; [reflexivity|].
      intros sp q ->. apply inv_just in H as (_ & _ & sp' & H). injection H as _ <-. exact Hf.
    + apply Hi in Ha as (seg & H1 & ->). apply inv_just in H as (_ & _ & sp & ->).
      destruct (IH _ _ Hf) as (seg2 & H2 & -> & H3). exists (seg ++ tp (ch ",") sp :: seg2).
      split; [constructor; assumption|]. split; [rewrite <- app_assoc; reflexivity|exact H3].
Qed.
Lemma inv_sep {A} (p : parser (I:=token) A) (item : A -> strm -> Prop) (st : strm) n l r :
  strict p -> pure p ->
  (forall st n a r, vw (p st) = VOk n a r -> exists seg, item a seg /\ st = seg ++ r) ->
  vw (p_separated_by p (just (TPunct (ch ","))) st) = VOk n l r ->
  n = 0 /\ exists seg, comma_sep item l seg /\ st = seg ++ r.
Proof.
  intros H1 H2 H3 H4. destruct (inv_sep_stop p item st n l r H1 H2 H3 H4) as (-> & seg & Ha & Hb & _). eauto.
Qed.

Lemma inv_func_arg (st : strm) n a r : vw (g_func_arg eoi st) = VOk n a r -> exists seg, arg_seg a seg /\ st = seg ++ r.
Proof. unfold g_func_arg. intros H. pinv. eexists. split; [reflexivity|]. reflexivity. Qed.
Lemma inv_func_args (st : strm) n a r : vw (g_func_args eoi st) = VOk n a r ->
  n = 0 /\ exists seg, comma_sep arg_seg a seg /\ st = seg ++ r.
Proof. unfold g_func_args. apply inv_sep; [gp|gp|]. exact inv_func_arg. Qed.
Lemma inv_modifiers (st : strm) n a r : vw (p_repeated (g_func_modifier eoi) st) = VOk n a r ->
  n = 0 /\ st = map tmod a ++ r.
Proof.
  intros H. apply inv_rep0 in H; [|gp]. induction H as [st H|st m a r n l r' H _ (-> & ->)]; [auto|].
  apply inv_func_modifier in H as (-> & ->). auto.
Qed.
Lemma inv_signature (st : strm) n a r : vw (g_func_signature eoi st) = VOk n a r ->
  n = 0 /\ exists seg, sig_seg a seg /\ st = seg ++ r.
Proof.
  unfold g_func_signature. intros H. pinv. 
  match goal with H : vw (p_repeated _ _) = _ |- _ => apply inv_modifiers in H as (-> & ->) end.
  match goal with H : vw (g_func_args _ _) = _ |- _ => apply inv_func_args in H as (-> & args & Ha & ->) end.
  split; [reflexivity|]. eexists. split; [do 3 eexists; split; [exact Ha|reflexivity]|].
  cbn [fs_modifiers fs_ret fs_name]. repeat (rewrite <- app_assoc || cbn [app]). reflexivity.
Qed.

(** instructions: what the alternatives return ([i_target] is still empty) *)
Definition alt_of (f : form) (i : instruction) (n : nat) (seg rest : strm) : Prop :=
  exists body, i_target i = None /\ body_seg f (i_instr i) (i_refs i) body /\
    seg = body ++ opt_seg tdbg (i_dbg i) /\ n = form_errors f (fst (i_instr i)) /\
    exists sp q, rest = tnl sp :: q.
Definition alt_seg i n seg rest : Prop := exists f, alt_of f i n seg rest.

Lemma inv_br (st : strm) n i r : vw (g_br eoi st) = VOk n i r -> exists seg, alt_of FBr i n seg r /\ st = seg ++ r.
Proof.
  unfold g_br. intros H. pinv.
  eexists (_ :: _ :: _). split; [|reflexivity]. eexists. split; [reflexivity|].
  split; [apply bs_br; assumption|]. split; [reflexivity|]. split; [reflexivity|]. eauto.
Qed.
Lemma inv_condbr (st : strm) n i r : vw (g_condbr eoi st) = VOk n i r -> exists seg, alt_of FCond i n seg r /\ st = seg ++ r.
Proof.
  unfold g_condbr. intros H. pinv.
  eexists (_ :: _ :: _ :: _ :: _ :: _ :: _ :: _). split; [|reflexivity]. eexists. split; [reflexivity|].
  split; [apply bs_cond; assumption|]. split; [reflexivity|]. split; [reflexivity|]. eauto.
Qed.
Lemma inv_overflowbr (st : strm) n i r : vw (g_overflowbr eoi st) = VOk n i r -> exists seg, alt_of FOverflow i n seg r /\ st = seg ++ r.
Proof.
  unfold g_overflowbr. intros H. pinv.
  match goal with H : vw (g_skip_to _ _ _) = _ |- _ => apply inv_skip_to in H as (-> & soup & Hs & ->) end.
  match goal with H : vw (p_validate _ _ _ _) = _ |- _ => rewrite vw_validate in H; apply vbind_ok in H as (n1 & m & r1 & H & E) end.
  inversion E; subst; clear E. pinv.
  eexists. split; [eexists; split; [reflexivity|]; split; [apply bs_overflow; exact Hs|];
    split; [reflexivity|]; split; [|eauto]|].
  - cbn [i_instr form_errors]. destruct (ends_with _ _); reflexivity.
  - cbn [app i_dbg]. apps.
Qed.
Lemma inv_switch_case (st : strm) n i r : vw (g_switch_case eoi st) = VOk n i r -> exists seg, case_seg i seg /\ st = seg ++ r.
Proof. unfold g_switch_case. intros H. pinv. eexists. split; [do 4 eexists; reflexivity|]. reflexivity. Qed.
Lemma inv_switch (st : strm) n i r : vw (g_switch eoi st) = VOk n i r -> exists seg, alt_of FSwitch i n seg r /\ st = seg ++ r.
Proof.
  unfold g_switch. intros H. pinv.
  match goal with H : vw (g_skip_to _ _ _) = _ |- _ => apply inv_skip_to in H as (-> & soup & Hs & ->) end.
  match goal with H : vw (p_separated_by _ _ _) = _ |- _ =>
     apply (inv_sep _ case_seg) in H as (-> & cs & Hc & ->); [|gp|gp|exact inv_switch_case] end.
  eexists. split; [eexists; split; [reflexivity|]; split; [apply bs_switch; eassumption|];
    split; [reflexivity|]; split; [reflexivity|eauto]|].
  cbn [app i_dbg]. apps.
Qed.
Lemma inv_phi_entry (st : strm) n i r : vw (g_phi_entry eoi st) = VOk n i r -> exists seg, phi_seg i seg /\ st = seg ++ r.
Proof.
  unfold g_phi_entry. intros H. pinv.
  match goal with H : vw (p_repeated _ _) = _ |- _ => apply inv_rep0 in H; [|gp]; rename H into Hi end.
  assert (forall (st : strm) n l r, iter (fun s => vw (none_of [TPunct (ch "]"); TNewline] s)) st n l r ->
    exists v, Forall (fun x => fst x <> TPunct (ch "]") /\ fst x <> TNewline) v /\ st = v ++ r) as Hg.
  { clear. intros st n l r H. induction H as [st H|st m a r n l r' H _ (v & Hv & ->)]; [exists []; split; [constructor|reflexivity]|].
    apply inv_none_of in H as (-> & Hn & sp & ->). exists ((a, sp) :: v). split; [|reflexivity]. constructor; [|exact Hv].
    cbn [fst]. split; intros ->; apply Hn; [left|right; left]; reflexivity. }
  apply Hg in Hi as (v & Hv & ->). eexists. split; [do 4 eexists; split; [exact Hv|reflexivity]|].
  unfold tp. cbn [app]. apps.
Qed.
Lemma inv_phi (st : strm) n i r : vw (g_phi eoi st) = VOk n i r -> exists seg, alt_of FPhi i n seg r /\ st = seg ++ r.
Proof.
  unfold g_phi. intros H. pinv.
  match goal with H : vw (p_separated_by _ _ _) = _ |- _ =>
     apply (inv_sep _ phi_seg) in H as (-> & cs & Hc & ->); [|gp|gp|exact inv_phi_entry] end.
  eexists. split; [eexists; split; [reflexivity|]; split; [apply bs_phi; eassumption|];
    split; [reflexivity|]; split; [reflexivity|eauto]|].
  cbn [app i_dbg]. apps.
Qed.
Lemma inv_any_item (st : strm) n a r :
  vw (p_not eoi (p_or (p_to (just TNewline) tt) (p_to (g_dbg_ref eoi) tt)) st) = VOk n a r ->
  n = 0 /\ exists sp, st = (a, sp) :: r /\ a <> TNewline /\ ~ is_dbg a.
Proof.
  rewrite vw_not. destruct (vw (p_or _ _ st)) eqn:E; try discriminate. destruct st as [|[x sp] s]; [discriminate|].
  intros H; injection H as <- <- <-. split; [reflexivity|]. exists sp. split; [reflexivity|].
  split.
  - intros ->. rewrite (vw_or_ok _ _ _ tt s) in E; [discriminate|]. reflexivity.
  - intros [y ->]. rewrite vw_or_fail in E by reflexivity. discriminate.
Qed.
Lemma inv_any_instr (st : strm) n i r : vw (g_any_instr eoi st) = VOk n i r -> exists seg, alt_of FOther i n seg r /\ st = seg ++ r.
Proof.
  unfold g_any_instr. intros H. pinv.
  match goal with H : vw (p_rewind _ _) = _ |- _ => apply inv_rewind in H as (-> & r' & H); apply inv_none_of in H as (-> & Hn & sp' & ->) end.
  match goal with H : vw (p_repeated _ _) = _ |- _ => apply inv_rep0 in H; [|gp]; rename H into Hi end.
  assert (forall (st : strm) n l r, iter (fun s => vw (p_not eoi (p_or (p_to (just TNewline) tt) (p_to (g_dbg_ref eoi) tt)) s)) st n l r ->
    n = 0 /\ exists v, Forall (fun t => fst t <> TNewline /\ ~ is_dbg (fst t)) v /\ st = v ++ r) as Hg.
  { clear. intros st n l r H. induction H as [st H|st m a r n l r' H _ (-> & v & Hv & ->)]; [split; [reflexivity|]; exists []; split; [constructor|reflexivity]|].
    apply inv_any_item in H as (-> & sp & -> & H1 & H2). split; [reflexivity|]. exists ((a, sp) :: v). split; [|reflexivity]. constructor; [|exact Hv].
    auto. }
  apply Hg in Hi as (-> & v & Hv & E). rewrite E. eexists.
  split; [eexists; split; [reflexivity|]; split; [apply bs_other; [exact Hv|]|];
    [|split; [reflexivity|]; split; [reflexivity|eauto]]|].
  - intros t q ->. cbn [app] in E. injection E as E1 E2. subst t. intros E. apply Hn. cbn [fst] in E. left. congruence.
  - cbn [app i_dbg]. apps.
Qed.

Lemma inv_alternatives (st : strm) n i r : vw (g_instr_alternatives eoi st) = VOk n i r ->
  exists seg, alt_seg i n seg r /\ st = seg ++ r.
Proof.
  unfold g_instr_alternatives. intros H.
  do 5 (match type of H with vw (p_or ?p ?q ?s) = _ => destruct (vw_or_inv p q s) as [E|E] end; rewrite E in H; clear E;
    [|first [apply inv_any_instr in H|apply inv_phi in H|apply inv_switch in H|apply inv_overflowbr in H|apply inv_condbr in H];
      destruct H as (seg & H & Hst); exists seg; split; [eexists; exact H|exact Hst]]).
  apply inv_br in H as (seg & H & Hst). exists seg. split; [eexists; exact H|exact Hst].
Qed.

Lemma cover_app_ne (a b : strm) : a <> [] -> a ++ b <> []. Proof. destruct a; [congruence|discriminate]. Qed.
Lemma body_seg_ne f m refs body : body_seg f m refs body -> body <> [].
Proof. intros H; inversion H; discriminate. Qed.
Lemma instr_seg_ne i n seg : (instr_seg any_form) i n seg -> seg <> [].
Proof.
  intros (f & tgt & body & _ & H & -> & _). apply body_seg_ne in H.
  destruct tgt; [|discriminate]. cbn. apply cover_app_ne. exact H.
Qed.

Lemma inv_instruction (st : strm) n i r : vw (g_instruction eoi st) = VOk n i r ->
  exists seg, (instr_seg any_form) i n seg /\ st = seg ++ r /\ exists sp q, r = tnl sp :: q.
Proof.
  unfold g_instruction. intros H. pinv.
  match goal with H : vw (g_instr_alternatives _ _) = _ |- _ => apply inv_alternatives in H as (seg & (f & body & Ht & Hb & -> & -> & Hnl) & ->) end.
  match goal with H : vw (p_or_not _ _) = _ |- _ => apply inv_or_not in H as [(x' & -> & H)|(-> & -> & E & _)] end.
  - pinv. eexists (_ :: _ :: _ :: _). split; [|split; [reflexivity|exact Hnl]].
    exists f. eexists [_; _; _]. exists body. split; [do 2 eexists; reflexivity|].
    cbn [i_target i_instr i_refs i_dbg i_span]. split; [exact Hb|]. split; [reflexivity|]. split; [|split; [reflexivity|exact I]].
    match goal with |- span_since _ (?a :: ?b :: ?c :: ?d ++ r) _ = _ => change (a :: b :: c :: d ++ r) with ((a :: b :: c :: d) ++ r) end.
    apply span_since_cover. discriminate.
  - eexists (body ++ opt_seg tdbg (i_dbg _)). split; [|split; [symmetry; exact E|exact Hnl]].
    exists f, [], body. split; [reflexivity|].
    cbn [i_target i_instr i_refs i_dbg i_span]. split; [exact Hb|]. split; [reflexivity|]. split; [|split; [reflexivity|exact I]].
    rewrite <- E. apply span_since_cover. apply cover_app_ne. eapply body_seg_ne. exact Hb.
Qed.

Lemma inv_padded_instruction (st : strm) n i r : vw (p_padded_by (g_instruction eoi) (g_nls eoi) st) = VOk n i r ->
  exists pre seg post, newlines pre /\ (instr_seg any_form) i n seg /\ newlines post /\ post <> [] /\ st = pre ++ seg ++ post ++ r.
Proof.
  intros H. rewrite vw_padded_by in H.
  apply vbind_ok in H as (n1 & a1 & r1 & H1 & H). apply vbind_ok in H as (n2 & a2 & r2 & H2 & H).
  apply vbind_ok in H as (n3 & a3 & r3 & H3 & H). injection H as <- <- <-.
  apply inv_nls in H1 as (-> & pre & Hpre & -> & _). apply inv_instruction in H2 as (seg & Hs & -> & sp & q & ->).
  apply inv_nls in H3 as (-> & post & Hpost & E & Hx). exists pre, seg, post.
  split; [exact Hpre|]. cbn. rewrite Nat.add_0_r. split; [exact Hs|]. split; [exact Hpost|].
  split; [|rewrite E; reflexivity]. intros ->. cbn in E. eapply Hx. symmetry. exact E.
Qed.
Lemma inv_instructions (st : strm) n l r : iter (fun s => vw (p_padded_by (g_instruction eoi) (g_nls eoi) s)) st n l r ->
  exists seg, (instrs_seg any_form) l n seg /\ st = seg ++ r.
Proof.
  induction 1 as [st H|st m a r n l r' H _ (rest & IH & ->)]; [exists []; split; [constructor|reflexivity]|].
  apply inv_padded_instruction in H as (pre & seg & post & H1 & H2 & H3 & H4 & ->).
  exists (pre ++ seg ++ post ++ rest). split; [apply is_cons; assumption|]. apps.
Qed.
Lemma olast_end l d : match olast l with Some i => sp_end (i_span i) | None => d end = last_end_of l d.
Proof. unfold olast, last_end_of. destruct (rev l); reflexivity. Qed.

Lemma inv_basic_block (st : strm) n b r : vw (g_basic_block eoi st) = VOk n b r ->
  exists seg, (block_seg any_form) b n seg /\ st = seg ++ r.
Proof.
  unfold g_basic_block. intros H. pinv.
  match goal with H : vw (g_nls1 _ _) = _ |- _ => apply inv_nls1 in H as (-> & nls & Hn & Hne & -> & _) end.
  match goal with H : vw (p_repeated _ _) = _ |- _ => apply inv_rep0 in H; [|gp]; apply inv_instructions in H as (seg & Hs & ->) end.
  eexists. split; [do 4 eexists; cbn [mk_labelled_bb bb_label bb_label_comma bb_instrs bb_span];
    split; [reflexivity|]; split; [reflexivity|]; split; [exact Hn|]; split; [exact Hne|]; split; [exact Hs|];
    split; [reflexivity|]|].
  - rewrite olast_end. reflexivity.
  - unfold tp. cbn [app]. apps.
Qed.
Lemma inv_blocks (st : strm) n l r : iter (fun s => vw (g_basic_block eoi s)) st n l r ->
  exists seg, (blocks_seg any_form) l n seg /\ st = seg ++ r.
Proof.
  induction 1 as [st H|st m a r n l r' H _ (rest & IH & ->)]; [exists []; split; [constructor|reflexivity]|].
  apply inv_basic_block in H as (seg & H1 & ->).
  exists (seg ++ rest). split; [apply bks_cons; assumption|]. apps.
Qed.
Lemma inv_first_block (st : strm) n o r :
  vw (p_or_not (p_map (p_repeated_at_least 1 (p_padded_by (g_instruction eoi) (g_nls eoi))) mk_initial_bb) st) = VOk n o r ->
  exists seg, (first_block_seg any_form) o n seg /\ st = seg ++ r.
Proof.
  intros H. apply inv_or_not in H as [(b & -> & H)|(-> & -> & -> & _)].
  - apply inv_map in H as (l & H & ->). apply inv_rep in H as [H Hl]; [|gp].
    apply inv_instructions in H as (seg & Hs & ->). exists seg. split; [|reflexivity].
    cbn [first_block_seg mk_initial_bb bb_label bb_label_comma bb_instrs bb_span].
    split; [reflexivity|]. split; [reflexivity|]. split; [exact Hs|].
    destruct l as [|i l]; [cbn in Hl; lia|]. exists i, l. split; [reflexivity|]. f_equal. apply olast_end.
  - exists []. split; [split; reflexivity|reflexivity].
Qed.
Lemma inv_func_body (st : strm) n b r : vw (g_func_body eoi st) = VOk n b r ->
  exists seg, (fbody_seg any_form) b n seg /\ st = seg ++ r.
Proof.
  unfold g_func_body. intros H. pinv.
  match goal with H : vw (g_nls1 _ _) = _ |- _ => apply inv_nls1 in H as (-> & nls & Hn & Hne & -> & _) end.
  match goal with H : vw (p_or_not _ _) = _ |- _ => apply inv_first_block in H as (s1 & Hf & ->) end.
  match goal with H : vw (p_repeated _ _) = _ |- _ => apply inv_rep0 in H; [|gp]; apply inv_blocks in H as (s2 & Hs & ->) end.
  eexists. split; [do 7 eexists; split; [exact Hn|]; split; [exact Hne|]; split; [exact Hf|]; split; [exact Hs|];
    cbn [fb_blocks fb_open fb_close]; split; [reflexivity|]; split; [|reflexivity]|].
  - lia.
  - unfold tp. cbn [app]. apps.
Qed.

Lemma inv_global_var (st : strm) n s r : vw (g_global_var eoi st) = VOk n s r -> exists seg, (stmt_seg any_form) s n seg r /\ st = seg ++ r.
Proof.
  unfold g_global_var. intros H. pinv.
  match goal with H : vw (g_token_soup _ _) = _ |- _ => apply inv_soup in H as (-> & Hd & ->) end.
  eexists. split; [eapply ss_var; eassumption|]. cbn [app]. apps.
Qed.
Lemma inv_dbg_annotation (st : strm) n s r : vw (g_dbg_annotation eoi st) = VOk n s r -> exists seg, (stmt_seg any_form) s n seg r /\ st = seg ++ r.
Proof.
  unfold g_dbg_annotation. intros H. pinv.
  match goal with H : vw (g_token_soup _ _) = _ |- _ => apply inv_soup in H as (-> & Hd & ->) end.
  eexists. split; [eapply ss_dbg; eassumption|]. cbn [app]. apps.
Qed.
Lemma inv_addr_opt (st : strm) n o r : vw (p_or_not (g_func_addr eoi) st) = VOk n o r ->
  n = 0 /\ exists aseg, match o with Some a => exists eq, aseg = [tp (ch "=") eq; thex a] | None => aseg = [] end /\ st = aseg ++ r.
Proof.
  intros H. apply inv_or_not in H as [(a & -> & H)|(-> & -> & -> & _)].
  - unfold g_func_addr in H. pinv. split; [reflexivity|]. eexists [_; _]. split; [eexists; reflexivity|reflexivity].
  - split; [reflexivity|]. exists []. auto.
Qed.
Lemma inv_func_decl (st : strm) n s r : vw (g_func_decl eoi st) = VOk n s r -> exists seg, (stmt_seg any_form) s n seg r /\ st = seg ++ r.
Proof.
  unfold g_func_decl. intros H. pinv.
  match goal with H : vw (g_func_signature _ _) = _ |- _ => apply inv_signature in H as (-> & sseg & Hs & ->) end.
  match goal with H : vw (p_or_not _ _) = _ |- _ => apply inv_addr_opt in H as (-> & aseg & Ha & ->) end.
  eexists. split; [eapply ss_decl; eassumption|]. cbn [app]. apps.
Qed.
Lemma inv_func_def (st : strm) n s r : vw (g_func_def eoi st) = VOk n s r -> exists seg, (stmt_seg any_form) s n seg r /\ st = seg ++ r.
Proof.
  unfold g_func_def. intros H. pinv.
  match goal with H : vw (g_func_signature _ _) = _ |- _ => apply inv_signature in H as (-> & sseg & Hs & ->) end.
  match goal with H : vw (g_func_body _ _) = _ |- _ => apply inv_func_body in H as (bseg & Hb & ->) end.
  eexists. cbn [Nat.add]. rewrite Nat.add_0_r. split; [eapply ss_def; eassumption|]. cbn [app]. apps.
Qed.
Lemma inv_func_deps (st : strm) n s r : vw (g_func_deps eoi st) = VOk n s r -> exists seg, (stmt_seg any_form) s n seg r /\ st = seg ++ r.
Proof.
  unfold g_func_deps. intros H. pinv.
  match goal with H : vw (p_separated_by _ _ _) = _ |- _ =>
     apply (inv_sep_stop _ (fun a s => s = [tglobal a])) in H as (-> & ds & Hd & -> & Hx); [|gp|gp|] end.
  - eexists. split; [eapply ss_deps; [eassumption|]|].
    + match goal with H : comma_sep _ ?l _ |- _ => destruct l end; cbn [deps_stop].
      * intros x0 q ->. discriminate.
      * intros sp x0 q ->. specialize (Hx _ _ eq_refl). discriminate.
    + reflexivity.
  - intros st n a r' H'. apply inv_global_name in H' as (-> & ->). eexists; split; reflexivity.
Qed.

Definition g_stmt_alternatives : parser statement :=
  p_or (p_or (p_or (p_or (g_global_var eoi) (g_func_decl eoi)) (g_func_def eoi)) (g_func_deps eoi)) (g_dbg_annotation eoi).
Lemma inv_stmt_alternatives (st : strm) n s r : vw (g_stmt_alternatives st) = VOk n s r ->
  exists seg, (stmt_seg any_form) s n seg r /\ st = seg ++ r.
Proof.
  unfold g_stmt_alternatives. intros H.
  do 4 (match type of H with vw (p_or ?p ?q ?s) = _ => destruct (vw_or_inv p q s) as [E|E] end; rewrite E in H; clear E;
    [|first [exact (inv_dbg_annotation _ _ _ _ H)|exact (inv_func_deps _ _ _ _ H)|exact (inv_func_def _ _ _ _ H)
            |exact (inv_func_decl _ _ _ _ H)]]).
  exact (inv_global_var _ _ _ _ H).
Qed.
Lemma inv_statement (st : strm) n s r : vw (g_statement eoi st) = VOk n s r ->
  exists pre seg post, newlines pre /\ newlines post /\ (stmt_seg any_form) s n seg (post ++ r) /\ st = pre ++ seg ++ post ++ r.
Proof.
  unfold g_statement. fold g_stmt_alternatives. intros H. rewrite vw_padded_by in H.
  apply vbind_ok in H as (n1 & a1 & r1 & H1 & H). apply vbind_ok in H as (n2 & a2 & r2 & H2 & H).
  apply vbind_ok in H as (n3 & a3 & r3 & H3 & H). injection H as <- <- <-.
  apply inv_nls in H1 as (-> & pre & Hpre & -> & _). apply inv_stmt_alternatives in H2 as (seg & Hs & ->).
  apply inv_nls in H3 as (-> & post & Hpost & -> & Hx). exists pre, seg, post.
  split; [exact Hpre|]. split; [exact Hpost|]. cbn. rewrite Nat.add_0_r. split; [exact Hs|]. reflexivity.
Qed.

Lemma inv_retry {A} (p : list (token * span) -> view token A) st n a r : vretry p st = VOk n a r ->
  exists g st', st = g ++ st' /\ p st' = VOk n a r.
Proof.
  induction st as [|x st IH]; cbn [vretry].
  - destruct (p []) as [n' a' r'| |] eqn:E; intros H; try discriminate. exists [], []. rewrite <- H. auto.
  - destruct (p (x :: st)) as [n' a' r'| |] eqn:E; intros H; try discriminate.
    + exists [], (x :: st). rewrite <- H. auto.
    + apply IH in H as (g & st' & -> & H). exists (x :: g), st'. auto.
Qed.

Lemma inv_stmts (st : strm) n ss r : iter (fun s => vw (p_recover (g_statement eoi) s)) st n ss r -> r = [] ->
  (module_seg any_form) ss n st.
Proof.
  induction 1 as [st H|st m s r n ss r' H _ IH]; intros Hr; [subst; constructor|].
  specialize (IH Hr).
  destruct (recover_cases (g_statement eoi) st) as [(n' & a' & q & E & E')|[[E E']|(E & k & _ & E')]]; rewrite E' in H; try discriminate.
  - injection H as <- <- <-. apply inv_statement in E as (pre & seg & post & H1 & H2 & H3 & ->).
    eapply ms_cons; eassumption.
  - destruct (vretry _ (tl st)) eqn:F; try discriminate. cbn in H. injection H as <- <- <-.
    destruct st as [|t st]; cbn in F.
    { destruct (vw (g_statement eoi [])) eqn:E2; try discriminate. }
    apply inv_retry in F as (g & st' & -> & F). apply inv_statement in F as (pre & seg & post & H1 & H2 & H3 & ->).
    change (t :: g ++ pre ++ seg ++ post ++ rest) with ((t :: g) ++ pre ++ seg ++ post ++ rest).
    replace (S k + n0 + n) with (1 + k + n0 + n) by lia.
    eapply ms_skip; try eassumption. discriminate.
Qed.
Lemma inv_module (st : strm) n ss r : vw (g_module eoi st) = VOk n ss r -> (module_seg any_form) ss n st.
Proof.
  unfold g_module. intros H. pinv.
  match goal with H : vw (p_repeated _ _) = _ |- _ => apply inv_rep0 in H; [|gp]; apply inv_stmts in H; [|reflexivity] end.
  rewrite Nat.add_0_r. assumption.
Qed.
End S.
