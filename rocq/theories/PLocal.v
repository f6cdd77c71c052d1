(** Round trip and locality of errors (C14, C15). *)
From Verif Require Import Text Chumsky Tokenizer Parser PChumsky PGram SpecParse PParse PSound PParseProps PComplete.

Section L.
Variable eoi : span.
Notation G := (g_statement eoi).
Notation R := (p_recover (g_statement eoi)).

Lemma nls_clean (st : strm) : exists l alt, g_nls eoi st = POk [] l alt (strip st).
Proof.
  destruct (fw_nls eoi st) as (l & H). apply vw_ok in H as (es & alt & H & E). exists l, alt.
  destruct es; [exact H|discriminate].
Qed.
Definition nerr {A} (x : pres token A) : option nat := match x with PErr es _ => Some (length es) | _ => None end.
Lemma statement_strip (st : strm) : vw (G st) = vw (G (strip st)) /\ nerr (G st) = nerr (G (strip st)).
Proof.
  unfold g_statement. fold (g_stmt_alternatives eoi). split.
  - rewrite !vw_padded_by. destruct (fw_nls eoi st) as (l & ->), (fw_nls eoi (strip st)) as (l' & ->).
    rewrite strip_strip. reflexivity.
  - unfold p_padded_by, p_then_ignore, p_ignore_then, p_map, p_then.
    destruct (nls_clean st) as (l & alt & ->), (nls_clean (strip st)) as (l' & alt' & ->). rewrite strip_strip.
    destruct (g_stmt_alternatives eoi (strip st)); cbn; try reflexivity.
    match goal with |- context [g_nls eoi ?x] => destruct (nls_clean x) as (l2 & alt2 & ->) end. reflexivity.
Qed.
Lemma vretry_nls (st : strm) : vw (G st) = VFail -> vretry (fun s => vw (G s)) (tl st) = vretry (fun s => vw (G s)) (tl (strip st)).
Proof.
  induction st as [|[t sp] r IH]; intros H; [reflexivity|].
  destruct (token_eqb_spec t TNewline) as [->|Hn]; [|rewrite strip_id by exact Hn; reflexivity].
  cbn [strip tl]. destruct (statement_strip ((TNewline, sp) :: r)) as [E1 _]. destruct (statement_strip r) as [E2 _].
  assert (vw (G r) = VFail) as F by (rewrite E2; cbn [strip] in E1; rewrite <- E1; exact H).
  rewrite <- (IH F). destruct r as [|t' r]; [reflexivity|]. cbn [vretry tl]. rewrite F. reflexivity.
Qed.
Lemma recover_strip (st : strm) : vw (R st) = vw (R (strip st)).
Proof.
  destruct (statement_strip st) as [E1 E2]. destruct (vw (G st)) as [n a r| |] eqn:E.
  - rewrite (vw_recover_ok _ _ _ _ _ E). symmetry. apply vw_recover_ok. symmetry. exact E1.
  - unfold p_recover. destruct (G st) as [| es e |] eqn:F; try discriminate.
    destruct (G (strip st)) as [| es' e' |] eqn:F'; try discriminate. injection E2 as E2.
    assert (forall s : strm, match s with [] => [] | _ :: r => r end = tl s) as Ht by (intros []; reflexivity).
    rewrite !Ht, !vw_retry. f_equal. apply vretry_nls. rewrite F. reflexivity.
  - rewrite (vw_recover_panic _ _ E). symmetry. apply vw_recover_panic. symmetry. exact E1.
Qed.

Definition chain (st : strm) n l r := iter (fun s => vw (R s)) st n l r.
Lemma module_chain (st : strm) : exists n l r, chain st n l r /\
  vw (g_module eoi st) = match r with [] => VOk n l [] | _ => VFail end.
Proof.
  destruct (s_stmt_recover eoi) as [Hc Hn].
  destruct (iter_exists (fun s => vw (R s)) Hc Hn (length st) st (le_n _)) as (n & l & r & H).
  - exists n, l, r. split; [exact H|]. unfold g_module. rewrite vw_then_ignore.
    erewrite fw_repeated; [|apply s_stmt_recover|exact H]. cbn [vbind]. destruct r; [|reflexivity].
    cbn. rewrite Nat.add_0_r. reflexivity.
Qed.
Lemma chain_strip (st : strm) n l r : chain (strip st) n l r -> l <> [] -> chain st n l r.
Proof.
  intros H Hl. inversion H; subst; [congruence|]. econstructor; [|eassumption]. rewrite recover_strip. assumption.
Qed.
Lemma chain_stop (st : strm) r : chain (strip st) 0 [] r -> chain st 0 [] st.
Proof. intros H. inversion H; subst. constructor. rewrite recover_strip. assumption. Qed.

Lemma chain_stmts ss n toks (rest : strm) : stmts_seg proper_form ss n toks rest -> ss <> [] ->
  n = 0 /\ forall k l r, chain (strip rest) k l r -> chain (toks ++ rest) k (ss ++ l) r.
Proof.
  induction 1 as [|s n ss m pre seg post toks rest Hpre Hpost Hs Hss IH]; intros Hne; [congruence|].
  destruct (fw_statement eoi s n pre seg post (toks ++ rest) Hpre Hpost Hs) as [-> E].
  destruct ss as [|s' ss].
  - inversion Hss; subst. split; [reflexivity|]. intros k l r Hc. rewrite <- !app_assoc. cbn [app] in *.
    change k with (0 + k). econstructor; [|exact Hc]. apply vw_recover_ok. exact E.
  - destruct IH as [-> IH]; [discriminate|]. split; [reflexivity|]. intros k l r Hc. rewrite <- !app_assoc. cbn [app].
    change k with (0 + k). econstructor; [apply vw_recover_ok; exact E|].
    specialize (IH _ _ _ Hc). inversion IH; subst. econstructor; [|eassumption]. rewrite <- recover_strip. assumption.
Qed.

Lemma round_trip ss n toks : stmts_seg proper_form ss n toks [] -> vw (g_module eoi toks) = VOk 0 ss [].
Proof.
  intros H. destruct (module_chain toks) as (n' & l & r & Hc & ->). destruct ss as [|s ss].
  - inversion H; subst. inversion Hc; subst; [reflexivity|]. discriminate.
  - destruct (chain_stmts _ _ _ _ H) as [-> Hk]; [discriminate|].
    specialize (Hk 0 [] [] ltac:(constructor; reflexivity)). rewrite !app_nil_r in Hk.
    destruct (iter_det _ _ _ _ _ Hc _ _ _ Hk) as (-> & -> & ->). reflexivity.
Qed.

(** A complete statement in front of [rest] *)
Lemma in_front ss n toks (rest : strm) : stmts_seg proper_form ss n toks rest -> ss <> [] -> ~ newlines rest ->
  vw (g_module eoi (toks ++ rest)) = 
  match vw (g_module eoi rest) with VOk k l r => VOk k (ss ++ l) r | o => match o with VPanic => VPanic | _ => VFail end end.
Proof.
  intros H Hne Hr. destruct (chain_stmts _ _ _ _ H Hne) as [_ Hk].
  destruct (module_chain rest) as (k & l & r & Hc & ->). destruct (module_chain (toks ++ rest)) as (k' & l' & r' & Hc' & ->).
  assert (exists r2, chain (strip rest) k l r2 /\ (r = [] <-> r2 = [])) as (r2 & H2 & He).
  { inversion Hc; subst.
    - exists (strip r). split; [constructor; rewrite <- recover_strip; assumption|]. 
      split; [intros ->; reflexivity|]. intros E. exfalso. apply Hr.
      destruct (strip_split r) as (nls & Hn & E'). rewrite E, app_nil_r in E'. rewrite E'. exact Hn.
    - exists r. split; [|tauto]. econstructor; [rewrite <- recover_strip; eassumption|assumption]. }
  specialize (Hk _ _ _ H2). destruct (iter_det _ _ _ _ _ Hc' _ _ _ Hk) as (-> & -> & ->).
  destruct r, r2; try reflexivity; destruct He as [He1 He2]; [discriminate (He1 eq_refl)|discriminate (He2 eq_refl)].
Qed.

(** Garbage *)
Lemma alternatives_garbage t (r : strm) : ~ starts_statement (fst t) -> exists e, g_stmt_alternatives eoi (t :: r) = PErr [] e.
Proof.
  assert (forall A (p q : parser (I:=token) A) st, (exists e, p st = PErr [] e) -> (exists e, q st = PErr [] e) ->
    exists e, p_or p q st = PErr [] e) as Hor.
  { intros A p q st (e1 & H1) (e2 & H2). unfold p_or. rewrite H1, H2.
    repeat match goal with |- context [if ?b then _ else _] => destruct b end; eexists; reflexivity. }
  intros H. unfold g_stmt_alternatives. destruct t as [t sp].
  repeat apply Hor; destruct t; cbn in H; try tauto; eexists; reflexivity.
Qed.
Lemma statement_garbage t sp (r : strm) : ~ starts_statement t -> t <> TNewline ->
  vw (G ((t, sp) :: r)) = VFail /\ nerr (G ((t, sp) :: r)) = Some 0.
Proof.
  intros H Hn. unfold g_statement. fold (g_stmt_alternatives eoi).
  unfold p_padded_by, p_then_ignore, p_ignore_then, p_map, p_then.
  destruct (nls_clean ((t, sp) :: r)) as (l & alt & ->). rewrite strip_id by exact Hn.
  destruct (alternatives_garbage (t, sp) r H) as (e & ->). split; reflexivity.
Qed.
Definition dirty (g : strm) : Prop := exists t, In t g /\ fst t <> TNewline.
Lemma garbage_fails g (r : strm) : Forall (fun t => ~ starts_statement (fst t)) g -> dirty g ->
  vw (G (g ++ r)) = VFail /\ nerr (G (g ++ r)) = Some 0.
Proof.
  intros Hg (t0 & Hin & Hn0). destruct (statement_strip (g ++ r)) as [-> ->].
  induction Hg as [|[t sp] g Ht Hg IH]; [contradiction|].
  destruct (token_eqb_spec t TNewline) as [->|Hn].
  - destruct Hin as [<-|Hin]; [exfalso; apply Hn0; reflexivity|]. cbn [app strip]. apply IH; assumption.
  - cbn [app]. rewrite strip_id by exact Hn. apply statement_garbage; assumption.
Qed.
Lemma dirty_dec g : dirty g \/ newlines g.
Proof.
  induction g as [|[t sp] g [(t0 & H1 & H2)|H]].
  - right. constructor.
  - left. exists t0. split; [right; exact H1|exact H2].
  - destruct (token_eqb_spec t TNewline) as [->|Hn]; [right; constructor; auto|].
    left. exists (t, sp). split; [left; reflexivity|exact Hn].
Qed.
Lemma vretry_garbage g (r : strm) n a q : Forall (fun t => ~ starts_statement (fst t)) g -> 
  vw (G r) = VOk n a q -> vretry (fun s => vw (G s)) (g ++ r) = VOk n a q.
Proof.
  intros Hg H. induction Hg as [|t g Ht Hg IH].
  - cbn [app]. destruct r as [|x r]; cbn [vretry]; rewrite H; reflexivity.
  - destruct (dirty_dec (t :: g)) as [Hd|Hd].
    + cbn [app vretry]. destruct (garbage_fails (t :: g) r ltac:(constructor; assumption) Hd) as [E _].
      cbn [app] in E. rewrite E. exact IH.
    + cbn [app vretry]. destruct (statement_strip ((t :: g) ++ r)) as [E _]. cbn [app] in E. rewrite E.
      destruct (statement_strip r) as [E2 _]. rewrite E2 in H.
      change (t :: g ++ r) with ((t :: g) ++ r). rewrite strip_nls by exact Hd. rewrite H. reflexivity.
Qed.
Lemma recover_garbage g (r : strm) n a q : Forall (fun t => ~ starts_statement (fst t)) g -> dirty g ->
  vw (G r) = VOk n a q -> vw (R (g ++ r)) = VOk (S n) a q.
Proof.
  intros Hg Hd H. destruct (garbage_fails g r Hg Hd) as [E1 E2].
  unfold p_recover. destruct (G (g ++ r)) as [|es e|]; try discriminate. injection E2 as E2. destruct es; [|discriminate].
  rewrite vw_retry. destruct g as [|t g]; [destruct Hd as (? & [] & _)|]. inversion Hg; subst. cbn [app].
  rewrite (vretry_garbage g r n a q) by assumption. reflexivity.
Qed.
Lemma garbage_before g ss n toks (rest : strm) : Forall (fun t => ~ starts_statement (fst t)) g -> dirty g ->
  stmts_seg proper_form ss n toks rest -> ss <> [] ->
  vw (g_module eoi (g ++ toks ++ rest)) = vadd 1 (vw (g_module eoi (toks ++ rest))).
Proof.
  intros Hg Hd H Hne. destruct (module_chain (toks ++ rest)) as (k & l & r & Hc & ->).
  destruct (module_chain (g ++ toks ++ rest)) as (k' & l' & r' & Hc' & ->).
  inversion H; subst; [congruence|].
  destruct (fw_statement eoi s n0 pre seg post (toks0 ++ rest) H0 H1 H2) as [-> E].
  rewrite <- !app_assoc in *.
  pose proof (recover_garbage g _ _ _ _ Hg Hd E) as E'.
  inversion Hc; subst.
  { rewrite (vw_recover_ok _ _ _ _ _ E) in H4. discriminate. }
  rewrite (vw_recover_ok _ _ _ _ _ E) in H4. injection H4 as <- <- <-.
  assert (chain (g ++ pre ++ seg ++ post ++ toks0 ++ rest) (1 + n) (s :: l0) r) as Hc2 by (econstructor; eassumption).
  destruct (iter_det _ _ _ _ _ Hc' _ _ _ Hc2) as (-> & -> & ->). destruct r; reflexivity.
Qed.
Lemma vretry_all_garbage g : Forall (fun t => ~ starts_statement (fst t)) g -> vretry (fun s => vw (G s)) g = VFail.
Proof.
  induction 1 as [|t g Ht Hg IH]; [reflexivity|]. cbn [vretry].
  assert (vw (G (t :: g)) = VFail) as ->; [|exact IH].
  destruct (dirty_dec (t :: g)) as [Hd|Hd].
  - pose proof (garbage_fails (t :: g) [] ltac:(constructor; assumption) Hd) as [E _]. rewrite app_nil_r in E. exact E.
  - destruct (statement_strip (t :: g)) as [-> _]. pose proof (strip_nls _ [] Hd) as E. rewrite app_nil_r in E. rewrite E. reflexivity.
Qed.
Lemma garbage_at_end ss n toks (g : strm) : stmts_seg proper_form ss n toks g ->
  Forall (fun t => ~ starts_statement (fst t)) g -> dirty g -> vw (g_module eoi (toks ++ g)) = VFail.
Proof.
  intros H Hg Hd.
  assert (vw (R g) = VFail) as F.
  { destruct (garbage_fails g [] Hg Hd) as [E1 _]. rewrite app_nil_r in E1. apply vw_recover_fail in E1 as (k & _ & ->).
    destruct g as [|t g]; [destruct Hd as (? & [] & _)|]. inversion Hg; subst. cbn [tl].
    rewrite vretry_all_garbage by assumption. reflexivity. }
  assert (strip g <> []) as Hs.
  { intros E. destruct (strip_split g) as (nls & Hn & E'). rewrite E, app_nil_r in E'. subst nls.
    destruct Hd as (t & Hi & Ht). unfold newlines in Hn; rewrite Forall_forall in Hn. apply Ht, Hn, Hi. }
  destruct (module_chain (toks ++ g)) as (k' & l' & r' & Hc' & ->).
  destruct ss as [|s ss].
  - inversion H; subst. cbn [app] in Hc'. inversion Hc'; subst; [|congruence].
    destruct r'; [exfalso; apply Hs; reflexivity|reflexivity].
  - destruct (chain_stmts _ _ _ _ H) as [_ Hk]; [discriminate|].
    specialize (Hk 0 [] (strip g) ltac:(constructor; rewrite <- recover_strip; exact F)).
    destruct (iter_det _ _ _ _ _ Hc' _ _ _ Hk) as (-> & -> & ->). destruct (strip g); [congruence|reflexivity].
Qed.
End L.

Lemma parse_view src toks :
  match vw (g_module (mkSpan (byte_len src) (byte_len src + 1)) (without_comments toks)) with
  | VOk n ss _ => exists errs, parse_tokens src toks = Val (Some ss, errs) /\ length errs = n
  | VFail => exists errs, parse_tokens src toks = Val (None, errs) /\ errs <> []
  | VPanic => False
  end.
Proof.
  unfold parse_tokens, parse_recovery. rewrite drop_comments. unfold stoken in *.
  destruct (good_module (mkSpan (byte_len src) (byte_len src + 1))) as [_ Hn]. specialize (Hn (without_comments toks)). cbv beta in Hn.
  unfold stoken in *. destruct (g_module _ _) as [es a alt r|es e|]; cbn [vw].
  - eexists. split; [reflexivity|apply map_length].
  - eexists. split; [reflexivity|]. rewrite map_app. destruct (map l_err es); discriminate.
  - exact (Hn eq_refl).
Qed.
Lemma parse_round_trip src toks ss n : stmts_seg proper_form ss n (without_comments toks) [] ->
  parse_tokens src toks = Val (Some ss, []).
Proof.
  intros H. pose proof (parse_view src toks) as V. erewrite round_trip in V by exact H.
  destruct V as (errs & -> & E). destruct errs; [reflexivity|discriminate].
Qed.
Lemma comments_app a b : without_comments (a ++ b) = without_comments a ++ without_comments b.
Proof. apply filter_app. Qed.
Lemma parse_in_front src ss n toks rest :
  stmts_seg proper_form ss n (without_comments toks) (without_comments rest) -> ss <> [] -> ~ newlines (without_comments rest) ->
  (exists l e1 e2, parse_tokens src rest = Val (Some l, e1) /\ parse_tokens src (toks ++ rest) = Val (Some (ss ++ l), e2) /\
     length e1 = length e2) \/
  (exists e1 e2, parse_tokens src rest = Val (None, e1) /\ parse_tokens src (toks ++ rest) = Val (None, e2)).
Proof.
  intros H Hne Hr. pose proof (parse_view src rest) as V1. pose proof (parse_view src (toks ++ rest)) as V2.
  rewrite comments_app in V2. erewrite in_front in V2 by eassumption.
  destruct (vw (g_module _ (without_comments rest))) as [k l r| |]; [| |contradiction].
  - destruct V1 as (e1 & -> & H1), V2 as (e2 & -> & H2). left. exists l, e1, e2. split; [reflexivity|]. split; [reflexivity|congruence].
  - destruct V1 as (e1 & -> & _), V2 as (e2 & -> & _). right. eauto.
Qed.
Lemma parse_garbage src g ss n toks rest : junk (without_comments g) ->
  stmts_seg proper_form ss n (without_comments toks) (without_comments rest) -> ss <> [] ->
  (exists l e1 e2, parse_tokens src (toks ++ rest) = Val (Some l, e1) /\ parse_tokens src (g ++ toks ++ rest) = Val (Some l, e2) /\
     length e2 = S (length e1)) \/
  (exists e1 e2, parse_tokens src (toks ++ rest) = Val (None, e1) /\ parse_tokens src (g ++ toks ++ rest) = Val (None, e2)).
Proof.
  intros [Hg Hd] H Hne. pose proof (parse_view src (toks ++ rest)) as V1. pose proof (parse_view src (g ++ toks ++ rest)) as V2.
  rewrite !comments_app in *. erewrite garbage_before in V2 by eassumption.
  destruct (vw (g_module _ (without_comments toks ++ without_comments rest))) as [k l r| |]; [| |contradiction]; cbn [vadd] in V2.
  - destruct V1 as (e1 & -> & H1), V2 as (e2 & -> & H2). left. exists l, e1, e2. split; [reflexivity|]. split; [reflexivity|lia].
  - destruct V1 as (e1 & -> & _), V2 as (e2 & -> & _). right. eauto.
Qed.
Lemma parse_trailing src ss n toks g : junk (without_comments g) ->
  stmts_seg proper_form ss n (without_comments toks) (without_comments g) ->
  exists errs, parse_tokens src (toks ++ g) = Val (None, errs) /\ errs <> [].
Proof.
  intros [Hg Hd] H. pose proof (parse_view src (toks ++ g)) as V. rewrite comments_app in V.
  erewrite garbage_at_end in V by eassumption. exact V.
Qed.
Lemma grammar_unambiguous toks ss n ss' n' :
  stmts_seg proper_form ss n toks [] -> stmts_seg proper_form ss' n' toks [] -> ss = ss'.
Proof.
  intros H H'. pose proof (round_trip (mkSpan 0 0) _ _ _ H) as E. rewrite (round_trip (mkSpan 0 0) _ _ _ H') in E. congruence.
Qed.
Lemma document_round_trip u src toks ss n : tokenize u src = Val (Some toks, []) ->
  stmts_seg proper_form ss n (without_comments toks) [] ->
  parse_from_str u src = Val (mkPR toks ss []).
Proof.
  intros H1 H2. unfold parse_from_str. rewrite H1. cbn [rbind]. rewrite (parse_round_trip src toks ss n H2). reflexivity.
Qed.

(** A concrete module *)
Definition ex_toks : list stoken :=
  [(TDefine, mkSpan 0 6); (TType (str "void"), mkSpan 7 11); (TGlobalName (str "@f"), mkSpan 12 14);
   (TPunct (ch "("), mkSpan 14 15); (TPunct (ch ")"), mkSpan 15 16); (TPunct (ch "{"), mkSpan 17 18);
   (TNewline, mkSpan 18 19); (TIdent (str "br"), mkSpan 19 21); (TIdent (str "a"), mkSpan 22 23); (TNewline, mkSpan 23 24);
   (TIdent (str "a"), mkSpan 24 25); (TPunct (ch ":"), mkSpan 25 26); (TNewline, mkSpan 26 27);
   (TIdent (str "ret"), mkSpan 27 30); (TNewline, mkSpan 30 31);
   (TPunct (ch "}"), mkSpan 31 32); (TNewline, mkSpan 32 33)].
Definition ex_src : text := str "define void @f() {
br a
a:
ret
}
".
Definition ex_stmt : statement :=
  SFuncDef (mkSpan 0 6) (mkSig [] (str "void", mkSpan 7 11) (str "@f", mkSpan 12 14) [])
    (mkBody (mkSpan 17 18) (mkSpan 31 32)
      [mkBB None None [mkInstr None (str "br", mkSpan 19 21) [(str "a", mkSpan 22 23)] None (mkSpan 19 23)] (mkSpan 19 23);
       mkBB (Some (str "a", mkSpan 24 25)) (Some (mkSpan 25 26))
            [mkInstr None (str "ret", mkSpan 27 30) [] None (mkSpan 27 30)] (mkSpan 24 30)]).
Lemma ex_seg rest : stmt_seg proper_form ex_stmt 0 ex_toks rest.
Proof.
  apply (ss_def proper_form (mkSpan 0 6) (mkSig [] (str "void", mkSpan 7 11) (str "@f", mkSpan 12 14) [])
    [(TType (str "void"), mkSpan 7 11); (TGlobalName (str "@f"), mkSpan 12 14); (TPunct (ch "("), mkSpan 14 15); (TPunct (ch ")"), mkSpan 15 16)]
    _ 0 [(TPunct (ch "{"), mkSpan 17 18);
   (TNewline, mkSpan 18 19); (TIdent (str "br"), mkSpan 19 21); (TIdent (str "a"), mkSpan 22 23); (TNewline, mkSpan 23 24);
   (TIdent (str "a"), mkSpan 24 25); (TPunct (ch ":"), mkSpan 25 26); (TNewline, mkSpan 26 27);
   (TIdent (str "ret"), mkSpan 27 30); (TNewline, mkSpan 30 31); (TPunct (ch "}"), mkSpan 31 32)] [tnl (mkSpan 32 33)]).
  - exists (mkSpan 14 15), (mkSpan 15 16), []. split; [constructor|reflexivity].
  - exists [tnl (mkSpan 18 19)].
    exists (Some (mkBB None None [mkInstr None (str "br", mkSpan 19 21) [(str "a", mkSpan 22 23)] None (mkSpan 19 23)] (mkSpan 19 23))), 0,
      [(TIdent (str "br"), mkSpan 19 21); (TIdent (str "a"), mkSpan 22 23); (TNewline, mkSpan 23 24)].
    exists [mkBB (Some (str "a", mkSpan 24 25)) (Some (mkSpan 25 26))
            [mkInstr None (str "ret", mkSpan 27 30) [] None (mkSpan 27 30)] (mkSpan 24 30)], 0,
      [(TIdent (str "a"), mkSpan 24 25); (TPunct (ch ":"), mkSpan 25 26); (TNewline, mkSpan 26 27);
       (TIdent (str "ret"), mkSpan 27 30); (TNewline, mkSpan 30 31)].
    split; [repeat constructor|]. split; [discriminate|]. split; [|split; [|split; [reflexivity|split; reflexivity]]].
    + split; [reflexivity|]. split; [reflexivity|]. split; [|do 2 eexists; split; reflexivity].
      apply (is_cons proper_form _ [] 0 0 [] [(TIdent (str "br"), mkSpan 19 21); (TIdent (str "a"), mkSpan 22 23)] [tnl (mkSpan 23 24)] []).
      * constructor.
      * exists FBr, [], [(TIdent (str "br"), mkSpan 19 21); (TIdent (str "a"), mkSpan 22 23)].
        split; [reflexivity|]. split; [apply (bs_br (str "br", mkSpan 19 21) (str "a", mkSpan 22 23)); reflexivity|].
        repeat (split; [reflexivity|]). exact I.
      * repeat constructor.
      * discriminate.
      * constructor.
    + apply (bks_cons proper_form _ [] 0 0 [(TIdent (str "a"), mkSpan 24 25); (TPunct (ch ":"), mkSpan 25 26); (TNewline, mkSpan 26 27);
       (TIdent (str "ret"), mkSpan 27 30); (TNewline, mkSpan 30 31)] []); [|constructor].
      exists (str "a", mkSpan 24 25), (mkSpan 25 26), [tnl (mkSpan 26 27)], [(TIdent (str "ret"), mkSpan 27 30); (TNewline, mkSpan 30 31)].
      split; [reflexivity|]. split; [reflexivity|]. split; [repeat constructor|]. split; [discriminate|].
      split; [|split; reflexivity].
      apply (is_cons proper_form _ [] 0 0 [] [(TIdent (str "ret"), mkSpan 27 30)] [tnl (mkSpan 30 31)] []).
      * constructor.
      * exists FOther, [], [(TIdent (str "ret"), mkSpan 27 30)].
        split; [reflexivity|]. split; [apply (bs_other (str "ret", mkSpan 27 30) []); [constructor|discriminate]|].
        repeat (split; [reflexivity|]). split; discriminate.
      * repeat constructor.
      * discriminate.
      * constructor.
  - left. eexists. reflexivity.
Qed.
Lemma ex_segs rest : stmts_seg proper_form [ex_stmt] 0 ex_toks rest.
Proof. exact (sts_cons proper_form ex_stmt 0 [] 0 [] ex_toks [] [] rest ltac:(constructor) ltac:(constructor) (ex_seg rest) (sts_nil _ rest)). Qed.
