(** Well-formed segments are parsed as written. *)
From Verif Require Import Text Chumsky Tokenizer Parser PChumsky PGram SpecParse PParse PSound.

Lemma token_eqb_refl t : token_eqb t t = true.
Proof. destruct (token_eqb_spec t t); congruence. Qed.
Lemma token_eqb_ne a b : a <> b -> token_eqb a b = false.
Proof. destruct (token_eqb_spec a b); congruence. Qed.

(** Dropping leading newlines *)
Fixpoint strip (st : strm) : strm :=
  match st with
  | (TNewline, _) :: r => strip r
  | _ => st
  end.
Lemma strip_nls nls (r : strm) : newlines nls -> strip (nls ++ r) = strip r.
Proof. induction 1 as [|[t sp] l H _ IH]; [reflexivity|]. cbn in H. subst t. cbn. exact IH. Qed.
Lemma strip_id t sp (r : strm) : t <> TNewline -> strip ((t, sp) :: r) = (t, sp) :: r.
Proof. intros H. destruct t; try reflexivity. congruence. Qed.
Lemma strip_split (st : strm) : exists nls, newlines nls /\ st = nls ++ strip st.
Proof.
  induction st as [|[t sp] r (nls & H1 & H2)]; [exists []; split; [constructor|reflexivity]|].
  destruct (token_eqb_spec t TNewline) as [->|Hn].
  - exists ((TNewline, sp) :: nls). split; [constructor; [reflexivity|exact H1]|]. cbn. congruence.
  - exists []. split; [constructor|]. rewrite strip_id by exact Hn. reflexivity.
Qed.
Lemma strip_no_nl (st : strm) sp q : strip st <> tnl sp :: q.
Proof.
  induction st as [|[t sp'] r IH]; [discriminate|]. destruct (token_eqb_spec t TNewline) as [->|Hn]; [exact IH|].
  rewrite strip_id by exact Hn. unfold tnl. congruence.
Qed.
Lemma strip_strip (st : strm) : strip (strip st) = strip st.
Proof.
  induction st as [|[t sp'] r IH]; [reflexivity|]. destruct (token_eqb_spec t TNewline) as [->|Hn]; [exact IH|].
  rewrite strip_id by exact Hn. apply strip_id. exact Hn.
Qed.

Section C.
Variable eoi : span.
Notation just := (p_just token_eqb eoi).
Notation none_of := (p_none_of token_eqb eoi).

(** leaves *)
Lemma fw_just x sp (r : strm) : vw (just x ((x, sp) :: r)) = VOk 0 x r.
Proof. rewrite vw_just, token_eqb_refl. reflexivity. Qed.
Lemma fw_punct c sp (r : strm) : vw (just (TPunct c) (tp c sp :: r)) = VOk 0 (TPunct c) r.
Proof. apply fw_just. Qed.
Lemma fw_kw k sp (r : strm) : vw (just (TIdent k) (tkw k sp :: r)) = VOk 0 (TIdent k) r.
Proof. apply fw_just. Qed.
Lemma fw_ident x (r : strm) : vw (g_ident eoi (tident x :: r)) = VOk 0 x r. Proof. destruct x; reflexivity. Qed.
Lemma fw_local x (r : strm) : vw (g_local_name eoi (tlocal x :: r)) = VOk 0 x r. Proof. destruct x; reflexivity. Qed.
Lemma fw_global x (r : strm) : vw (g_global_name eoi (tglobal x :: r)) = VOk 0 x r. Proof. destruct x; reflexivity. Qed.
Lemma fw_type x (r : strm) : vw (g_type eoi (ttype x :: r)) = VOk 0 x r. Proof. destruct x; reflexivity. Qed.
Lemma fw_dbg x (r : strm) : vw (g_dbg_ref eoi (tdbg x :: r)) = VOk 0 x r. Proof. destruct x; reflexivity. Qed.
Lemma fw_hex x (r : strm) : vw (g_hexnum eoi (thex x :: r)) = VOk 0 x r. Proof. destruct x; reflexivity. Qed.
Lemma fw_mod x (r : strm) : vw (g_func_modifier eoi (tmod x :: r)) = VOk 0 x r. Proof. destruct x; reflexivity. Qed.
Lemma fw_any t (r : strm) : vw (p_any eoi (t :: r)) = VOk 0 (fst t) r. Proof. destruct t; reflexivity. Qed.
Lemma fw_nl_ahead sp (r : strm) : vw (g_nl_ahead eoi (tnl sp :: r)) = VOk 0 TNewline (tnl sp :: r). Proof. reflexivity. Qed.
Lemma fl_just x t (r : strm) : fst t <> x -> vw (just x (t :: r)) = VFail.
Proof. intros H. destruct t as [y sp]. rewrite vw_just; cbn in H; rewrite (token_eqb_ne _ _ H). reflexivity. Qed.
Lemma span_one t sp (r : strm) : span_since eoi ((t, sp) :: r) r = sp.
Proof.
  change ((t, sp) :: r) with ([(t, sp)] ++ r). rewrite span_since_cover by discriminate. rewrite cover_one. apply span_eta.
Qed.
Lemma span_one_tp c sp (r : strm) : span_since eoi (tp c sp :: r) r = sp.
Proof. apply span_one. Qed.
Lemma fw_kw_spanned m (r : strm) : vw (g_kw_spanned eoi (fst m) (tident m :: r)) = VOk 0 m r.
Proof.
  unfold g_kw_spanned. rewrite vw_map_with_span. unfold tident. rewrite fw_just. cbn [vbind]. rewrite span_one.
  destruct m; reflexivity.
Qed.
Lemma fl_kw_spanned k t (r : strm) : fst t <> TIdent k -> vw (g_kw_spanned eoi k (t :: r)) = VFail.
Proof. intros H. unfold g_kw_spanned. rewrite vw_map_with_span, fl_just by exact H. reflexivity. Qed.
Lemma fw_just_span x sp (r : strm) : vw (p_map_with_span eoi (just x) (fun _ s => s) ((x, sp) :: r)) = VOk 0 sp r.
Proof. rewrite vw_map_with_span, fw_just. cbn [vbind]. rewrite span_one. reflexivity. Qed.
Lemma fw_opt_dbg dbg sp (r : strm) :
  vw (p_or_not (g_dbg_ref eoi) (opt_seg tdbg dbg ++ tnl sp :: r)) = VOk 0 dbg (tnl sp :: r).
Proof. rewrite vw_or_not. destruct dbg as [x|]; [|reflexivity]. cbn [opt_seg app]. rewrite fw_dbg. reflexivity. Qed.
Lemma fw_none_of xs t (r : strm) : ~ In (fst t) xs -> vw (none_of xs (t :: r)) = VOk 0 (fst t) r.
Proof.
  intros H. destruct t as [y sp]. rewrite vw_none_of. destruct (existsb _ _) eqn:E; [|reflexivity].
  apply existsb_exists in E as (z & Hz & E). destruct (token_eqb_spec y z); [subst; contradiction|discriminate].
Qed.
Lemma fl_none_of xs t (r : strm) : In (fst t) xs -> vw (none_of xs (t :: r)) = VFail.
Proof.
  intros H. destruct t as [y sp]. rewrite vw_none_of. destruct (existsb _ _) eqn:E; [reflexivity|].
  assert (existsb (token_eqb y) xs = true); [|congruence]. apply existsb_exists. exists y. split; [exact H|apply token_eqb_refl].
Qed.

Ltac fw1 := first
  [ rewrite vw_map | rewrite vw_to | rewrite vw_map_with_span | rewrite vw_then | rewrite vw_ignore_then | rewrite vw_then_ignore
  | rewrite fw_punct | rewrite fw_kw | rewrite fw_ident | rewrite fw_local | rewrite fw_global | rewrite fw_type
  | rewrite fw_dbg | rewrite fw_hex | rewrite fw_mod | rewrite fw_any | rewrite fw_nl_ahead | rewrite fw_opt_dbg ].
Ltac fw := repeat (fw1; cbn [vbind]).

(** repetition: iterate over explicit segments *)
Lemma fw_repeated {A} (p : parser (I:=token) A) st n l r : strict p -> iter (fun s => vw (p s)) st n l r ->
  vw (p_repeated p st) = VOk n l r.
Proof. intros [Hc _]. apply vw_repeated0. exact Hc. Qed.
Lemma fw_rep_at_least {A} k (p : parser (I:=token) A) st n l r : strict p -> iter (fun s => vw (p s)) st n l r ->
  vw (p_repeated_at_least k p st) = if length l <? k then VFail else VOk n l r.
Proof. intros [Hc _]. apply vw_repeated_iter. exact Hc. Qed.

Lemma iter_nls (st : strm) : exists l, iter (fun s => vw (just TNewline s)) st 0 l (strip st) /\
  (l = [] -> strip st = st).
Proof.
  induction st as [|[t sp] r (l & IH & _)].
  - exists []. split; [constructor; reflexivity|reflexivity].
  - destruct (token_eqb_spec t TNewline) as [->|Hn].
    + exists (TNewline :: l). split; [|discriminate]. change 0 with (0 + 0). econstructor; [apply fw_just|exact IH].
    + exists []. rewrite strip_id by exact Hn. split; [|reflexivity]. constructor. apply fl_just. exact Hn.
Qed.
Lemma fw_nls (st : strm) : exists l, vw (g_nls eoi st) = VOk 0 l (strip st).
Proof. destruct (iter_nls st) as (l & H & _). exists l. unfold g_nls. apply fw_repeated; [gp|exact H]. Qed.
Lemma fw_nls1 sp (st : strm) : exists l, vw (g_nls1 eoi (tnl sp :: st)) = VOk 0 l (strip st).
Proof.
  destruct (iter_nls (tnl sp :: st)) as (l & H & Hl). exists l. unfold g_nls1. erewrite fw_rep_at_least; [|gp|exact H].
  destruct l; [|reflexivity]. specialize (Hl eq_refl). exfalso. eapply strip_no_nl. exact Hl.
Qed.
Lemma fw_padded {A} (p : parser (I:=token) A) (st : strm) n a r : vw (p (strip st)) = VOk n a r ->
  vw (p_padded_by p (g_nls eoi) st) = VOk n a (strip r).
Proof.
  intros H. rewrite vw_padded_by. destruct (fw_nls st) as (l & ->). cbn [vbind]. rewrite H. cbn [vbind].
  destruct (fw_nls r) as (l' & ->). cbn. rewrite Nat.add_0_r. reflexivity.
Qed.
Lemma fl_padded {A} (p : parser (I:=token) A) (st : strm) : vw (p (strip st)) = VFail ->
  vw (p_padded_by p (g_nls eoi) st) = VFail.
Proof. intros H. rewrite vw_padded_by. destruct (fw_nls st) as (l & ->). cbn [vbind]. rewrite H. reflexivity. Qed.

Lemma iter_skip w soup : skip_seg w soup -> forall (r : strm),
  (exists sp k q, r = tp (ch ",") sp :: tkw w k :: q) ->
  exists l, iter (fun s => vw (p_or (none_of [TPunct (ch ","); TNewline])
          (p_then_ignore (just (TPunct (ch ","))) (none_of [TIdent w])) s)) (soup ++ r) 0 l r.
Proof.
  induction 1 as [|t s H1 H2 _ IH|sp t s H _ IH]; intros r Hr.
  - destruct Hr as (sp & k & q & ->). exists []. cbn [app]. constructor.
    rewrite vw_or_fail by (apply fl_none_of; left; reflexivity). fw.
    rewrite fl_none_of by (left; reflexivity). reflexivity.
  - destruct (IH r Hr) as (l & Hl). eexists. cbn [app]. change 0 with (0 + 0). econstructor; [|exact Hl].
    apply vw_or_ok. apply fw_none_of. intros [E|[E|[]]]; congruence.
  - destruct (IH r Hr) as (l & Hl). eexists. cbn [app]. change 0 with (0 + 0). econstructor; [|exact Hl].
    rewrite vw_or_fail by (apply fl_none_of; left; reflexivity). fw.
    rewrite fw_none_of by (intros [E|[]]; congruence). reflexivity.
Qed.
Lemma fw_skip w soup sp k (q : strm) : skip_seg w soup ->
  exists l, vw (g_skip_to eoi w (soup ++ tp (ch ",") sp :: tkw w k :: q)) = VOk 0 l (tp (ch ",") sp :: tkw w k :: q).
Proof.
  intros H. destruct (iter_skip w soup H (tp (ch ",") sp :: tkw w k :: q)) as (l & Hl); [eauto|].
  exists l. unfold g_skip_to. apply fw_repeated; [gp|exact Hl].
Qed.

(** separated lists; [stop] says the list cannot go on *)
Lemma fw_sep {A} (p : parser (I:=token) A) (item : A -> strm -> Prop) l seg (r : strm) :
  strict p -> pure p ->
  (forall a x q, item a x -> vw (p (x ++ q)) = VOk 0 a q) ->
  comma_sep item l seg ->
  match l with [] => vw (p r) = VFail | _ => forall sp q, r = tp (ch ",") sp :: q -> vw (p q) = VFail end ->
  vw (p_separated_by p (just (TPunct (ch ","))) (seg ++ r)) = VOk 0 l r.
Proof.
  intros Hs Hp Hi Hc.
  assert (strict (just (TPunct (ch ",")))) as Hs' by gp. assert (pure (just (TPunct (ch ",")))) as Hp' by gp.
  assert (forall l seg, comma_sep item l seg -> l <> [] ->
    (forall sp q, r = tp (ch ",") sp :: q -> vw (p q) = VFail) ->
    exists a l' r1, l = a :: l' /\ vw (p (seg ++ r)) = VOk 0 a r1 /\
      sep_iter (fun x => vw (p x)) (fun x => vw (just (TPunct (ch ",")) x)) r1 l' r) as Hg.
  { clear Hc l seg. induction 1 as [|a x H|a x sp b l xs H _ IH]; intros Hn Hr; [congruence| |].
    - exists a, [], r. split; [reflexivity|]. split; [apply Hi; exact H|].
      destruct r as [|[t sp] q]; [apply sep_stop; reflexivity|].
      destruct (token_eqb_spec t (TPunct (ch ","))) as [->|Hne].
      + eapply sep_stop2; [apply fw_just|]. eapply Hr. reflexivity.
      + apply sep_stop. apply fl_just. exact Hne.
    - destruct (IH ltac:(discriminate) Hr) as (a' & l' & r1 & E & H1 & H2). injection E as <- <-.
      exists a, (b :: l), ((tp (ch ",") sp :: xs) ++ r). split; [reflexivity|].
      split; [rewrite <- app_assoc; apply Hi; exact H|]. cbn [app]. eapply sep_cons; [apply fw_just|exact H1|exact H2]. }
  intros Hr. destruct l as [|a l].
  - inversion Hc; subst. cbn [app]. apply vw_separated_fail; [apply Hp|exact Hr].
  - destruct (Hg _ _ Hc ltac:(discriminate) Hr) as (a' & l' & r1 & E & H1 & H2). injection E as <- <-.
    eapply vw_separated_ok; [apply Hp|apply Hp'|apply Hs'|apply (strict_good p Hs)|exact H1|exact H2].
Qed.

Lemma fw_arg a x (q : strm) : arg_seg a x -> vw (g_func_arg eoi (x ++ q)) = VOk 0 a q.
Proof. intros ->. unfold g_func_arg. cbn [app]. fw. destruct a; reflexivity. Qed.
Lemma iter_mods l (r : strm) : (forall x q, r <> tmod x :: q) ->
  iter (fun s => vw (g_func_modifier eoi s)) (map tmod l ++ r) 0 l r.
Proof.
  intros Hr. induction l as [|x l IH]; cbn [map app].
  - constructor. destruct r as [|[t sp] q]; [reflexivity|]. destruct t; try reflexivity. exfalso. eapply (Hr (_, sp)). reflexivity.
  - change 0 with (0 + 0). econstructor; [apply fw_mod|exact IH].
Qed.
Lemma fw_signature s seg (r : strm) : sig_seg s seg -> vw (g_func_signature eoi (seg ++ r)) = VOk 0 s r.
Proof.
  intros (o & c & args & Ha & ->). unfold g_func_signature. 
  rewrite <- app_assoc. rewrite vw_map, !vw_then.
  erewrite (fw_repeated (g_func_modifier eoi)); [|gp|apply iter_mods; discriminate].
  cbn [app vbind]. fw. unfold p_delimited_by. fw. 
  unfold g_func_args. rewrite <- app_assoc.
  rewrite (fw_sep (g_func_arg eoi) arg_seg _ _ _ ltac:(gp) ltac:(gp) fw_arg Ha).
  - cbn [vbind app]. fw. destruct s; reflexivity.
  - destruct (fs_args s); [reflexivity|]. intros sp q E. discriminate.
Qed.

(** instructions *)
Definition gives (p : parser (I:=token) instruction) (st : strm) m refs dbg r : Prop :=
  exists sp, vw (p st) = VOk 0 (mkInstr None m refs dbg sp) r.

Lemma fw_br m t dbg sp (r : strm) : fst m = str "br" ->
  gives (g_br eoi) ([tident m; tident t] ++ opt_seg tdbg dbg ++ tnl sp :: r) m [t] dbg (tnl sp :: r).
Proof.
  intros Hm. eexists. unfold g_br. rewrite <- Hm. cbn [app]. fw. rewrite fw_kw_spanned. cbn [vbind]. fw. reflexivity.
Qed.
Lemma fl_br t (r : strm) : fst t <> TIdent (str "br") -> vw (g_br eoi (t :: r)) = VFail.
Proof. intros H. unfold g_br. fw. rewrite fl_kw_spanned by exact H. reflexivity. Qed.
Lemma fl_condbr t (r : strm) : fst t <> TIdent (str "br") -> vw (g_condbr eoi (t :: r)) = VFail.
Proof. intros H. unfold g_condbr. fw. rewrite fl_kw_spanned by exact H. reflexivity. Qed.
Lemma fl_switch t (r : strm) : fst t <> TIdent (str "switch") -> vw (g_switch eoi (t :: r)) = VFail.
Proof. intros H. unfold g_switch. fw. rewrite fl_kw_spanned by exact H. reflexivity. Qed.
Lemma fl_phi t (r : strm) : fst t <> TIdent (str "phi") -> vw (g_phi eoi (t :: r)) = VFail.
Proof. intros H. unfold g_phi. fw. rewrite fl_kw_spanned by exact H. reflexivity. Qed.

Lemma fw_cond m ty v c1 t1 c2 t2 dbg sp (r : strm) : fst m = str "br" ->
  gives (g_condbr eoi) ([tident m; (TType (str "int1"), ty); v; tp (ch ",") c1; tident t1; tp (ch ",") c2; tident t2]
     ++ opt_seg tdbg dbg ++ tnl sp :: r) m [t1; t2] dbg (tnl sp :: r).
Proof.
  intros Hm. eexists. unfold g_condbr. rewrite <- Hm. cbn [app]. fw. rewrite fw_kw_spanned. cbn [vbind].
  rewrite fw_just. cbn [vbind]. fw. reflexivity.
Qed.
Lemma fw_overflow m soup c1 k1 e1 t1 c2 k2 e2 t2 dbg sp (r : strm) : skip_seg (str "cont") soup ->
  ends_with (fst m) (str "br") = true ->
  gives (g_overflowbr eoi) ((tident m :: soup ++ [tp (ch ",") c1; tkw (str "cont") k1; tp (ch "=") e1; tident t1;
                            tp (ch ",") c2; tkw (str "overflow") k2; tp (ch "=") e2; tident t2])
     ++ opt_seg tdbg dbg ++ tnl sp :: r) m [t1; t2] dbg (tnl sp :: r).
Proof.
  intros Hs Hm. eexists. unfold g_overflowbr. cbn [app]. rewrite <- app_assoc. cbn [app]. fw. rewrite vw_validate. fw. rewrite Hm.
  cbn [vbind]. destruct (fw_skip (str "cont") soup c1 k1 (tp (ch "=") e1 :: tident t1 :: tp (ch ",") c2 ::
    tkw (str "overflow") k2 :: tp (ch "=") e2 :: tident t2 :: opt_seg tdbg dbg ++ tnl sp :: r) Hs) as (l & ->).
  cbn [vbind]. fw. reflexivity.
Qed.
Lemma fw_case a x (q : strm) : case_seg a x -> vw (g_switch_case eoi (x ++ q)) = VOk 0 a q.
Proof. intros (ty & v & k & e & ->). unfold g_switch_case. cbn [app]. fw. reflexivity. Qed.
Lemma fw_switch m soup c1 k1 e1 d c2 cases cs dbg sp (r : strm) : fst m = str "switch" ->
  skip_seg (str "default") soup -> comma_sep case_seg cases cs ->
  gives (g_switch eoi) ((tident m :: soup ++ [tp (ch ",") c1; tkw (str "default") k1; tp (ch "=") e1; tident d;
                            tp (ch ",") c2] ++ cs) ++ opt_seg tdbg dbg ++ tnl sp :: r) m (d :: cases) dbg (tnl sp :: r).
Proof.
  intros Hm Hs Hc. eexists. unfold g_switch. rewrite <- Hm. cbn [app]. rewrite <- app_assoc. cbn [app]. fw.
  rewrite fw_kw_spanned. cbn [vbind].
  destruct (fw_skip (str "default") soup c1 k1 (tp (ch "=") e1 :: tident d :: tp (ch ",") c2 ::
    cs ++ opt_seg tdbg dbg ++ tnl sp :: r) Hs) as (l & ->).
  cbn [vbind]. fw. rewrite (fw_sep (g_switch_case eoi) case_seg cases cs _ ltac:(gp) ltac:(gp) fw_case Hc).
  - cbn [vbind]. fw. reflexivity.
  - destruct cases; destruct dbg; try reflexivity; intros sp' q E; discriminate.
Qed.
Lemma fw_phi_entry a x (q : strm) : phi_seg a x -> vw (g_phi_entry eoi (x ++ q)) = VOk 0 a q.
Proof.
  intros (o & comma & v & c & Hv & ->). unfold g_phi_entry, p_delimited_by. cbn [app]. rewrite <- app_assoc. cbn [app]. fw.
  assert (exists l, iter (fun s => vw (none_of [TPunct (ch "]"); TNewline] s)) (v ++ tp (ch "]") c :: q) 0 l (tp (ch "]") c :: q)) as (l & Hl).
  { induction Hv as [|t v [H1 H2] _ (l & IH)]; cbn [app].
    - exists []. constructor. apply fl_none_of. left. reflexivity.
    - eexists. change 0 with (0 + 0). econstructor; [|exact IH]. apply fw_none_of. intros [E|[E|[]]]; congruence. }
  erewrite fw_repeated; [|gp|exact Hl]. cbn [vbind]. fw. reflexivity.
Qed.
Lemma fw_phi m entries es dbg sp (r : strm) : fst m = str "phi" -> comma_sep phi_seg entries es ->
  gives (g_phi eoi) ((tident m :: es) ++ opt_seg tdbg dbg ++ tnl sp :: r) m entries dbg (tnl sp :: r).
Proof.
  intros Hm Hc. eexists. unfold g_phi. rewrite <- Hm. cbn [app]. fw.
  rewrite fw_kw_spanned. cbn [vbind]. rewrite (fw_sep (g_phi_entry eoi) phi_seg entries es _ ltac:(gp) ltac:(gp) fw_phi_entry Hc).
  - cbn [vbind]. fw. reflexivity.
  - destruct entries; destruct dbg; try reflexivity; intros sp' q E; discriminate.
Qed.
Lemma fw_any_item t (r : strm) : fst t <> TNewline -> ~ is_dbg (fst t) ->
  vw (p_not eoi (p_or (p_to (just TNewline) tt) (p_to (g_dbg_ref eoi) tt)) (t :: r)) = VOk 0 (fst t) r.
Proof.
  intros H1 H2. rewrite vw_not. rewrite vw_or_fail; [|rewrite vw_to, fl_just by exact H1; reflexivity].
  rewrite vw_to. destruct t as [[] sp]; try reflexivity. exfalso. apply H2. eexists. reflexivity.
Qed.
Lemma fw_other m soup dbg sp (r : strm) : Forall (fun t => fst t <> TNewline /\ ~ is_dbg (fst t)) soup ->
  (forall t r, soup = t :: r -> fst t <> TPunct (ch ":")) ->
  gives (g_any_instr eoi) ((tident m :: soup) ++ opt_seg tdbg dbg ++ tnl sp :: r) m [] dbg (tnl sp :: r).
Proof.
  intros Hs Hc. eexists. unfold g_any_instr. cbn [app]. fw. rewrite vw_rewind.
  assert (exists t q, soup ++ opt_seg tdbg dbg ++ tnl sp :: r = t :: q /\ fst t <> TPunct (ch ":")) as (t & q & E & Ht).
  { destruct soup as [|t soup]; [|exists t; eexists; split; [reflexivity|]; eapply Hc; reflexivity].
    destruct dbg; do 2 eexists; (split; [reflexivity|discriminate]). }
  rewrite E at 1. rewrite fw_none_of by (intros [E2|[]]; congruence). cbn [vbind].
  assert (exists l, iter (fun s => vw (p_not eoi (p_or (p_to (just TNewline) tt) (p_to (g_dbg_ref eoi) tt)) s))
     (soup ++ opt_seg tdbg dbg ++ tnl sp :: r) 0 l (opt_seg tdbg dbg ++ tnl sp :: r)) as (l & Hl).
  { clear - Hs. induction Hs as [|t v [H1 H2] _ (l & IH)]; cbn [app].
    - exists []. constructor. destruct dbg as [x|]; reflexivity.
    - eexists. change 0 with (0 + 0). econstructor; [|exact IH]. apply fw_any_item; assumption. }
  erewrite fw_repeated; [|gp|exact Hl]. cbn [vbind]. fw. reflexivity.
Qed.
(** the overflow form with a wrong mnemonic is never clean *)
Lemma overflow_unclean m (r : strm) : ends_with (fst m) (str "br") = false ->
  vw (g_overflowbr eoi (tident m :: r)) = VFail \/ exists n i q, vw (g_overflowbr eoi (tident m :: r)) = VOk (S n) i q.
Proof.
  intros Hm. destruct (vw (g_overflowbr eoi (tident m :: r))) as [n i q| |] eqn:E; [|left; reflexivity|].
  - right. unfold g_overflowbr in E.
    repeat (rewrite ?vw_map_with_span, ?vw_then, ?vw_then_ignore in E).
    rewrite vw_validate, fw_ident in E. cbn [vbind] in E. rewrite Hm in E.
    repeat (apply vbind_ok in E as (? & ? & ? & ? & E)).
    repeat match goal with H : vbind _ _ = VOk _ _ _ |- _ => apply vbind_ok in H as (? & ? & ? & ? & H) end.
    repeat match goal with H : VOk _ _ _ = VOk _ _ _ |- _ => inversion H; subst; clear H end.
    do 3 eexists. reflexivity.
  - exfalso. destruct (s_overflowbr eoi) as [_ Hn]. exact (Hn _ E).
Qed.

Lemma or_skip {A} (p q : parser (I:=token) A) st a r : 
  (vw (p st) = VFail \/ exists n x y, vw (p st) = VOk (S n) x y) -> vw (q st) = VOk 0 a r -> vw (p_or p q st) = VOk 0 a r.
Proof.
  intros [H|(n & x & y & H)] Hq; [rewrite vw_or_fail; assumption|]. eapply vw_or_err_ok; eassumption.
Qed.
Lemma or_unclean {A} (p q : parser (I:=token) A) st :
  (vw (p st) = VFail \/ exists n x y, vw (p st) = VOk (S n) x y) -> vw (q st) = VFail ->
  (vw (p_or p q st) = VFail \/ exists n x y, vw (p_or p q st) = VOk (S n) x y).
Proof.
  intros [H|(n & x & y & H)] Hq; [left; rewrite vw_or_fail; assumption|]. right. exists n, x, y. apply vw_or_err_fail; assumption.
Qed.
Lemma or_unclean_r {A} (p q : parser (I:=token) A) st :
  vw (p st) = VFail -> (vw (q st) = VFail \/ exists n x y, vw (q st) = VOk (S n) x y) ->
  (vw (p_or p q st) = VFail \/ exists n x y, vw (p_or p q st) = VOk (S n) x y).
Proof. intros H Hq. rewrite vw_or_fail by exact H. exact Hq. Qed.

Lemma tident_ne m k : fst m <> k -> fst (tident m) <> TIdent k.
Proof. intros H E. injection E as E. congruence. Qed.

Lemma fw_alternatives f m refs body dbg sp (r : strm) : body_seg f m refs body -> proper_form f (fst m) ->
  gives (g_instr_alternatives eoi) (body ++ opt_seg tdbg dbg ++ tnl sp :: r) m refs dbg (tnl sp :: r).
Proof.
  intros Hb Hp. unfold g_instr_alternatives. inversion Hb; subst; cbn [proper_form] in Hp.
  - destruct (fw_br m t dbg sp r H) as (s & E). exists s. do 5 apply vw_or_ok. exact E.
  - destruct (fw_cond m ty v c1 t1 c2 t2 dbg sp r H) as (s & E). exists s. do 4 apply vw_or_ok.
    rewrite vw_or_fail; [exact E|]. unfold g_br. cbn [app]. fw. rewrite <- H, fw_kw_spanned. reflexivity.
  - destruct Hp as [Hp Hm]. destruct (fw_overflow m soup c1 k1 e1 t1 c2 k2 e2 t2 dbg sp r H Hp) as (s & E). exists s.
    do 3 apply vw_or_ok. rewrite vw_or_fail; [exact E|]. cbn [app]. rewrite vw_or_fail; [apply fl_condbr|apply fl_br]; apply tident_ne; exact Hm.
  - destruct (fw_switch m soup c1 k1 e1 d c2 cases cs dbg sp r H H0 H1) as (s & E). exists s.
    do 2 apply vw_or_ok. apply or_skip; [|exact E]. cbn [app].
    assert (fst (tident m) <> TIdent (str "br")) as Hne by (apply tident_ne; rewrite H; discriminate).
    apply or_unclean_r; [rewrite vw_or_fail; [apply fl_condbr|apply fl_br]; exact Hne|].
    apply overflow_unclean. rewrite H. reflexivity.
  - destruct (fw_phi m refs es dbg sp r H H0) as (s & E). exists s.
    apply vw_or_ok. apply or_skip; [|exact E]. cbn [app].
    assert (fst (tident m) <> TIdent (str "br")) as Hne by (apply tident_ne; rewrite H; discriminate).
    apply or_unclean; [|apply fl_switch, tident_ne; rewrite H; discriminate].
    apply or_unclean_r; [rewrite vw_or_fail; [apply fl_condbr|apply fl_br]; exact Hne|].
    apply overflow_unclean. rewrite H. reflexivity.
  - destruct Hp as (Hm & Hsw & Hph). destruct (fw_other m soup dbg sp r H H0) as (s & E). exists s.
    apply or_skip; [|exact E]. cbn [app].
    assert (fst (tident m) <> TIdent (str "br")) as Hne by (apply tident_ne; intros E2; rewrite E2 in Hm; discriminate).
    apply or_unclean; [|apply fl_phi, tident_ne; exact Hph].
    apply or_unclean; [|apply fl_switch, tident_ne; exact Hsw].
    apply or_unclean_r; [rewrite vw_or_fail; [apply fl_condbr|apply fl_br]; exact Hne|].
    apply overflow_unclean. exact Hm.
Qed.

Lemma body_head f m refs body : body_seg f m refs body -> exists q, body = tident m :: q.
Proof. intros H; inversion H; eexists; reflexivity. Qed.

Lemma fw_instruction i n seg sp (r : strm) : instr_seg proper_form i n seg ->
  n = 0 /\ vw (g_instruction eoi (seg ++ tnl sp :: r)) = VOk 0 i (tnl sp :: r).
Proof.
  intros (f & tgt & body & Ht & Hb & -> & Hsp & -> & Hok). split.
  { destruct f; try reflexivity. cbn in Hok |- *. destruct Hok as [-> _]. reflexivity. }
  destruct (fw_alternatives f (i_instr i) (i_refs i) body (i_dbg i) sp r Hb Hok) as (s & E).
  set (seg := tgt ++ body ++ opt_seg tdbg (i_dbg i)) in *.
  assert (seg <> []) as Hne.
  { unfold seg. destruct (body_head _ _ _ _ Hb) as (q & ->). destruct tgt; discriminate. }
  unfold g_instruction. rewrite vw_map_with_span, vw_then.
  assert (vw (p_or_not (p_then_ignore (p_ignore_then (g_type eoi) (g_local_name eoi)) (just (TPunct (ch "="))))
     (seg ++ tnl sp :: r)) = VOk 0 (i_target i) (body ++ opt_seg tdbg (i_dbg i) ++ tnl sp :: r)) as ->.
  { rewrite vw_or_not. unfold seg. destruct (i_target i) as [x|]; cbn [target_seg] in Ht.
    - destruct Ht as (ty & e & ->). cbn [app]. fw. rewrite <- !app_assoc. reflexivity.
    - subst tgt. cbn [app]. destruct (body_head _ _ _ _ Hb) as (q & ->). rewrite <- app_assoc. reflexivity. }
  cbn [vbind]. rewrite E. cbn [vbind i_instr i_refs i_dbg]. rewrite span_since_cover by exact Hne. rewrite <- Hsp.
  destruct i; reflexivity.
Qed.

(** what cannot start an instruction: a label, or a token that is neither an
    identifier nor a type *)
Lemma fl_alternatives_tok t (r : strm) : (forall x, fst t <> TIdent x) -> vw (g_instr_alternatives eoi (t :: r)) = VFail.
Proof.
  intros H. assert (vw (g_ident eoi (t :: r)) = VFail) as Hi.
  { destruct t as [[] sp]; try reflexivity. exfalso. eapply H. reflexivity. }
  unfold g_instr_alternatives.
  rewrite vw_or_fail; [unfold g_any_instr; fw; rewrite Hi; reflexivity|].
  rewrite vw_or_fail; [apply fl_phi, H|]. rewrite vw_or_fail; [apply fl_switch, H|].
  rewrite vw_or_fail; [unfold g_overflowbr; fw; rewrite vw_validate, Hi; reflexivity|].
  rewrite vw_or_fail; [apply fl_condbr, H|apply fl_br, H].
Qed.
Lemma fl_instruction_tok t (r : strm) : (forall x, fst t <> TIdent x) -> (forall x, fst t <> TType x) ->
  vw (g_instruction eoi (t :: r)) = VFail.
Proof.
  intros H1 H2. unfold g_instruction. rewrite vw_map_with_span, vw_then, vw_or_not.
  assert (vw (p_then_ignore (p_ignore_then (g_type eoi) (g_local_name eoi)) (just (TPunct (ch "="))) (t :: r)) = VFail) as ->.
  { fw. destruct t as [[] sp]; try reflexivity. exfalso. eapply H2. reflexivity. }
  cbn [vbind]. rewrite fl_alternatives_tok by exact H1. reflexivity.
Qed.
Lemma skip_label w c sp (r : strm) : vw (g_skip_to eoi w (tp (ch ":") c :: tnl sp :: r)) = VOk 0 [TPunct (ch ":")] (tnl sp :: r).
Proof.
  unfold g_skip_to. apply fw_repeated; [gp|]. change 0 with (0 + 0). econstructor.
  - apply vw_or_ok. apply (fw_none_of [TPunct (ch ","); TNewline] (tp (ch ":") c)). intros [E|[E|[]]]; discriminate.
  - constructor. rewrite vw_or_fail by (apply fl_none_of; right; left; reflexivity). fw. reflexivity.
Qed.
Lemma fl_instruction_label x c sp (r : strm) : vw (g_instruction eoi (tident x :: tp (ch ":") c :: tnl sp :: r)) = VFail.
Proof.
  unfold g_instruction. rewrite vw_map_with_span, vw_then, vw_or_not.
  change (vw (p_then_ignore (p_ignore_then (g_type eoi) (g_local_name eoi)) (just (TPunct (ch "="))) (tident x :: tp (ch ":") c :: tnl sp :: r)))
    with (@VFail token spanned). cbn [vbind].
  assert (vw (g_instr_alternatives eoi (tident x :: tp (ch ":") c :: tnl sp :: r)) = VFail) as ->; [|reflexivity].
  unfold g_instr_alternatives.
  assert (forall k, fst x = k \/ fst (tident x) <> TIdent k) as Hk.
  { intros k. destruct (text_eqb_spec (fst x) k); [left; assumption|right; apply tident_ne; assumption]. }
  rewrite vw_or_fail; [unfold g_any_instr; fw; rewrite vw_rewind, fl_none_of by (left; reflexivity); reflexivity|].
  rewrite vw_or_fail.
  2:{ rewrite vw_or_fail.
      2:{ rewrite vw_or_fail.
          2:{ rewrite vw_or_fail.
              - destruct (Hk (str "br")) as [E|E]; [|apply fl_condbr, E]. unfold g_condbr. fw. rewrite <- E, fw_kw_spanned. reflexivity.
              - destruct (Hk (str "br")) as [E|E]; [|apply fl_br, E]. unfold g_br. fw. rewrite <- E, fw_kw_spanned. reflexivity. }
          unfold g_overflowbr. fw. rewrite vw_validate. fw. rewrite skip_label. reflexivity. }
      destruct (Hk (str "switch")) as [E|E]; [|apply fl_switch, E]. unfold g_switch. fw. rewrite <- E, fw_kw_spanned. cbn [vbind].
      rewrite skip_label. reflexivity. }
  destruct (Hk (str "phi")) as [E|E]; [|apply fl_phi, E]. unfold g_phi. fw. rewrite <- E, fw_kw_spanned. cbn [vbind].
  rewrite (vw_separated_fail (g_phi_entry eoi)); [reflexivity|apply pure_phi_entry|reflexivity].
Qed.

(** what follows a list of instructions in a body *)
Definition after_instrs (st : strm) : Prop :=
  (exists x c sp r, st = tident x :: tp (ch ":") c :: tnl sp :: r) \/ (exists c r, st = tp (ch "}") c :: r).
Lemma after_strip st : after_instrs st -> strip st = st.
Proof. intros [(x & c & sp & r & ->)|(c & r & ->)]; reflexivity. Qed.
Lemma after_fail st : after_instrs st -> vw (p_padded_by (g_instruction eoi) (g_nls eoi) st) = VFail.
Proof.
  intros H. apply fl_padded. rewrite after_strip by exact H. destruct H as [(x & c & sp & r & ->)|(c & r & ->)].
  - apply fl_instruction_label.
  - apply fl_instruction_tok; discriminate.
Qed.
Lemma instr_head ok i n seg : instr_seg ok i n seg -> exists t q, seg = t :: q /\ fst t <> TNewline.
Proof.
  intros (f & tgt & body & Ht & Hb & -> & _). destruct (i_target i); cbn in Ht.
  - destruct Ht as (ty & e & ->). do 2 eexists. split; [reflexivity|discriminate].
  - subst. destruct (body_head _ _ _ _ Hb) as (q & ->). do 2 eexists. split; [reflexivity|discriminate].
Qed.
Lemma iter_instructions l n seg : instrs_seg proper_form l n seg -> forall (after : strm), after_instrs after ->
  n = 0 /\ iter (fun s => vw (p_padded_by (g_instruction eoi) (g_nls eoi) s)) (strip (seg ++ after)) 0 l after.
Proof.
  induction 1 as [|i l n m pre seg post rest Hpre Hi Hpost Hne Hl IH]; intros after Ha.
  - split; [reflexivity|]. cbn [app]. rewrite after_strip by exact Ha. constructor. apply after_fail. exact Ha.
  - destruct (IH after Ha) as [-> IH2]. destruct (instr_head _ _ _ _ Hi) as ([t sp] & q & E & Ht).
    destruct post as [|[nl nsp] post]; [congruence|]. inversion Hpost as [|? ? Hnl Hpost']; subst. cbn in Hnl. subst nl.
    destruct (fw_instruction i n _ nsp (post ++ rest ++ after) Hi) as [-> Hw]. split; [reflexivity|].
    rewrite <- !app_assoc. rewrite strip_nls by exact Hpre. rewrite <- app_comm_cons. rewrite strip_id by exact Ht.
    change 0 with (0 + 0). econstructor; [|exact IH2].
    erewrite fw_padded; [|rewrite strip_id by exact Ht; exact Hw].
    f_equal. cbn [strip tnl]. rewrite strip_nls by exact Hpost'. reflexivity.
Qed.
Lemma block_after ok b n seg : block_seg ok b n seg -> forall r, after_instrs (seg ++ r).
Proof.
  intros (label & comma & nls & rest & _ & _ & Hn & Hne & _ & -> & _) r. left.
  destruct nls as [|[t sp] nls]; [congruence|]. inversion Hn; subst. cbn in *. subst t.
  do 4 eexists. reflexivity.
Qed.
Lemma blocks_after ok l n seg c r : blocks_seg ok l n seg -> after_instrs (seg ++ tp (ch "}") c :: r).
Proof.
  intros H. inversion H; subst; [right; do 2 eexists; reflexivity|]. rewrite <- app_assoc. eapply block_after. eassumption.
Qed.
Lemma fw_basic_block b n seg (after : strm) : block_seg proper_form b n seg -> after_instrs after ->
  n = 0 /\ vw (g_basic_block eoi (seg ++ after)) = VOk 0 b after.
Proof.
  intros (label & comma & nls & rest & Hl & Hc & Hn & Hne & Hi & -> & Hsp) Ha.
  destruct (iter_instructions _ _ _ Hi after Ha) as [-> Hit]. split; [reflexivity|].
  destruct nls as [|[nl nsp] nls]; [congruence|]. inversion Hn as [|? ? Hnl Hn']; subst. cbn in Hnl. subst nl.
  unfold g_basic_block. cbn [app]. rewrite <- app_assoc. fw. unfold tp. rewrite span_one.
  destruct (fw_nls1 nsp (nls ++ rest ++ after)) as (l & E). unfold tnl in E. rewrite E. cbn [vbind].
  rewrite strip_nls by exact Hn'. erewrite fw_repeated; [|gp|exact Hit]. cbn [vbind]. unfold mk_labelled_bb.
  rewrite olast_end, <- Hsp. destruct b; cbn in *. subst. reflexivity.
Qed.
Lemma iter_blocks l n seg c r : blocks_seg proper_form l n seg ->
  n = 0 /\ iter (fun s => vw (g_basic_block eoi s)) (seg ++ tp (ch "}") c :: r) 0 l (tp (ch "}") c :: r).
Proof.
  induction 1 as [|b l n m seg rest Hb Hl [-> IH]].
  - split; [reflexivity|]. constructor. reflexivity.
  - rewrite <- app_assoc. destruct (fw_basic_block b n seg (rest ++ tp (ch "}") c :: r) Hb) as [-> E].
    { eapply blocks_after. exact Hl. }
    split; [reflexivity|]. change 0 with (0 + 0). econstructor; [exact E|exact IH].
Qed.
Lemma fw_func_body b n seg (r : strm) : fbody_seg proper_form b n seg ->
  n = 0 /\ vw (g_func_body eoi (seg ++ r)) = VOk 0 b r.
Proof.
  intros (nls & o & n1 & s1 & bbs & n2 & s2 & Hn & Hne & Ho & Hb & Ebl & -> & ->).
  destruct (iter_blocks _ _ _ (fb_close b) r Hb) as [-> Hit].
  destruct nls as [|[nl nsp] nls]; [congruence|]. inversion Hn as [|? ? Hnl Hn']; subst. cbn in Hnl. subst nl.
  assert (n1 = 0 /\ vw (p_or_not (p_map (p_repeated_at_least 1 (p_padded_by (g_instruction eoi) (g_nls eoi))) mk_initial_bb)
     (strip (s1 ++ s2 ++ tp (ch "}") (fb_close b) :: r))) = VOk 0 o (s2 ++ tp (ch "}") (fb_close b) :: r)) as [-> E].
  { pose proof (blocks_after _ _ _ _ (fb_close b) r Hb) as Ha. destruct o as [b0|].
    - destruct Ho as (H1 & H2 & H3 & i & q & H4 & H5). destruct (iter_instructions _ _ _ H3 _ Ha) as [-> Hi].
      split; [reflexivity|]. rewrite vw_or_not, vw_map. erewrite fw_rep_at_least; [|gp|exact Hi]. rewrite H4 at 1. cbn [length Nat.ltb Nat.leb vbind].
      f_equal. f_equal. unfold mk_initial_bb. rewrite olast_end. rewrite H4 at 2. cbn iota. rewrite <- H5. destruct b0; cbn in *; subst; reflexivity.
    - destruct Ho as [-> ->]. split; [reflexivity|]. cbn [app]. rewrite after_strip by exact Ha.
      rewrite vw_or_not, vw_map. erewrite fw_rep_at_least; [|gp|constructor; apply after_fail; exact Ha]. reflexivity. }
  split; [reflexivity|].
  unfold g_func_body. cbn [app]. rewrite <- !app_assoc. cbn [app]. fw. rewrite span_one_tp.
  destruct (fw_nls1 nsp (nls ++ s1 ++ s2 ++ tp (ch "}") (fb_close b) :: r)) as (l & E1). unfold tnl in E1. rewrite E1. cbn [vbind].
  rewrite strip_nls by exact Hn'. rewrite E. cbn [vbind]. erewrite fw_repeated; [|gp|exact Hit]. cbn [vbind].
  fw. rewrite span_one_tp. rewrite <- Ebl. destruct b; reflexivity.
Qed.

(** statements *)
Lemma fw_eol e (r : strm) : eol_seg e r -> exists x, vw (g_eol eoi (e ++ r)) = VOk 0 x r.
Proof. intros [(sp & ->)|[-> ->]]; eexists; reflexivity. Qed.
Lemma fw_soup d e (r : strm) : no_newline d -> eol_seg e r -> vw (g_token_soup eoi (d ++ e ++ r)) = VOk 0 d (e ++ r).
Proof.
  intros Hd He. unfold g_token_soup. apply fw_repeated; [gp|].
  induction Hd as [|[t sp] d Ht _ IH]; cbn [app].
  - constructor. destruct He as [(sp & ->)|[-> ->]]; reflexivity.
  - change 0 with (0 + 0). econstructor; [|exact IH]. rewrite vw_map_with_span.
    rewrite (fw_none_of [TNewline] (t, sp)) by (intros [E|[]]; cbn in *; congruence). cbn [vbind fst]. rewrite span_one. reflexivity.
Qed.
Lemma fw_stmt_alternatives s n seg (r : strm) : stmt_seg proper_form s n seg r ->
  n = 0 /\ vw (g_stmt_alternatives eoi (seg ++ r)) = VOk 0 s r.
Proof.
  intros H. unfold g_stmt_alternatives. inversion H; subst.
  - split; [reflexivity|]. do 4 apply vw_or_ok. unfold g_global_var. cbn [app]. rewrite <- app_assoc. fw.
    rewrite fw_soup by assumption. cbn [vbind]. destruct (fw_eol _ _ H1) as (y & ->). reflexivity.
  - split; [reflexivity|]. do 3 apply vw_or_ok. rewrite vw_or_fail by reflexivity. unfold g_func_decl. cbn [app].
    rewrite <- !app_assoc. fw. rewrite fw_just. cbn [vbind]. rewrite (fw_signature sig sseg) by assumption. cbn [vbind].
    assert (vw (p_or_not (g_func_addr eoi) (aseg ++ opt_seg tdbg dbg ++ e ++ r)) = VOk 0 addr (opt_seg tdbg dbg ++ e ++ r)) as ->.
    { rewrite vw_or_not. destruct addr as [a|].
      - destruct H1 as (eq & ->). unfold g_func_addr. cbn [app]. fw. reflexivity.
      - subst aseg. cbn [app]. unfold g_func_addr. destruct dbg; [reflexivity|]. destruct H2 as [(sp & ->)|[-> ->]]; reflexivity. }
    cbn [vbind]. assert (vw (p_or_not (g_dbg_ref eoi) (opt_seg tdbg dbg ++ e ++ r)) = VOk 0 dbg (e ++ r)) as ->.
    { rewrite vw_or_not. destruct dbg as [x|]; [cbn [opt_seg app]; fw; reflexivity|].
      destruct H2 as [(sp & ->)|[-> ->]]; reflexivity. }
    cbn [vbind]. destruct (fw_eol _ _ H2) as (y & ->). reflexivity.
  - destruct (fw_func_body body n bseg (e ++ r) H1) as [-> Eb]. split; [reflexivity|]. do 2 apply vw_or_ok.
    rewrite vw_or_fail by (rewrite vw_or_fail by reflexivity; reflexivity). unfold g_func_def. cbn [app]. rewrite <- !app_assoc. fw. rewrite fw_just. cbn [vbind]. rewrite span_one.
    rewrite (fw_signature sig sseg) by assumption. cbn [vbind]. rewrite Eb. cbn [vbind].
    destruct (fw_eol _ _ H2) as (y & ->). reflexivity.
  - split; [reflexivity|]. apply vw_or_ok. rewrite vw_or_fail.
    + unfold g_func_deps. cbn [app]. fw. rewrite (fw_sep _ (fun a s => s = [tglobal a]) deps dseg); [reflexivity|gp|gp| |assumption|].
      * intros a y q ->. cbn [app]. apply fw_global.
      * destruct deps as [|d deps]; cbn [deps_stop] in H1.
        -- destruct r as [|[t sp] q]; [reflexivity|]. destruct t; try reflexivity. exfalso. eapply (H1 (_, sp)). reflexivity.
        -- intros sp q ->. destruct q as [|[t sp'] q]; [reflexivity|]. destruct t; try reflexivity. exfalso. eapply (H1 sp (_, sp')). reflexivity.
    + rewrite vw_or_fail; [reflexivity|]. rewrite vw_or_fail; [reflexivity|]. unfold g_global_var. cbn [app]. fw. reflexivity.
  - split; [reflexivity|]. rewrite vw_or_fail by (do 3 (rewrite vw_or_fail; [reflexivity|]); reflexivity). unfold g_dbg_annotation. cbn [app]. rewrite <- app_assoc. fw.
    rewrite fw_soup by assumption. cbn [vbind]. destruct (fw_eol _ _ H1) as (y & ->). reflexivity.
Qed.
Lemma stmt_head ok s n seg r : stmt_seg ok s n seg r -> exists t q, seg = t :: q /\ fst t <> TNewline.
Proof. intros H; inversion H; subst; do 2 eexists; (split; [reflexivity|discriminate]). Qed.
Lemma fw_statement s n pre seg post (r : strm) : newlines pre -> newlines post -> stmt_seg proper_form s n seg (post ++ r) ->
  n = 0 /\ vw (g_statement eoi (pre ++ seg ++ post ++ r)) = VOk 0 s (strip r).
Proof.
  intros Hpre Hpost H. destruct (fw_stmt_alternatives _ _ _ _ H) as [-> E]. split; [reflexivity|].
  destruct (stmt_head _ _ _ _ _ H) as ([t sp] & q & -> & Ht).
  unfold g_statement. fold (g_stmt_alternatives eoi). erewrite fw_padded.
  - rewrite strip_nls by exact Hpost. reflexivity.
  - rewrite strip_nls by exact Hpre. cbn [app]. rewrite strip_id by exact Ht. exact E.
Qed.
End C.
