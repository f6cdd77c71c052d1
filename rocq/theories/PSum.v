(** Putting documents one behind the other: tokens and statements. *)
From Verif Require Import Text Chumsky Tokenizer Parser SpecLex SpecParse SpecSimilar SpecExact SpecSum PLex PLexSpec PTokens PLexProps PNatural PExact.

(** ** No instruction goes on behind a line that ends with a closing brace *)
Definition is_close (t : token) : bool := match t with TPunct c => N.eqb c (ch "}") | _ => false end.
Fixpoint calm (c : bool) (l : list stoken) : Prop :=
  match l with
  | [] => True
  | t :: r => (c = true -> fst t <> TNewline) /\ calm (is_close (fst t)) r
  end.
Definition safe (l : list stoken) : Prop := forall c, calm c l.

Lemma safe_app x y : safe x -> safe y -> safe (x ++ y).
Proof.
  intros Hx Hy c. specialize (Hx c). revert c Hx. induction x as [|t r IH]; intros c Hx; [apply Hy|].
  destruct Hx as [H1 H2]. split; [exact H1|apply IH, H2].
Qed.
Lemma safe_cons t r : fst t <> TNewline -> safe r -> safe (t :: r).
Proof. intros H Hr c. split; [intros _; exact H|apply Hr]. Qed.
Lemma safe_nil : safe []. Proof. intros c. exact I. Qed.
(** A token that is not a brace may be followed by anything. *)
Lemma safe_pair t v r : fst t <> TNewline -> is_close (fst t) = false -> safe r -> safe (t :: v :: r).
Proof. intros H Hc Hr c. split; [intros _; exact H|]. rewrite Hc. split; [discriminate|apply Hr]. Qed.
Lemma safe_skip w s : skip_seg w s -> safe s.
Proof.
  induction 1 as [|t r H1 H2 _ IH|sp t r H _ IH]; [apply safe_nil|apply safe_cons; assumption|apply safe_pair; [discriminate|reflexivity|exact IH]].
Qed.
Lemma safe_sep {A} (item : A -> list stoken -> Prop) l s : (forall a x, item a x -> safe x) -> comma_sep item l s -> safe s.
Proof.
  intros Hi. induction 1 as [|a x H|a x sp b l xs H _ IH]; [apply safe_nil|exact (Hi _ _ H)|].
  apply safe_app; [exact (Hi _ _ H)|]. apply safe_cons; [discriminate|exact IH].
Qed.
Lemma safe_forall s : Forall (fun t => fst t <> TNewline) s -> safe s.
Proof. induction 1; [apply safe_nil|apply safe_cons; assumption]. Qed.
Ltac safely := repeat first [apply safe_nil | apply safe_cons; [discriminate|]].
Lemma safe_case t s : case_seg t s -> safe s.
Proof. intros (ty & v & k & e & ->). apply safe_pair; [discriminate|reflexivity|]. safely. Qed.
Lemma safe_phi t s : phi_seg t s -> safe s.
Proof.
  intros (o & comma & v & c & Hv & ->). safely. apply safe_app; [|safely].
  apply safe_forall. eapply Forall_impl; [|exact Hv]. intros x [_ H]. exact H.
Qed.
Lemma safe_body f m refs body : body_seg f m refs body -> safe body.
Proof.
  destruct 1 as [m t Hm|m ty v c1 t1 c2 t2 Hm|m soup c1 k1 e1 t1 c2 k2 e2 t2 Hs|m soup c1 k1 e1 d c2 cases cs Hm Hs Hc|m es s Hm Hs|m soup Hs _].
  - safely.
  - apply safe_cons; [discriminate|]. apply safe_pair; [discriminate|reflexivity|safely].
  - apply safe_cons; [discriminate|]. apply safe_app; [exact (safe_skip _ _ Hs)|safely].
  - apply safe_cons; [discriminate|]. apply safe_app; [exact (safe_skip _ _ Hs)|]. cbn [app]. safely.
    exact (safe_sep _ _ _ safe_case Hc).
  - apply safe_cons; [discriminate|]. exact (safe_sep _ _ _ safe_phi Hs).
  - apply safe_cons; [discriminate|]. apply safe_forall. eapply Forall_impl; [|exact Hs]. intros x [H _]. exact H.
Qed.
Lemma safe_dbg (o : option spanned) : safe (opt_seg tdbg o).
Proof. destruct o; cbn [opt_seg]; safely. Qed.

Lemma calm_close z (x y : stoken) q c : is_close (fst x) = true -> fst y = TNewline -> ~ calm c (z ++ x :: y :: q).
Proof.
  intros Hx Hy. revert c. induction z as [|t r IH]; intros c; cbn [app calm].
  - intros (_ & H & _). exact (H Hx Hy).
  - intros [_ H]. exact (IH _ H).
Qed.
(** A safe text in front of something ends before a line that ends with a brace does. *)
Lemma safe_split b r z csp nsp w : safe b -> b ++ r = z ++ tp (ch "}") csp :: tnl nsp :: w ->
  exists l, z ++ [tp (ch "}") csp] = b ++ l /\ r = l ++ tnl nsp :: w.
Proof.
  intros Hb H. replace (z ++ tp (ch "}") csp :: tnl nsp :: w) with ((z ++ [tp (ch "}") csp]) ++ tnl nsp :: w) in H by (rewrite <- app_assoc; reflexivity).
  apply app_eq_app in H as (l & [[H1 H2]|[H1 H2]]); [|exists l; split; assumption].
  destruct l as [|x l].
  - exists []. rewrite app_nil_r in H1. split; [rewrite app_nil_r; symmetry; exact H1|symmetry; exact H2].
  - exfalso. injection H2 as <- H2. rewrite <- app_assoc in H1. cbn [app] in H1. specialize (Hb false). rewrite H1 in Hb.
    revert Hb. apply calm_close; reflexivity.
Qed.

Lemma reads_more f m refs dbg z csp nsp w rest : reads f m refs dbg (z ++ tp (ch "}") csp :: tnl nsp :: w) rest ->
  exists l, rest = l ++ tnl nsp :: w /\ forall w', reads f m refs dbg (z ++ tp (ch "}") csp :: tnl nsp :: w') (l ++ tnl nsp :: w').
Proof.
  intros (body & Hb & He & E & sp & q & Eq).
  assert (safe (body ++ opt_seg tdbg dbg)) as Hs by (apply safe_app; [exact (safe_body _ _ _ _ Hb)|apply safe_dbg]).
  rewrite app_assoc in E. symmetry in E. apply (safe_split _ _ _ _ _ _ Hs) in E as (l & E1 & E2). exists l. split; [exact E2|].
  intros w'. exists body. split; [exact Hb|]. split; [exact He|]. split.
  - replace (z ++ tp (ch "}") csp :: tnl nsp :: w') with ((z ++ [tp (ch "}") csp]) ++ tnl nsp :: w') by (rewrite <- app_assoc; reflexivity).
    rewrite E1, <- !app_assoc. reflexivity.
  - rewrite E2 in Eq. destruct l as [|x l]; cbn [app] in *; [eauto|]. injection Eq as -> Eq. eauto.
Qed.

Section More.
Variables (csp nsp : span) (w w' : list stoken).
Notation tail := (tp (ch "}") csp :: tnl nsp :: w).
Notation tail' := (tp (ch "}") csp :: tnl nsp :: w').

Lemma instr_more i seg r : instr_at i seg (r ++ tail) -> instr_at i seg (r ++ tail').
Proof.
  intros (f & tgt & st & Ht & E & Hr & Hp & Hs). destruct Hr as (body & Hb & He & Est & sp & q & Eq).
  exists f, tgt, (body ++ opt_seg tdbg (i_dbg i) ++ r ++ tail'). split; [exact Ht|].
  assert (seg = tgt ++ body ++ opt_seg tdbg (i_dbg i)) as Eseg.
  { apply (app_inv_tail (r ++ tail)). rewrite E, Est, <- !app_assoc. reflexivity. }
  split; [rewrite Eseg, <- !app_assoc; reflexivity|]. split; [|split; [|exact Hs]].
  - exists body. split; [exact Hb|]. split; [exact He|]. split; [reflexivity|].
    destruct r as [|x r]; cbn [app] in *; [discriminate|]. injection Eq as -> _. eauto.
  - intros f' m refs dbg rest H. rewrite Est in Hp.
    assert (forall w0, body ++ opt_seg tdbg (i_dbg i) ++ r ++ tp (ch "}") csp :: tnl nsp :: w0 = (body ++ opt_seg tdbg (i_dbg i) ++ r) ++ tp (ch "}") csp :: tnl nsp :: w0) as A
      by (intros; rewrite <- !app_assoc; reflexivity).
    rewrite A in H, Hp. apply reads_more in H as (l & _ & H). exact (Hp _ _ _ _ _ (H w)).
Qed.
Lemma instrs_more l seg r : instrs_at l seg (r ++ tail) -> instrs_at l seg (r ++ tail').
Proof.
  intros H. remember (r ++ tail) as R eqn:ER. induction H as [|i l pre seg post more rest H1 H2 H3 Hi Hl IH]; subst; [constructor|].
  constructor; [assumption..| |exact (IH eq_refl)].
  rewrite !app_assoc. apply instr_more. rewrite <- !app_assoc. exact Hi.
Qed.
Lemma blocks_more l seg r : blocks_at l seg (r ++ tail) -> blocks_at l seg (r ++ tail').
Proof.
  intros H. remember (r ++ tail) as R eqn:ER. induction H as [|b l seg more rest Hb Hl IH]; subst; [constructor|].
  constructor; [|exact (IH eq_refl)].
  destruct Hb as (label & comma & nls & m2 & B1 & B2 & B3 & B4 & B5 & B6 & B7). exists label, comma, nls, m2.
  repeat (split; [assumption|]). split; [|split; assumption].
  rewrite app_assoc. apply instrs_more. rewrite <- app_assoc. exact B5.
Qed.
End More.

Lemma fbody_more b seg nsp w w' : fbody_at b seg (tnl nsp :: w) -> fbody_at b seg (tnl nsp :: w').
Proof.
  intros (nls & o & seg1 & bbs & seg2 & H1 & H2 & H3 & H4 & H5 & H6). exists nls, o, seg1, bbs, seg2.
  split; [exact H1|]. split; [exact H2|]. split; [|split; [|split; assumption]].
  - destruct o as [x|]; [|exact H3]. destruct H3 as (B1 & B2 & B3 & B4). split; [exact B1|]. split; [exact B2|]. split; [|exact B4].
    eapply instrs_more. exact B3.
  - apply (blocks_more (fb_close b) nsp w w' bbs seg2 []). exact H4.
Qed.

(** ** Statements *)
Definition ends_line (l : list stoken) : Prop := exists x sp, l = x ++ [tnl sp].
Lemma ends_line_app a b : b <> [] -> ends_line (a ++ b) -> ends_line b.
Proof.
  intros Hb (x & sp & H). destruct (exists_last Hb) as (b' & y & ->). rewrite app_assoc in H. apply app_inj_tail in H as [_ ->].
  exists b', sp. reflexivity.
Qed.
Lemma not_line l t : no_newline l -> fst t <> TNewline -> ~ ends_line (t :: l).
Proof.
  intros H Ht (x & sp & E). assert (In (tnl sp) (t :: l)) as Hin by (rewrite E; apply in_or_app; right; left; reflexivity).
  destruct Hin as [->|Hin]; [exact (Ht eq_refl)|]. unfold no_newline in H. rewrite Forall_forall in H. exact (H _ Hin eq_refl).
Qed.
Lemma not_line_last l t : fst t <> TNewline -> ~ ends_line (l ++ [t]).
Proof. intros Ht (x & sp & E). apply app_inj_tail in E as [_ ->]. exact (Ht eq_refl). Qed.

Lemma eol_more e rest x : eol_seg e rest -> (e = [] -> rest <> []) -> eol_seg e (rest ++ x).
Proof. intros [(sp & ->)|[-> ->]] H; [left; eauto|exfalso; exact (H eq_refl eq_refl)]. Qed.
Lemma sig_last sig s : sig_seg sig s -> exists a c, s = a ++ [tp (ch ")") c].
Proof. intros (o & c & args & _ & ->). rewrite !app_assoc. eauto. Qed.

Lemma stmt_more s seg rest x : stmt_at s seg rest -> ends_line (seg ++ rest) -> stmt_at s seg (rest ++ x).
Proof.
  assert (forall d t e, no_newline d -> fst t <> TNewline -> eol_seg e rest -> forall pre, ends_line ((pre ++ t :: d ++ e) ++ rest) -> eol_seg e (rest ++ x)) as A.
  { intros d t e Hd Ht He pre Hl. apply eol_more; [exact He|]. intros -> ->. rewrite !app_nil_r in Hl.
    apply ends_line_app in Hl; [|discriminate]. exact (not_line _ _ Hd Ht Hl). }
  intros H Hl. destruct s; cbn [stmt_at] in *.
  - inversion H as [x0 d eq e r Hd He| | | |]; subst. constructor; [exact Hd|].
    refine (A def (tp (ch "=") eq) e Hd _ He [tglobal name] Hl). discriminate.
  - inversion H as [|kw sg sseg ad aseg db e r Hs Ha He| | |]; subst. apply ss_decl; [exact Hs|exact Ha|].
    apply eol_more; [exact He|]. intros -> ->. rewrite !app_nil_r in Hl. destruct dbgref as [g|]; cbn [opt_seg] in Hl.
    { rewrite app_assoc, app_comm_cons in Hl. revert Hl. apply not_line_last. discriminate. }
    rewrite app_nil_r in Hl. destruct addr as [a|].
    + destruct Ha as (eq & ->). rewrite app_comm_cons in Hl. replace [tp (ch "=") eq; thex a] with ([tp (ch "=") eq] ++ [thex a]) in Hl by reflexivity.
      rewrite app_assoc in Hl. revert Hl. apply not_line_last. discriminate.
    + subst aseg. rewrite app_nil_r in Hl. apply sig_last in Hs as (a & c & ->). rewrite app_comm_cons in Hl. revert Hl. apply not_line_last. discriminate.
  - destruct H as (sseg & bseg & e & Hs & Hb & He & ->). exists sseg, bseg, e. split; [exact Hs|].
    destruct He as [(sp & ->)|[-> ->]].
    + split; [|split; [left; eauto|reflexivity]]. cbn [app] in *. eapply fbody_more. exact Hb.
    + exfalso. destruct Hb as (nls & o & seg1 & bbs & seg2 & _ & _ & _ & _ & _ & ->). rewrite !app_nil_r in Hl.
      rewrite !app_comm_cons, !app_assoc in Hl. revert Hl. rewrite ?app_comm_cons, ?app_assoc. apply not_line_last. discriminate.
  - inversion H as [| | |x0 k1 k2 deps dseg r Hd Hst|]; subst. constructor; [exact Hd|].
    assert (rest <> []) as Hne.
    { intros ->. rewrite app_nil_r in Hl. revert Hl. apply not_line; [|discriminate].
      constructor; [discriminate|]. constructor; [discriminate|]. clear -Hd. induction Hd as [|a y E|a y sp b l ys E _ IH]; [constructor|subst; repeat constructor; discriminate|].
      subst. constructor; [discriminate|]. constructor; [discriminate|exact IH]. }
    apply ends_line_app in Hl; [|exact Hne]. destruct Hl as (r0 & sp0 & ->).
    destruct dependencies; cbn [deps_stop] in *.
    + intros y q E. destruct r0; cbn [app] in *; [discriminate|]. injection E as -> _. exact (Hst _ _ eq_refl).
    + intros sp y q E. destruct r0 as [|u [|v r0]]; cbn [app] in *; [discriminate|discriminate|]. injection E as -> -> _. exact (Hst _ _ _ eq_refl).
  - inversion H as [| | | |x0 d eq e r Hd He]; subst. constructor; [exact Hd|].
    refine (A def (tp (ch "=") eq) e Hd _ He [tdbg name] Hl). discriminate.
Qed.

Lemma module_more ss toks ss' toks' : module_at ss toks -> ss = [] \/ ends_line toks -> module_at ss' toks' -> module_at (ss ++ ss') (toks ++ toks').
Proof.
  intros H. induction H as [|s ss pre seg post rest H1 H2 Hs Hm IH]; intros Hl H'; [exact H'|].
  destruct Hl as [Hl|Hl]; [discriminate|]. rewrite <- !app_assoc. cbn [app]. constructor; [assumption..| |].
  - rewrite app_assoc. apply stmt_more; [exact Hs|]. apply (ends_line_app pre); [|exact Hl].
    intros E. apply app_eq_nil in E as [-> _]. destruct s; cbn in Hs; try (inversion Hs; fail). destruct Hs as (? & ? & ? & _ & _ & _ & E). discriminate.
  - apply IH; [|exact H']. destruct ss as [|s2 ss]; [left; reflexivity|]. right.
    rewrite !app_assoc in Hl. apply ends_line_app in Hl; [exact Hl|]. intros ->. inversion Hm as [|? ? p2 sg2 ? ? ? ? Hs2 ? E1 E2].
    apply app_eq_nil in E2 as [_ E2]. apply app_eq_nil in E2 as [-> _].
    destruct s2; cbn in Hs2; try (inversion Hs2; fail). destruct Hs2 as (? & ? & ? & _ & _ & _ & E). discriminate.
Qed.

(** ** The last token of complete lines is a line break *)
Lemma lexeme_lf u t p : lexeme u t (p ++ [LF]) -> t = TNewline.
Proof.
  intros H. remember (p ++ [LF]) as w eqn:Ew. assert (In LF w) as Hin by (rewrite Ew; apply in_or_app; right; left; reflexivity).
  assert (Hsep : LF = SPACE \/ LF = TAB \/ LF = LF) by auto.
  destruct H as [body Hb|w' H|w' H|body Hb|c' H|c' w' t H1 H2 H3|w' H|w' H|w' H|w' H]; [..|reflexivity]; exfalso.
  - destruct Hin as [Hin|Hin]; [discriminate|contradiction].
  - destruct H as [->|(d & q & -> & _ & Hall)]; [destruct Hin as [|[]]; discriminate|]. apply Hall in Hin. unfold dec_digit, LF in Hin. lia.
  - cbn in Hin. destruct Hin as [Hin|[Hin|Hin]]; [discriminate|discriminate|].
    destruct H as [->|(d & q & -> & _ & Hall)]; [destruct Hin as [|[]]; discriminate|]. apply Hall in Hin. unfold hex_digit, LF in Hin. lia.
  - rewrite app_comm_cons in Ew. apply app_inj_tail in Ew as [_ Ew]. discriminate.
  - destruct Hin as [->|[]]. cbn in H. unfold LF in H. intuition discriminate.
  - destruct H2 as [H2 _]. destruct Hin as [->|Hin]; [apply name_start_cases in H1; unfold LF in H1; lia|exact (sep_not_name u LF Hsep (H2 _ Hin))].
  - destruct H as [H2 _]. destruct Hin as [Hin|Hin]; [discriminate|]. exact (sep_not_name u LF Hsep (H2 _ Hin)).
  - destruct H as [H2 _]. destruct Hin as [Hin|Hin]; [discriminate|]. exact (sep_not_name u LF Hsep (H2 _ Hin)).
  - destruct H as [H2 _]. destruct Hin as [Hin|Hin]; [discriminate|]. exact (sep_not_name u LF Hsep (H2 _ Hin)).
Qed.
Lemma lexes_last u i t toks : lexes u i t toks 0 -> full_lines t -> t <> [] -> ends_line toks.
Proof.
  intros H. remember 0 as n eqn:En. revert En.
  induction H as [i bl Hb|i bl t w r toks n Hb Hl H IH|i bl g t w r toks n Hb Hg Hgb Hun Hl H IH]; intros En Hfl Hne; [| |discriminate].
  - apply full_lines_blank in Hfl; [contradiction|exact Hb].
  - apply full_lines_app in Hfl. destruct r as [|c r].
    + rewrite app_nil_r in Hfl. destruct Hl as [Hw _]. destruct Hfl as [->|(p & ->)]; [destruct (lexeme_nonempty _ _ _ Hw); reflexivity|].
      apply lexeme_lf in Hw as ->.
      assert (toks = []) as ->.
      { apply lexes_inv in H. cbn in H. destruct H as [H _]. exact H. }
      exists []. eexists. reflexivity.
    + destruct (IH En (full_lines_app _ _ Hfl)) as (x & sp & ->); [discriminate|].
      rewrite app_comm_cons. eexists _, sp. reflexivity.
Qed.
Lemma ends_line_comments toks : ends_line toks -> ends_line (without_comments toks).
Proof. intros (x & sp & ->). unfold without_comments. rewrite filter_app. cbn. eexists _, sp. reflexivity. Qed.
Lemma without_app a b : without_comments (a ++ b) = without_comments a ++ without_comments b.
Proof. apply filter_app. Qed.

(** ** Moving *)
Section Move.
Variable d : nat.
Let T (a b : stoken) : Prop := b = shift_tok d a.
Lemma moved_name f x y : named T f x y -> (forall x, f x = (fst (f x), snd x)) -> (forall x y sp, fst (f x) = fst (f y) -> x = (fst x, sp) -> fst x = fst y) -> y = move_name d x.
Proof.
  intros H Hf Hi. unfold named, T in H. rewrite (Hf x), (Hf y) in H. unfold shift_tok in H. cbn [fst snd] in H.
  assert (fst (f y) = fst (f x) /\ snd y = shift_span d (snd x)) as [H1 H2] by (split; congruence).
  unfold move_name. rewrite <- H2. rewrite (Hi x y (snd x)); [apply surjective_pairing|symmetry; exact H1|apply surjective_pairing].
Qed.
Ltac name_moved H := apply moved_name in H; [|intros; reflexivity|intros ? ? ?; cbn; congruence].
Lemma moved_global x y : named T tglobal x y -> y = move_name d x. Proof. intros H. name_moved H. exact H. Qed.
Lemma moved_local x y : named T tlocal x y -> y = move_name d x. Proof. intros H. name_moved H. exact H. Qed.
Lemma moved_type x y : named T ttype x y -> y = move_name d x. Proof. intros H. name_moved H. exact H. Qed.
Lemma moved_ident x y : named T tident x y -> y = move_name d x. Proof. intros H. name_moved H. exact H. Qed.
Lemma moved_dbg x y : named T tdbg x y -> y = move_name d x. Proof. intros H. name_moved H. exact H. Qed.
Lemma moved_hex x y : named T thex x y -> y = move_name d x. Proof. intros H. name_moved H. exact H. Qed.
Lemma moved_mod x y : named T tmod x y -> y = move_name d x. Proof. intros H. name_moved H. exact H. Qed.
Lemma moved_list {A} (R : A -> A -> Prop) (f : A -> A) l m : (forall a b, R a b -> b = f a) -> Forall2 R l m -> m = map f l.
Proof. intros H. induction 1 as [|a b l m H1 _ IH]; [reflexivity|]. cbn. rewrite <- (H _ _ H1), <- IH. reflexivity. Qed.
Lemma moved_opt {A} (R : A -> A -> Prop) (f : A -> A) o p : (forall a b, R a b -> b = f a) -> both R o p -> p = option_map f o.
Proof. intros H. destruct o, p; cbn; intros B; try contradiction; [rewrite <- (H _ _ B); reflexivity|reflexivity]. Qed.
Lemma moved_range s s' : ranges T s s' -> s' = shift_span d s.
Proof.
  intros ((a & b & E1 & H1 & H2) & (a' & b' & E2 & H3 & H4)). unfold T in *. subst. unfold shift_span. rewrite H1, H3.
  destruct s'. cbn in *. subst. reflexivity.
Qed.
Lemma moved_arg a b : same_arg T a b -> b = move_arg d a.
Proof. intros [H1 H2]. apply moved_type in H1. apply moved_local in H2. destruct b. cbn in *. subst. reflexivity. Qed.
Lemma moved_sig a b : same_sig T a b -> b = move_sig d a.
Proof.
  intros (H1 & H2 & H3 & H4). apply (moved_list _ _ _ _ moved_mod) in H1. apply moved_type in H2. apply moved_global in H3.
  apply (moved_list _ _ _ _ moved_arg) in H4. destruct b. cbn in *. subst. reflexivity.
Qed.
Lemma moved_instr a b : same_instr T a b -> b = move_instr d a.
Proof.
  intros (H1 & H2 & H3 & H4 & H5). apply (moved_opt _ _ _ _ moved_local) in H1. apply moved_ident in H2. apply (moved_list _ _ _ _ moved_ident) in H3.
  apply (moved_opt _ _ _ _ moved_dbg) in H4. apply moved_range in H5. destruct b. cbn in *. subst. reflexivity.
Qed.
Lemma moved_punct c s s' : T (tp c s) (tp c s') -> s' = shift_span d s.
Proof. intros H. unfold T, shift_tok, tp in H. cbn [fst snd] in H. injection H as H. exact H. Qed.
Lemma moved_block a b : same_block T a b -> b = move_block d a.
Proof.
  intros (H1 & H2 & H3 & H4). apply (moved_opt _ _ _ _ moved_ident) in H1. apply (moved_opt _ _ _ _ (moved_punct _)) in H2.
  apply (moved_list _ _ _ _ moved_instr) in H3. apply moved_range in H4. destruct b. cbn in *. subst. reflexivity.
Qed.
Lemma moved_body a b : same_body T a b -> b = move_body d a.
Proof.
  intros (H1 & H2 & H3). apply moved_punct in H1, H2. apply (moved_list _ _ _ _ moved_block) in H3. destruct b. cbn in *. subst. reflexivity.
Qed.
Lemma moved_stmt a b : same_stmt T a b -> b = move_stmt d a.
Proof.
  destruct a, b; cbn [same_stmt move_stmt]; try contradiction.
  - intros [H1 H2]. apply moved_global in H1. apply (moved_list _ (shift_tok d) _ _ (fun _ _ H => H)) in H2. subst. reflexivity.
  - intros (H1 & H2 & H3). apply moved_sig in H1. apply (moved_opt _ _ _ _ moved_hex) in H2. apply (moved_opt _ _ _ _ moved_dbg) in H3. subst. reflexivity.
  - intros (H1 & H2 & H3). apply moved_sig in H2. apply moved_body in H3. unfold T, shift_tok in H1. cbn [fst snd] in H1. injection H1 as ->. subst. reflexivity.
  - intros [H1 H2]. apply moved_global in H1. apply (moved_list _ _ _ _ moved_global) in H2. subst. reflexivity.
  - intros [H1 H2]. apply moved_dbg in H1. apply (moved_list _ (shift_tok d) _ _ (fun _ _ H => H)) in H2. subst. reflexivity.
Qed.
Lemma module_moved ss toks : module_at ss (without_comments toks) -> module_at (map (move_stmt d) ss) (without_comments (map (shift_tok d) toks)).
Proof.
  intros H. apply (parse_exact []) in H. apply (parse_exact []).
  assert (Forall2 T toks (map (shift_tok d) toks)) as HT by (clear; induction toks; constructor; [reflexivity|assumption]).
  pose proof (parse_similar T [] [] _ _ (fun a b E => or_introl (eq_sym (f_equal fst (E : b = _)))) HT) as P. rewrite H in P.
  destruct (parse_tokens [] (map (shift_tok d) toks)) as [[o e]|]; [|contradiction]. destruct P as [P1 P2].
  inversion P2; subst. destruct o as [ss'|]; [|contradiction]. cbn in P1. rewrite (moved_list _ _ _ _ moved_stmt P1). reflexivity.
Qed.
End Move.

(** ** Documents *)
Lemma tokens_sum u a b ta tb : full_lines a -> tokenize u a = Val (Some ta, []) -> tokenize u b = Val (Some tb, []) ->
  tokenize u (a ++ b) = Val (Some (ta ++ map (shift_tok (length a)) tb), []).
Proof.
  intros Hfl Ha Hb. pose proof (tokenize_lexes0 _ _ _ Ha) as La. pose proof (tokenize_lexes0 _ _ _ Hb) as Lb.
  pose proof (lexes_app _ _ _ _ _ _ _ La Hfl (lexes_shift u (length a) _ _ _ _ Lb)) as L.
  destruct (lexes_tokenize _ _ _ _ L) as (errs & H & E); [|destruct errs; [exact H|discriminate]].
  destruct a as [|c a].
  - destruct tb as [|t tb]; [|right; destruct ta; discriminate]. left.
    assert (exists errs, tokenize u b = Val (Some [], errs) /\ length errs = 0) as Hb' by (exists []; split; [exact Hb|reflexivity]).
    apply tokenize_spec in Hb' as [_ [->|Hn]]; [reflexivity|]. exfalso. apply Hn. apply lexes_inv in Lb.
    destruct (gfind u (skipn (lead b) b)) as [[[k tok] m]|]; [destruct Lb as (? & ? & E2 & _); discriminate|]. exact (proj2 (proj2 Lb)).
  - right. apply (lexes_last _ _ _ _ La) in Hfl as (x & sp & ->); [|discriminate]. destruct x; discriminate.
Qed.
Lemma module_nil ss : module_at ss [] -> ss = [].
Proof.
  intros H. remember [] as t eqn:E. destruct H as [|s ss pre seg post rest _ _ Hs _]; [reflexivity|]. exfalso.
  apply app_eq_nil in E as [_ E]. apply app_eq_nil in E as [-> _].
  destruct s; cbn in Hs; try (inversion Hs; fail). destruct Hs as (? & ? & ? & _ & _ & _ & E). discriminate.
Qed.
Lemma parse_sum u a b ta tb sa sb : full_lines a -> parse_from_str u a = Val (mkPR ta sa []) -> parse_from_str u b = Val (mkPR tb sb []) ->
  parse_from_str u (a ++ b) = Val (mkPR (ta ++ map (shift_tok (length a)) tb) (sa ++ map (move_stmt (length a)) sb) []).
Proof.
  intros Hfl Ha Hb. apply document_exact in Ha as [Ta Ma], Hb as [Tb Mb]. apply document_exact. split; [exact (tokens_sum _ _ _ _ _ Hfl Ta Tb)|].
  rewrite without_app. apply module_more; [exact Ma| |apply module_moved; exact Mb].
  destruct a as [|c a]; [left|right].
  - apply tokenize_lexes0 in Ta. apply lexes_inv in Ta. cbn in Ta. destruct Ta as [-> _]. exact (module_nil _ Ma).
  - apply ends_line_comments. apply (lexes_last _ _ _ _ (tokenize_lexes0 _ _ _ Ta) Hfl). discriminate.
Qed.
