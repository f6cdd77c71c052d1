(** Blank lines and comments have no meaning in well-formed documents. *)
From Verif Require Import Text Rope Chumsky Tokenizer Parser Numbers Index SemTok Diag Rename Cfg Backtrace Server SpecText SpecLex SpecParse SpecIndex SpecDiag SpecPatch SpecSimilar SpecRebind SpecLines
  PText PLexSpec PLexProps PTokens PParse PParseProps PIndex PIndexDoc PIndexText PDiag PRelex PNatural PRetree PRebind PLayout.

(** ** Reading two documents side by side *)
Section Lines.
Variable R : stoken -> stoken -> Prop.
Definition mate (a a' : stoken) : Prop := fst a = fst a' /\ (fst a <> TNewline -> R a a').
Inductive lined : place -> list stoken -> list stoken -> Prop :=
| ld_end p x x' : newlines x -> newlines x' -> lined p x x'
| ld_token p a a' x x' : mate a a' -> lined (next_place p (fst a)) x x' -> lined p (a :: x) (a' :: x')
| ld_more a' x x' : fst a' = TNewline -> lined LineStart x x' -> lined LineStart x (a' :: x')
| ld_less a x x' : fst a = TNewline -> lined LineStart x x' -> lined LineStart (a :: x) x'.
Definition nxt (t : token) : place := next_place Within t.
Lemma next_solid p t : t <> TNewline -> next_place p t = nxt t.
Proof. destruct t; try reflexivity. contradiction. Qed.
Lemma nxt_solid t : t <> TNewline -> nxt t <> LineStart.
Proof. destruct t; try discriminate; try contradiction. cbn. match goal with |- context [if ?b then _ else _] => destruct b end; discriminate. Qed.
(** newlines in front of a token *)
Lemma gap nls : newlines nls -> forall p t r y, fst t <> TNewline -> lined p (nls ++ t :: r) y ->
  exists nls' t' r', y = nls' ++ t' :: r' /\ newlines nls' /\ mate t t' /\ lined (nxt (fst t)) r r' /\ (p <> LineStart -> (nls' = [] <-> nls = [])).
Proof.
  intros Hn p t r y Ht H. remember (nls ++ t :: r) as x eqn:Ex. revert nls Hn Ex. induction H as [p x x' H1 H2|p a a' x x' Hm H IH|a' x x' Ha H IH|a x x' Ha H IH]; intros nls Hn Ex.
  - exfalso. subst x. apply Forall_app in H1 as [_ H1]. inversion H1; contradiction.
  - destruct nls as [|b nls]; cbn [app] in Ex; injection Ex as -> ->.
    + exists [], a', x'. split; [reflexivity|]. split; [constructor|]. split; [exact Hm|]. rewrite next_solid in H by exact Ht. split; [exact H|]. intros _. split; reflexivity.
    + inversion Hn as [|? ? Hb Hn']; subst. destruct (IH nls Hn' eq_refl) as (nls' & t' & r' & -> & G1 & G2 & G3 & _). exists (a' :: nls'), t', r'. split; [reflexivity|].
      split; [constructor; [rewrite <- (proj1 Hm); exact Hb|exact G1]|]. split; [exact G2|]. split; [exact G3|]. intros _. split; discriminate.
  - destruct (IH nls Hn Ex) as (nls' & t' & r' & -> & G1 & G2 & G3 & _). exists (a' :: nls'), t', r'. split; [reflexivity|]. split; [constructor; assumption|]. split; [exact G2|]. split; [exact G3|]. intros E. contradiction.
  - destruct nls as [|b nls]; cbn [app] in Ex; injection Ex as -> ->; [contradiction|]. inversion Hn; subst. destruct (IH nls) as (nls' & t' & r' & -> & G1 & G2 & G3 & _); [assumption|reflexivity|].
    exists nls', t', r'. split; [reflexivity|]. split; [exact G1|]. split; [exact G2|]. split; [exact G3|]. intros E. contradiction.
Qed.
Lemma lined_end p nls y : newlines nls -> lined p nls y -> newlines y.
Proof.
  intros Hn H. induction H as [p x x' H1 H2|p a a' x x' Hm H IH|a' x x' Ha H IH|a x x' Ha H IH]; [exact H2| | |].
  - inversion Hn as [|? ? Hn1 Hn2]; subst. constructor; [rewrite <- (proj1 Hm); exact Hn1|exact (IH Hn2)].
  - constructor; [exact Ha|exact (IH Hn)].
  - inversion Hn as [|? ? Hn1 Hn2]; exact (IH Hn2).
Qed.
(** a part in which newlines are operands *)
Fixpoint good (p : place) (seg : list stoken) : Prop :=
  match seg with
  | [] => True
  | t :: r => (fst t = TNewline -> p = Open /\ exists x, In x r /\ fst x <> TNewline) /\ good (next_place p (fst t)) r
  end.
Fixpoint after (p : place) (seg : list stoken) : place := match seg with [] => p | t :: r => after (next_place p (fst t)) r end.
Lemma lined_good seg : forall p rest y, p <> LineStart -> good p seg -> lined p (seg ++ rest) y ->
  exists seg' rest', y = seg' ++ rest' /\ Forall2 mate seg seg' /\ lined (after p seg) rest rest' /\ after p seg <> LineStart.
Proof.
  induction seg as [|t seg IH]; intros p rest y Hp Hg H; [exists [], y; split; [reflexivity|]; split; [constructor|]; split; assumption|].
  cbn [app good after] in *. destruct Hg as [Hg1 Hg2]. remember (t :: seg ++ rest) as x eqn:Ex. destruct H as [p x x' H1 H2|p a a' x x' Hm H|a' x x' Ha H|a x x' Ha H]; [| |contradiction|contradiction].
  - exfalso. subst x. inversion H1 as [|? ? E1 E2]; subst. destruct (Hg1 E1) as (_ & z & Hz & Nz). apply Nz. unfold newlines in E2. rewrite Forall_forall in E2. apply E2, in_or_app. left. exact Hz.
  - injection Ex as -> ->. assert (next_place p (fst t) <> LineStart) as Hp'.
    { destruct (fst t) eqn:E; try discriminate; try (cbn; match goal with |- context [if ?b then _ else _] => destruct b end; discriminate). destruct (Hg1 eq_refl) as [-> _]. discriminate. }
    destruct (IH _ _ _ Hp' Hg2 H) as (seg' & rest' & -> & F & G1 & G2). exists (a' :: seg'), rest'. split; [reflexivity|]. split; [constructor; assumption|]. split; assumption.
Qed.
Lemma good_open : forall seg p, good p seg -> good Open seg.
Proof.
  intros [|t seg] p H; [exact I|]. destruct H as [H1 H2]. split; [intros E; split; [reflexivity|apply H1, E]|]. destruct (fst t) eqn:E; try exact H2.
  destruct (H1 eq_refl) as [-> _]. exact H2.
Qed.
Lemma good_any seg : forall p q, (forall t r, seg = t :: r -> fst t <> TNewline) -> good p seg -> good q seg.
Proof.
  destruct seg as [|t seg]; intros p q Hn H; [exact I|]. specialize (Hn _ _ eq_refl). destruct H as [_ H]. split; [intros E; contradiction|]. rewrite next_solid in * by exact Hn. exact H.
Qed.
Lemma good_no_newline seg : no_newline seg -> forall p, good p seg.
Proof. induction 1 as [|t seg Ht _ IH]; intros p; [exact I|]. split; [intros E; contradiction|apply IH]. Qed.
Lemma good_app seg tail : no_newline seg -> (forall p, good p tail) -> forall p, good p (seg ++ tail).
Proof. intros H Ht. induction H as [|t seg Hn _ IH]; intros p; [apply Ht|]. split; [intros E; contradiction|apply IH]. Qed.
Lemma good_skip word soup tail : skip_seg word soup -> (forall p, good p tail) -> (exists x, In x tail /\ fst x <> TNewline) -> forall p, good p (soup ++ tail).
Proof.
  intros H Ht (x & Hx & Nx). induction H as [|t r H1 H2 H IH|sp t r H1 H IH]; intros p; [apply Ht| |].
  - split; [intros E; contradiction|apply IH].
  - cbn [app]. split; [intros E; discriminate E|]. cbn [fst tp next_place]. split; [intros _; split; [reflexivity|exists x; split; [apply in_or_app; right; exact Hx|exact Nx]]|]. apply IH.
Qed.

(** ** The same sentence with other tokens *)
Lemma mates_cons t x y : Forall2 mate (t :: x) y -> exists t' y', y = t' :: y' /\ mate t t' /\ Forall2 mate x y'.
Proof. intros H. inversion H; subst. eauto. Qed.
Lemma mates_nil y : Forall2 mate [] y -> y = [].
Proof. intros H. inversion H. reflexivity. Qed.
Lemma mates_app a b y : Forall2 mate (a ++ b) y -> exists a' b', y = a' ++ b' /\ Forall2 mate a a' /\ Forall2 mate b b'.
Proof. intros H. apply Forall2_app_inv_l in H as (a' & b' & H1 & H2 & ->). eauto. Qed.
Lemma mate_ident m b : mate (tident m) b -> exists m', b = tident m' /\ fst m' = fst m /\ named R tident m m'.
Proof. destruct b as [k sp]. intros [E H]. cbn in E. subst k. exists (fst m, sp). split; [reflexivity|]. split; [reflexivity|]. apply H. discriminate. Qed.
Lemma mate_local m b : mate (tlocal m) b -> exists m', b = tlocal m' /\ fst m' = fst m /\ named R tlocal m m'.
Proof. destruct b as [k sp]. intros [E H]. cbn in E. subst k. exists (fst m, sp). split; [reflexivity|]. split; [reflexivity|]. apply H. discriminate. Qed.
Lemma mate_global m b : mate (tglobal m) b -> exists m', b = tglobal m' /\ fst m' = fst m /\ named R tglobal m m'.
Proof. destruct b as [k sp]. intros [E H]. cbn in E. subst k. exists (fst m, sp). split; [reflexivity|]. split; [reflexivity|]. apply H. discriminate. Qed.
Lemma mate_type m b : mate (ttype m) b -> exists m', b = ttype m' /\ fst m' = fst m /\ named R ttype m m'.
Proof. destruct b as [k sp]. intros [E H]. cbn in E. subst k. exists (fst m, sp). split; [reflexivity|]. split; [reflexivity|]. apply H. discriminate. Qed.
Lemma mate_dbg m b : mate (tdbg m) b -> exists m', b = tdbg m' /\ fst m' = fst m /\ named R tdbg m m'.
Proof. destruct b as [k sp]. intros [E H]. cbn in E. subst k. exists (fst m, sp). split; [reflexivity|]. split; [reflexivity|]. apply H. discriminate. Qed.
Lemma mate_hex m b : mate (thex m) b -> exists m', b = thex m' /\ fst m' = fst m /\ named R thex m m'.
Proof. destruct b as [k sp]. intros [E H]. cbn in E. subst k. exists (fst m, sp). split; [reflexivity|]. split; [reflexivity|]. apply H. discriminate. Qed.
Lemma mate_mod m b : mate (tmod m) b -> exists m', b = tmod m' /\ fst m' = fst m /\ named R tmod m m'.
Proof. destruct b as [k sp]. intros [E H]. cbn in E. subst k. exists (fst m, sp). split; [reflexivity|]. split; [reflexivity|]. apply H. discriminate. Qed.
Lemma mate_punct c sp b : mate (tp c sp) b -> exists sp', b = tp c sp' /\ R (tp c sp) (tp c sp').
Proof. destruct b as [k sp']. intros [E H]. cbn in E. subst k. exists sp'. split; [reflexivity|]. apply H. discriminate. Qed.
Lemma mate_kw k sp b : mate (tkw k sp) b -> exists sp', b = tkw k sp' /\ R (tkw k sp) (tkw k sp').
Proof. destruct b as [k' sp']. intros [E H]. cbn in E. subst k'. exists sp'. split; [reflexivity|]. apply H. discriminate. Qed.
Lemma mate_plain k sp b : mate (k, sp) b -> k <> TNewline -> exists sp', b = (k, sp') /\ R (k, sp) (k, sp').
Proof. destruct b as [k' sp']. intros [E H] N. cbn in E. subst k'. exists sp'. split; [reflexivity|]. apply H. exact N. Qed.
Ltac mates := repeat match goal with
  | H : Forall2 mate (_ :: _) _ |- _ => apply mates_cons in H as (? & ? & -> & ? & ?)
  | H : Forall2 mate [] _ |- _ => apply mates_nil in H; subst
  | H : Forall2 mate (_ ++ _) _ |- _ => apply mates_app in H as (? & ? & -> & ? & ?)
  | H : mate (tident _) _ |- _ => apply mate_ident in H as (? & -> & ? & ?)
  | H : mate (tlocal _) _ |- _ => apply mate_local in H as (? & -> & ? & ?)
  | H : mate (tglobal _) _ |- _ => apply mate_global in H as (? & -> & ? & ?)
  | H : mate (ttype _) _ |- _ => apply mate_type in H as (? & -> & ? & ?)
  | H : mate (tdbg _) _ |- _ => apply mate_dbg in H as (? & -> & ? & ?)
  | H : mate (thex _) _ |- _ => apply mate_hex in H as (? & -> & ? & ?)
  | H : mate (tmod _) _ |- _ => apply mate_mod in H as (? & -> & ? & ?)
  | H : mate (tp _ _) _ |- _ => apply mate_punct in H as (? & -> & ?)
  | H : mate (tkw _ _) _ |- _ => apply mate_kw in H as (? & -> & ?)
  end.
Lemma comma_mate {A} (item : A -> list stoken -> Prop) (rel : A -> A -> Prop) :
  (forall a x x', item a x -> Forall2 mate x x' -> exists a', item a' x' /\ rel a a') ->
  forall l x, comma_sep item l x -> forall x', Forall2 mate x x' -> exists l', comma_sep item l' x' /\ Forall2 rel l l'.
Proof.
  intros Hi l x H. induction H as [|a x Ha|a x sp b l xs Ha H IH]; intros x' F.
  - mates. exists []. split; constructor.
  - destruct (Hi _ _ _ Ha F) as (a' & H1 & H2). exists [a']. split; [constructor; exact H1|constructor; [exact H2|constructor]].
  - mates. match goal with F1 : Forall2 mate x _, F2 : Forall2 mate xs _ |- _ => destruct (Hi _ _ _ Ha F1) as (a' & K1 & K2); destruct (IH _ F2) as (l' & K3 & K4) end.
    inversion K4; subst. eexists. split; [apply cs_more; eassumption|]. constructor; eassumption.
Qed.
Lemma comma_length {A} (item : A -> list stoken -> Prop) l x : comma_sep item l x -> (forall a y, item a y -> y <> []) -> l = [] <-> x = [].
Proof. intros H Hi. destruct H as [|a x Ha|a x sp b l xs Ha H]; [tauto|..]; split; intros E; try discriminate E; exfalso; [exact (Hi _ _ Ha E)|destruct x; discriminate E]. Qed.
Lemma skip_mate w s s' : skip_seg w s -> Forall2 mate s s' -> skip_seg w s'.
Proof.
  intros H. revert s'. induction H as [|t r H1 H2 H IH|sp t r H1 H IH]; intros s' F; mates; [constructor| |].
  - match goal with M : mate t _ |- _ => destruct M as [E _] end. apply sk_tok; [congruence|congruence|auto].
  - match goal with M : mate t _ |- _ => destruct M as [E _] end. apply sk_comma; [congruence|auto].
Qed.
Lemma map_mate f (M : forall m b, mate (f m) b -> exists m', b = f m' /\ fst m' = fst m /\ named R f m m') : forall l x', Forall2 mate (map f l) x' -> exists l', x' = map f l' /\ Forall2 (named R f) l l'.
Proof.
  induction l as [|m l IH]; intros x' F; cbn [map] in F; mates; [exists []; split; [reflexivity|constructor]|].
  match goal with H : mate (f m) _ |- _ => apply M in H as (m' & -> & _ & Hm) end. match goal with H : Forall2 mate _ _ |- _ => apply IH in H as (l' & -> & Hl) end.
  exists (m' :: l'). split; [reflexivity|constructor; assumption].
Qed.
Lemma sig_mate s seg seg' : sig_seg s seg -> Forall2 mate seg seg' -> exists s', sig_seg s' seg' /\ same_sig R s s'.
Proof.
  intros (o & c & args & Ha & ->) F. mates. match goal with H : Forall2 mate (map tmod _) _ |- _ => apply (map_mate tmod mate_mod) in H as (ms & -> & Hms) end.
  match goal with H : Forall2 mate args _ |- _ => destruct (comma_mate arg_seg (same_arg R)) with (3 := H) (l := fs_args s) as (args' & Ha' & Hr); [|exact Ha|] end.
  { intros a xx xx' -> Fx. mates. eexists (mkArg _ _). split; [reflexivity|]. split; eassumption. }
  eexists (mkSig ms _ _ args'). split; [do 3 eexists; split; [exact Ha'|reflexivity]|]. split; [exact Hms|]. split; [eassumption|]. split; [eassumption|exact Hr].
Qed.
Lemma opt_mate f (M : forall m b, mate (f m) b -> exists m', b = f m' /\ fst m' = fst m /\ named R f m m') o x : Forall2 mate (opt_seg f o) x -> exists o', x = opt_seg f o' /\ both (named R f) o o'.
Proof.
  destruct o as [m|]; cbn [opt_seg]; intros F; mates; [|exists None; split; [reflexivity|exact I]].
  match goal with H : mate (f m) _ |- _ => apply M in H as (m' & -> & _ & Hm) end. exists (Some m'). split; [reflexivity|exact Hm].
Qed.
Lemma target_mate t x x' : target_seg t x -> Forall2 mate x x' -> exists t', target_seg t' x' /\ both (named R tlocal) t t'.
Proof.
  destruct t as [y|]; cbn [target_seg]; [intros (ty & e & ->)|intros ->]; intros F; mates.
  - eexists (Some _). split; [do 2 eexists; reflexivity|eassumption].
  - exists None. split; [reflexivity|exact I].
Qed.
Lemma body_mate f m refs seg seg' : body_seg f m refs seg -> Forall2 mate seg seg' ->
  exists m' refs', body_seg f m' refs' seg' /\ fst m' = fst m /\ named R tident m m' /\ Forall2 (named R tident) refs refs'.
Proof.
  intros H F. destruct H as [m t E|m ty v c1 t1 c2 t2 E|m soup c1 k1 e1 t1 c2 k2 e2 t2 Hs|m soup c1 k1 e1 d c2 cases cs E Hs Hc|m entries es E He|m soup Hs Hf]; mates.
  - eexists _, [_]. split; [apply bs_br; congruence|]. split; [eassumption|]. split; [eassumption|]. constructor; [eassumption|constructor].
  - match goal with H : mate (TType _, _) _ |- _ => apply mate_plain in H as (? & -> & ?); [|discriminate] end.
    eexists _, [_; _]. split; [apply bs_cond; congruence|]. split; [eassumption|]. split; [eassumption|]. constructor; [eassumption|]. constructor; [eassumption|constructor].
  - match goal with H : Forall2 mate soup _ |- _ => pose proof (skip_mate _ _ _ Hs H) end.
    eexists _, [_; _]. split; [eapply bs_overflow; eassumption|]. split; [eassumption|]. split; [eassumption|]. constructor; [eassumption|]. constructor; [eassumption|constructor].
  - match goal with H : Forall2 mate soup _ |- _ => pose proof (skip_mate _ _ _ Hs H) end.
    match goal with H : Forall2 mate cs _ |- _ => destruct (comma_mate case_seg (named R tident)) with (3 := H) (l := cases) as (cases' & Hc' & Hr); [|exact Hc|] end.
    { intros a xx xx' (ty & v & k & e & ->) Fx. mates. eexists. split; [do 4 eexists; reflexivity|eassumption]. }
    eexists _, (_ :: cases'). split; [eapply bs_switch; [congruence|eassumption|exact Hc']|]. split; [eassumption|]. split; [eassumption|]. constructor; [eassumption|exact Hr].
  - match goal with H : Forall2 mate es _ |- _ => destruct (comma_mate phi_seg (named R tident)) with (3 := H) (l := entries) as (es' & Hc' & Hr); [|exact He|] end.
    { intros a xx xx' (o & comma & v & c & Hv & ->) Fx. mates. eexists. split; [do 4 eexists; split; [|reflexivity]|eassumption].
      match goal with H : Forall2 mate v ?v' |- _ => clear - Hv H; induction H as [|p q v v' [Epq _] _ IH]; [constructor|]; inversion Hv as [|? ? [N1 N2] Hv']; subst; constructor; [split; congruence|apply IH, Hv'] end. }
    eexists _, es'. split; [apply bs_phi; [congruence|exact Hc']|]. split; [eassumption|]. split; [eassumption|exact Hr].
  - eexists _, []. split; [apply bs_other|]. 3: { split; [eassumption|]. split; [eassumption|constructor]. }
    + match goal with H : Forall2 mate soup ?v' |- _ => clear - Hs H; induction H as [|p q v v' [Epq _] _ IH]; [constructor|]; inversion Hs as [|? ? [N1 N2] Hv']; subst; constructor; [rewrite <- Epq; split; assumption|apply IH, Hv'] end.
    + intros t r ->. match goal with H : Forall2 mate soup _ |- _ => inversion H as [|p q v v' [Epq _] _]; subst end. rewrite <- Epq. eapply Hf. reflexivity.
Qed.

(** ** Newlines inside of sentences *)
Ltac solid := repeat (apply Forall_cons; [discriminate|]); try apply Forall_nil.
Lemma comma_good {A} (item : A -> list stoken -> Prop) l x : comma_sep item l x -> (forall a y, item a y -> forall tail, (forall p, good p tail) -> forall p, good p (y ++ tail)) ->
  forall tail, (forall p, good p tail) -> forall p, good p (x ++ tail).
Proof.
  intros H Hi. induction H as [|a x Ha|a x sp b l xs Ha H IH]; intros tail Ht; [exact Ht|apply (Hi _ _ Ha); exact Ht|].
  intros p. rewrite <- app_assoc. revert p. apply (Hi _ _ Ha). intros p. split; [discriminate|]. apply IH. exact Ht.
Qed.
Lemma comma_solid {A} (item : A -> list stoken -> Prop) l x : comma_sep item l x -> (forall a y, item a y -> no_newline y) -> no_newline x.
Proof.
  intros H Hi. induction H as [|a x Ha|a x sp b l xs Ha H IH]; [constructor|exact (Hi _ _ Ha)|]. apply Forall_app. split; [exact (Hi _ _ Ha)|]. constructor; [discriminate|exact IH].
Qed.
Lemma sig_solid s seg : sig_seg s seg -> no_newline seg /\ seg <> [].
Proof.
  intros (o & c & args & Ha & ->). split; [|destruct (fs_modifiers s); discriminate].
  apply Forall_app. split; [|cbn [app]; solid; apply Forall_app; split; [|solid]].
  - induction (fs_modifiers s); [constructor|constructor; [discriminate|assumption]].
  - eapply comma_solid; [exact Ha|]. intros a y ->. solid.
Qed.
Lemma body_good f m refs seg : body_seg f m refs seg -> forall tail, (forall p, good p tail) -> forall p, good p (seg ++ tail).
Proof.
  intros H tail Ht. destruct H as [m t E|m ty v c1 t1 c2 t2 E|m soup c1 k1 e1 t1 c2 k2 e2 t2 Hs|m soup c1 k1 e1 d c2 cases cs E Hs Hc|m entries es E He|m soup Hs Hf].
  - intros p. apply (good_app [tident m; tident t]); [solid|exact Ht].
  - intros p. cbn [app good]. split; [discriminate|]. split; [discriminate|]. cbn [fst next_place]. split; [intros _; split; [reflexivity|eexists; split; [left; reflexivity|discriminate]]|].
    intros. apply (good_app [tp (ch ",") c1; tident t1; tp (ch ",") c2; tident t2]); [solid|exact Ht].
  - intros p. cbn [app]. split; [discriminate|]. rewrite <- app_assoc. apply (good_skip _ _ _ Hs).
    + intros q. apply good_app; [solid|exact Ht].
    + eexists. split; [left; reflexivity|discriminate].
  - intros p. cbn [app]. split; [discriminate|]. rewrite <- !app_assoc. apply (good_skip _ _ _ Hs).
    + intros q. rewrite <- ?app_assoc. apply (good_app [tp (ch ",") c1; tkw (str "default") k1; tp (ch "=") e1; tident d; tp (ch ",") c2]); [solid|]. apply (comma_good _ _ _ Hc); [|exact Ht].
      intros a y (ty & v & k & e & ->) tl Htl q'. cbn [app good]. split; [discriminate|]. cbn [ttype fst next_place]. split; [intros _; split; [reflexivity|eexists; split; [left; reflexivity|discriminate]]|].
      apply (good_app [tkw (str "label") k; tp (ch "=") e; tident a]); [solid|exact Htl].
    + eexists. split; [left; reflexivity|discriminate].
  - intros p. cbn [app]. split; [discriminate|]. apply (comma_good _ _ _ He); [|exact Ht].
    intros a y (o & comma & v & c & Hv & ->) tl Htl. apply good_app; [|exact Htl]. solid. apply Forall_app. split; [|solid]. eapply Forall_impl; [|exact Hv]. intros z [_ G]. exact G.
  - apply good_app; [|exact Ht]. constructor; [discriminate|]. eapply Forall_impl; [|exact Hs]. intros z [G _]. exact G.
Qed.
Lemma instr_good ok i n seg : instr_seg ok i n seg -> (forall p, good p seg) /\ exists t r, seg = t :: r /\ fst t <> TNewline.
Proof.
  intros (f & tgt & body & Ht & Hb & -> & _). split.
  - assert (no_newline tgt) as Hn by (destruct (i_target i); cbn [target_seg] in Ht; [destruct Ht as (ty & e & ->); solid|subst; constructor]).
    apply good_app; [exact Hn|]. apply (body_good _ _ _ _ Hb). apply good_no_newline. destruct (i_dbg i); cbn [opt_seg]; solid.
  - destruct (i_target i); cbn [target_seg] in Ht; [destruct Ht as (ty & e & ->); do 2 eexists; split; [reflexivity|discriminate]|]. subst tgt.
    destruct Hb; do 2 eexists; (split; [reflexivity|discriminate]).
Qed.

(** ** Instructions, blocks and functions *)
Lemma good_last seg : forall p l t, good p seg -> seg = l ++ [t] -> fst t <> TNewline.
Proof.
  induction seg as [|x seg IH]; intros p l t Hg E; [destruct l; discriminate E|]. destruct Hg as [H1 H2]. destruct l as [|y l]; cbn [app] in E; injection E as -> E.
  - subst seg. intros Hn. destruct (H1 Hn) as (_ & z & [] & _).
  - exact (IH _ _ _ H2 E).
Qed.
Lemma cover_ends (t : stoken) (r l : list stoken) (z : stoken) : t :: r = l ++ [z] -> cover (t :: r) = mkSpan (sp_start (snd t)) (sp_end (snd z)).
Proof.
  intros E. assert (rev (t :: r) = z :: rev l) as Er by (rewrite E, rev_app_distr; reflexivity). unfold cover. destruct t as [k a], z as [k' b]. unfold stoken in *. rewrite Er. reflexivity.
Qed.
Lemma cover_mates (t : stoken) (r seg' : list stoken) : fst t <> TNewline -> (forall p, good p (t :: r)) -> Forall2 mate (t :: r) seg' -> ranges R (cover (t :: r)) (cover seg').
Proof.
  intros Ht Hg F. destruct (exists_last (l := t :: r) ltac:(discriminate)) as (l & z & E). pose proof E as E0. pose proof (good_last _ _ _ _ (Hg Within) E) as Hz.
  rewrite (cover_ends _ _ _ _ E). pose proof F as F2. rewrite E in F2. apply mates_app in F2 as (l' & z' & -> & _ & F2). apply mates_cons in F2 as (z1 & y & -> & Mz & F2). apply mates_nil in F2. subst y.
  apply mates_cons in F as (t1 & y & E2 & Mt & _). rewrite E2. rewrite (cover_ends t1 y l' z1 ltac:(congruence)). split; cbn [sp_start sp_end].
  - exists t, t1. split; [apply Mt, Ht|]. split; reflexivity.
  - exists z, z1. split; [apply Mz, Hz|]. split; reflexivity.
Qed.
Lemma instr_mate ok i n seg seg' : instr_seg ok i n seg -> Forall2 mate seg seg' -> exists i', instr_seg ok i' n seg' /\ same_instr R i i'.
Proof.
  intros H F. destruct (instr_good _ _ _ _ H) as (Hg & t & r & E & Ht). assert (ranges R (cover seg) (cover seg')) as Hc by (rewrite E in *; apply cover_mates; assumption). clear t r E Ht Hg.
  destruct H as (f & tgt & body & H1 & H2 & -> & H3 & -> & H5). apply mates_app in F as (tgt' & y & -> & F1 & F). apply mates_app in F as (body' & y' & -> & F2 & F3).
  destruct (target_mate _ _ _ H1 F1) as (t' & T1 & T2). destruct (body_mate _ _ _ _ _ H2 F2) as (m' & refs' & B1 & B2 & B3 & B4). apply (opt_mate tdbg mate_dbg) in F3 as (d' & -> & D).
  eexists (mkInstr t' m' refs' d' (cover _)). split; [exists f, tgt', body'; split; [exact T1|]; split; [exact B1|]; split; [reflexivity|]; split; [reflexivity|]; cbn [i_instr]; rewrite B2; split; [reflexivity|exact H5]|].
  split; [exact T2|]. split; [exact B3|]. split; [exact B4|]. split; [exact D|]. cbn [i_span]. rewrite H3. exact Hc.
Qed.
Lemma instrs_lined ok l n seg : instrs_seg ok l n seg -> forall p nls t r y, newlines nls -> fst t <> TNewline -> p <> LineStart -> nls <> [] -> lined p (nls ++ seg ++ t :: r) y ->
  exists nls' l' seg' t' r', y = nls' ++ seg' ++ t' :: r' /\ newlines nls' /\ nls' <> [] /\ instrs_seg ok l' n seg' /\ Forall2 (same_instr R) l l' /\ mate t t' /\ lined (nxt (fst t)) r r'.
Proof.
  induction 1 as [|i l n m pre seg post rest Hpre Hi Hpost Hne H IH]; intros p nls t r y Hn Ht Hp Hnn L.
  - cbn [app] in L. destruct (gap _ Hn _ _ _ _ Ht L) as (nls' & t' & r' & -> & G1 & G2 & G3 & G4). exists nls', [], [], t', r'. split; [reflexivity|]. split; [exact G1|]. split; [rewrite G4 by exact Hp; exact Hnn|]. split; [constructor|]. split; [constructor|]. split; assumption.
  - destruct (instr_good _ _ _ _ Hi) as (Hg & i0 & ir & E & Hi0). subst seg. rewrite <- !app_assoc in L. rewrite (app_assoc nls) in L.
    assert (newlines (nls ++ pre)) as Hn2 by (apply Forall_app; split; assumption). cbn [app] in L.
    destruct (gap _ Hn2 _ _ _ _ Hi0 L) as (nls' & i0' & y1 & -> & G1 & G2 & G3 & G4). pose proof (Hg Within) as [_ Hg']. change (next_place Within (fst i0)) with (nxt (fst i0)) in Hg'.
    destruct (lined_good _ _ _ _ (nxt_solid _ Hi0) Hg' G3) as (ir' & y2 & -> & F & L2 & Hp2).
    destruct (instr_mate _ _ _ _ (i0' :: ir') Hi ltac:(constructor; assumption)) as (i' & I1 & I2).
    destruct (IH _ _ _ _ _ Hpost Ht Hp2 Hne L2) as (post' & l' & seg' & t' & r' & -> & K1 & K2 & K3 & K4 & K5 & K6).
    exists nls', (i' :: l'), ([] ++ (i0' :: ir') ++ post' ++ seg'), t', r'. split; [cbn [app]; rewrite <- !app_assoc; reflexivity|]. split; [exact G1|].
    split; [rewrite G4 by exact Hp; destruct nls; [contradiction|discriminate]|]. split; [apply is_cons; [constructor|exact I1|exact K1|exact K2|exact K3]|]. split; [constructor; assumption|]. split; assumption.
Qed.
Lemma last_end_alike l l' a a' : Forall2 (same_instr R) l l' -> (exists x y, R x y /\ a = sp_end (snd x) /\ a' = sp_end (snd y)) ->
  exists x y, R x y /\ last_end_of l a = sp_end (snd x) /\ last_end_of l' a' = sp_end (snd y).
Proof.
  intros F Ha. unfold last_end_of. assert (Forall2 (same_instr R) (rev l) (rev l')) as F'.
  { clear Ha. induction F as [|x y l l' Hxy F IH]; [constructor|]. cbn [rev]. apply Forall2_app; [exact IH|constructor; [exact Hxy|constructor]]. }
  destruct F' as [|x y m m' Hxy _]; [exact Ha|]. destruct Hxy as (_ & _ & _ & _ & _ & (p & q & H1 & H2 & H3)). exists p, q. auto.
Qed.
Lemma blocks_head ok bs n seg : blocks_seg ok bs n seg -> forall t r, fst t <> TNewline -> exists h x, seg ++ t :: r = h :: x /\ fst h <> TNewline.
Proof.
  intros H t r Ht. destruct H as [|b l n m seg rest (label & comma & nls & rest0 & _ & _ & _ & _ & _ & -> & _) _]; [exists t, r; split; [reflexivity|exact Ht]|].
  do 2 eexists. split; [reflexivity|discriminate].
Qed.
Lemma blocks_lined ok bs n seg : blocks_seg ok bs n seg -> forall t r h x h' x', fst t <> TNewline -> seg ++ t :: r = h :: x -> mate h h' -> lined (nxt (fst h)) x x' ->
  exists bs' seg' t' r', h' :: x' = seg' ++ t' :: r' /\ blocks_seg ok bs' n seg' /\ Forall2 (same_block R) bs bs' /\ mate t t' /\ lined (nxt (fst t)) r r'.
Proof.
  induction 1 as [|b l n m seg rest Hb H IH]; intros t r h x h' x' Ht E M L.
  - cbn [app] in E. injection E as -> ->. exists [], [], h', x'. split; [reflexivity|]. split; [constructor|]. split; [constructor|]. split; assumption.
  - destruct Hb as (label & comma & nls & rest0 & B1 & B2 & B3 & B4 & B5 & -> & B6). destruct (blocks_head _ _ _ _ H t r Ht) as (h2 & x2 & E2 & N2).
    rewrite <- app_assoc, E2 in E. cbn [app] in E. injection E as <- <-. rewrite <- app_assoc in L. change (nxt (fst (tident label))) with Within in L.
    destruct (lined_good [tp (ch ":") comma] Within _ _ ltac:(discriminate) ltac:(split; [discriminate|exact I]) L) as (c' & y2 & -> & Fc & L2 & _). apply mates_cons in Fc as (c1 & y & -> & Mc & Fc). apply mates_nil in Fc. subst y.
    apply mate_punct in Mc as (comma' & -> & Rc). apply mate_ident in M as (label' & -> & _ & Rl). change (after Within [tp (ch ":") comma]) with Within in L2.
    destruct (instrs_lined _ _ _ _ B5 Within _ _ _ _ B3 N2 ltac:(discriminate) B4 L2) as (nls' & l1 & seg1 & h2' & x2' & -> & K1 & K2 & K3 & K4 & K5 & K6).
    destruct (IH _ _ _ _ _ _ Ht E2 K5 K6) as (bs' & seg' & t' & r' & E3 & I1 & I2 & I3 & I4).
    exists (mkBB (Some label') (Some comma') l1 (mkSpan (sp_start (snd label')) (last_end_of l1 (sp_end (snd label')))) :: bs'), ((tident label' :: tp (ch ":") comma' :: nls' ++ seg1) ++ seg'), t', r'.
    split; [rewrite E3; cbn [app]; rewrite <- !app_assoc; reflexivity|]. split; [apply bks_cons; [|exact I1]|].
    { exists label', comma', nls', seg1. repeat (split; [first [reflexivity|assumption]|]). reflexivity. }
    split; [constructor; [|exact I2]|split; assumption]. split; [rewrite B1; exact Rl|]. split; [rewrite B2; exact Rc|]. split; [exact K4|]. rewrite B6. split; cbn [sp_start sp_end bb_span].
    + exists (tident label), (tident label'). split; [exact Rl|]. split; reflexivity.
    + apply last_end_alike; [exact K4|]. exists (tident label), (tident label'). split; [exact Rl|]. split; reflexivity.
Qed.
Lemma first_lined ok o n seg : first_block_seg ok o n seg -> forall p nls t r y, newlines nls -> fst t <> TNewline -> p <> LineStart -> nls <> [] -> lined p (nls ++ seg ++ t :: r) y ->
  exists nls' o' seg' t' r', y = nls' ++ seg' ++ t' :: r' /\ newlines nls' /\ nls' <> [] /\ first_block_seg ok o' n seg' /\ both (same_block R) o o' /\ mate t t' /\ lined (nxt (fst t)) r r'.
Proof.
  intros H p nls t r y Hn Ht Hp Hnn L. destruct o as [b|]; cbn [first_block_seg] in H.
  - destruct H as (H1 & H2 & H3 & i & il & H4 & H5). destruct (instrs_lined _ _ _ _ H3 _ _ _ _ _ Hn Ht Hp Hnn L) as (nls' & l' & seg' & t' & r' & -> & K1 & K2 & K3 & K4 & K5 & K6).
    pose proof K4 as K4'. rewrite H4 in K4'. inversion K4' as [|? i' ? il' Hi Hil E1 E2]; subst.
    exists nls', (Some (mkBB None None (i' :: il') (mkSpan (sp_start (i_span i')) (last_end_of (i' :: il') 0)))), seg', t', r'. split; [reflexivity|]. split; [exact K1|]. split; [exact K2|].
    split; [split; [reflexivity|]; split; [reflexivity|]; split; [exact K3|]; exists i', il'; split; reflexivity|]. split; [|split; assumption].
    split; [rewrite H1; exact I|]. split; [rewrite H2; exact I|]. split; [exact K4|]. rewrite H5. cbn [bb_span]. split; cbn [sp_start sp_end].
    + destruct Hi as (_ & _ & _ & _ & Hr & _). exact Hr.
    + rewrite H4. destruct (last_end_alike _ _ (sp_end (i_span i)) (sp_end (i_span i')) K4') as (a & a' & Ra & E1 & E2); [destruct Hi as (_ & _ & _ & _ & _ & Hr); exact Hr|].
      exists a, a'. split; [exact Ra|]. revert E1 E2. unfold last_end_of. destruct (rev (i :: il)) eqn:Er; [apply (f_equal (@length _)) in Er; rewrite rev_length in Er; discriminate Er|].
      destruct (rev (i' :: il')) eqn:Er'; [apply (f_equal (@length _)) in Er'; rewrite rev_length in Er'; discriminate Er'|]. auto.
  - destruct H as [-> ->]. destruct (instrs_lined ok [] 0 [] (is_nil ok) _ _ _ _ _ Hn Ht Hp Hnn L) as (nls' & l' & seg' & t' & r' & -> & K1 & K2 & K3 & K4 & K5 & K6).
    inversion K4; subst. inversion K3; subst. exists nls', None, [], t', r'. split; [reflexivity|]. split; [exact K1|]. split; [exact K2|]. split; [split; reflexivity|]. split; [exact I|]. split; assumption.
Qed.
Lemma fbody_lined ok b n seg : fbody_seg ok b n seg -> forall p rest y, p <> LineStart -> lined p (seg ++ rest) y ->
  exists b' seg' rest' p', y = seg' ++ rest' /\ fbody_seg ok b' n seg' /\ same_body R b b' /\ lined p' rest rest' /\ p' <> LineStart.
Proof.
  intros (nls & o & n1 & seg1 & bbs & n2 & seg2 & H1 & H2 & H3 & H4 & H5 & -> & ->) p rest y Hp L.
  cbn [app] in L. rewrite <- !app_assoc in L. cbn [app] in L.
  destruct (lined_good [tp (ch "{") (fb_open b)] p _ _ Hp ltac:(split; [discriminate|exact I]) L) as (c' & y2 & -> & Fc & L2 & Hp2). apply mates_cons in Fc as (c1 & y & -> & Mc & Fc). apply mates_nil in Fc. subst y.
  apply mate_punct in Mc as (open' & -> & Ro). destruct (blocks_head _ _ _ _ H4 (tp (ch "}") (fb_close b)) rest ltac:(discriminate)) as (h & x & E & Nh).
  match type of L2 with lined ?q _ _ => assert (lined q (nls ++ seg1 ++ h :: x) y2) as L3 by (rewrite <- E; exact L2) end.
  destruct (first_lined _ _ _ _ H3 _ _ _ _ _ H1 Nh Hp2 H2 L3) as (nls' & o' & seg1' & h' & x' & -> & K1 & K2 & K3 & K4 & K5 & K6).
  destruct (blocks_lined _ _ _ _ H4 (tp (ch "}") (fb_close b)) _ _ _ _ _ ltac:(discriminate) E K5 K6) as (bs' & seg2' & t' & r' & E3 & I1 & I2 & I3 & I4). apply mate_punct in I3 as (close' & -> & Rc).
  exists (mkBody open' close' (match o' with Some x => x :: bs' | None => bs' end)), (tp (ch "{") open' :: nls' ++ seg1' ++ seg2' ++ [tp (ch "}") close']), r', Within.
  split; [rewrite E3; cbn [app]; rewrite <- !app_assoc; reflexivity|]. split; [exists nls', o', n1, seg1', bs', n2, seg2'; repeat (split; [first [assumption|reflexivity]|]); reflexivity|].
  split; [|split; [exact I4|discriminate]]. split; [exact Ro|]. split; [exact Rc|]. cbn [fb_blocks]. rewrite H5. destruct o, o'; cbn [both] in K4; try contradiction; [constructor; assumption|exact I2].
Qed.

(** ** Statements *)
Definition stop (none : bool) (rest : list stoken) : Prop :=
  if none then forall x q, rest <> tglobal x :: q else forall sp x q, rest <> tp (ch ",") sp :: tglobal x :: q.
Lemma stop_deps deps rest : deps_stop deps rest <-> stop (match deps with [] => true | _ => false end) rest.
Proof. destruct deps; reflexivity. Qed.
Lemma lined_first p y q a rest : p <> LineStart -> lined p rest y -> y = a :: q -> fst a <> TNewline -> exists b r, rest = b :: r /\ fst b = fst a /\ lined (nxt (fst a)) r q.
Proof.
  intros Hp L E Ha. subst y. remember (a :: q) as y eqn:E. destruct L as [p x x' H1 H2|p b b' x x' Hm H|b' x x' Hb H|b x x' Hb H]; try contradiction.
  - subst x'. inversion H2; contradiction.
  - injection E as -> ->. exists b, x. split; [reflexivity|]. split; [apply Hm|]. rewrite (proj1 Hm), next_solid in H by exact Ha. exact H.
Qed.
Lemma stop_lined none p rest y : p <> LineStart -> lined p rest y -> stop none rest -> stop none y.
Proof.
  intros Hp L H. destruct none; cbn [stop] in *.
  - intros x q E. destruct (lined_first _ _ _ _ _ Hp L E ltac:(discriminate)) as ([k sp] & r & -> & E2 & _). cbn in E2. subst k. apply (H (fst x, sp) r). reflexivity.
  - intros sp x q E. destruct (lined_first _ _ _ _ _ Hp L E ltac:(discriminate)) as ([k sp'] & r & -> & E2 & L2). cbn in E2. subst k.
    destruct (lined_first _ _ _ _ _ (nxt_solid (fst (tp (ch ",") sp)) ltac:(discriminate)) L2 eq_refl ltac:(discriminate)) as ([k sp2] & r2 & -> & E2 & _). cbn in E2. subst k.
    apply (H sp' (fst x, sp2) r2). reflexivity.
Qed.
Lemma mates_solid d d' : no_newline d -> Forall2 mate d d' -> Forall2 R d d' /\ no_newline d'.
Proof.
  intros Hn F. induction F as [|a b d d' [E M] F IH]; [split; constructor|]. inversion Hn as [|? ? Ha Hd]; subst. destruct (IH Hd) as [H1 H2]. split; constructor; try assumption; [apply M, Ha|congruence].
Qed.
Lemma deps_mate deps dseg dseg' : comma_sep (fun a s => s = [tglobal a]) deps dseg -> Forall2 mate dseg dseg' ->
  exists deps', comma_sep (fun a s => s = [tglobal a]) deps' dseg' /\ Forall2 (named R tglobal) deps deps'.
Proof.
  intros H F. apply (comma_mate _ (named R tglobal)) with (2 := H) (3 := F). intros a y y' -> Fy. mates. eexists. split; [reflexivity|eassumption].
Qed.
Lemma stmt_core ok s n seg rest : stmt_seg ok s n seg rest -> exists h x e, seg = h :: x ++ e /\ fst h <> TNewline /\ newlines e /\
  forall tail h' y, mate h h' -> lined (nxt (fst h)) (x ++ e ++ tail) y ->
    exists s' x' y' p, y = x' ++ y' /\ p <> LineStart /\ lined p (e ++ tail) y' /\ same_stmt R s s' /\
      ((eol_seg e rest /\ forall e' rest', eol_seg e' rest' -> stmt_seg ok s' n (h' :: x' ++ e') rest') \/
       (e = [] /\ exists none, stop none rest /\ forall rest', stop none rest' -> stmt_seg ok s' n (h' :: x') rest')).
Proof.
  assert (forall e rest, eol_seg e rest -> newlines e) as Heol.
  { intros e r [(sp & ->)|(-> & _)]; [constructor; [reflexivity|constructor]|constructor]. }
  intros H. destruct H as [x d eq e rest Hd He|kw sig sseg addr aseg dbg e rest Hs Ha He|kw sig sseg body n bseg e rest Hs Hb He|x k1 k2 deps dseg rest Hd Hst|x d eq e rest Hd He].
  - exists (tglobal x), (tp (ch "=") eq :: d), e. split; [reflexivity|]. split; [discriminate|]. split; [eapply Heol; eassumption|]. intros tail h' y M L.
    destruct (lined_good _ _ _ _ (nxt_solid (fst (tglobal x)) ltac:(discriminate)) (good_no_newline (tp (ch "=") eq :: d) ltac:(constructor; [discriminate|exact Hd]) _) L) as (x' & y' & -> & F & L2 & Hp).
    apply mates_cons in F as (q & d' & -> & Mq & F). apply mate_punct in Mq as (eq' & -> & _). apply mate_global in M as (x1 & -> & _ & Rx). destruct (mates_solid _ _ Hd F) as [F1 F2].
    exists (SGlobalVar x1 d'), (tp (ch "=") eq' :: d'), y'. eexists. split; [reflexivity|]. split; [exact Hp|]. split; [exact L2|]. split; [split; assumption|]. left. split; [exact He|]. intros e' rest' He'. apply ss_var; assumption.
  - destruct (sig_solid _ _ Hs) as [Ns _]. assert (no_newline aseg) as Na by (destruct addr; [destruct Ha as (q & ->); solid|subst; constructor]). assert (no_newline (opt_seg tdbg dbg)) as Nd by (destruct dbg; solid).
    exists (TDeclare, kw), (sseg ++ aseg ++ opt_seg tdbg dbg), e. split; [rewrite <- !app_assoc; reflexivity|]. split; [discriminate|]. split; [eapply Heol; eassumption|]. intros tail h' y M L.
    destruct (lined_good _ _ _ _ (nxt_solid (fst (TDeclare, kw)) ltac:(discriminate)) (good_no_newline (sseg ++ aseg ++ opt_seg tdbg dbg) ltac:(apply Forall_app; split; [exact Ns|]; apply Forall_app; split; assumption) _) L) as (x' & y' & -> & F & L2 & Hp).
    apply mates_app in F as (sseg' & y & -> & Fs & F). apply mates_app in F as (aseg' & dseg' & -> & Fa & Fd). apply mate_plain in M as (kw' & -> & Rk); [|discriminate].
    destruct (sig_mate _ _ _ Hs Fs) as (sig' & S1 & S2). apply (opt_mate tdbg mate_dbg) in Fd as (dbg' & -> & D).
    assert (exists addr', match addr' with Some a => exists eq, aseg' = [tp (ch "=") eq; thex a] | None => aseg' = [] end /\ both (named R thex) addr addr') as (addr' & A1 & A2).
    { destruct addr as [a|]; [destruct Ha as (q & ->)|subst aseg]; mates; [eexists (Some _); split; [eexists; reflexivity|eassumption]|exists None; split; [reflexivity|exact I]]. }
    exists (SFuncDecl sig' addr' dbg'), (sseg' ++ aseg' ++ opt_seg tdbg dbg'), y'. eexists. split; [reflexivity|]. split; [exact Hp|]. split; [exact L2|]. split; [split; [exact S2|split; assumption]|].
    left. split; [exact He|]. intros e' rest' He'. rewrite <- !app_assoc. apply ss_decl; assumption.
  - destruct (sig_solid _ _ Hs) as [Ns _]. exists (TDefine, kw), (sseg ++ bseg), e. split; [rewrite <- !app_assoc; reflexivity|]. split; [discriminate|]. split; [eapply Heol; eassumption|]. intros tail h' y M L. rewrite <- app_assoc in L.
    destruct (lined_good _ _ _ _ (nxt_solid (fst (TDefine, kw)) ltac:(discriminate)) (good_no_newline sseg Ns _) L) as (sseg' & y' & -> & F & L2 & Hp). apply mate_plain in M as (kw' & -> & Rk); [|discriminate].
    destruct (sig_mate _ _ _ Hs F) as (sig' & S1 & S2). destruct (fbody_lined _ _ _ _ Hb _ _ _ Hp L2) as (body' & bseg' & y2 & p2 & -> & B1 & B2 & B3 & B4).
    exists (SFuncDef kw' sig' body'), (sseg' ++ bseg'), y2, p2. split; [rewrite <- app_assoc; reflexivity|]. split; [exact B4|]. split; [exact B3|]. split; [split; [exact Rk|split; assumption]|].
    left. split; [exact He|]. intros e' rest' He'. rewrite <- !app_assoc. apply ss_def; assumption.
  - exists (tglobal x), (tkw (str "depends") k1 :: tkw (str "on") k2 :: dseg), []. split; [rewrite app_nil_r; reflexivity|]. split; [discriminate|]. split; [constructor|]. intros tail h' y M L.
    assert (no_newline dseg) as Nd by (eapply comma_solid; [exact Hd|]; intros a z ->; solid).
    destruct (lined_good _ _ _ _ (nxt_solid (fst (tglobal x)) ltac:(discriminate)) (good_no_newline (tkw (str "depends") k1 :: tkw (str "on") k2 :: dseg) ltac:(constructor; [discriminate|]; constructor; [discriminate|exact Nd]) _) L) as (x' & y' & -> & F & L2 & Hp).
    apply mates_cons in F as (q1 & z & -> & M1 & F). apply mates_cons in F as (q2 & dseg' & -> & M2 & F). apply mate_kw in M1 as (k1' & -> & _). apply mate_kw in M2 as (k2' & -> & _). apply mate_global in M as (x1 & -> & _ & Rx).
    destruct (deps_mate _ _ _ Hd F) as (deps' & D1 & D2).
    exists (SFuncDeps x1 deps'), (tkw (str "depends") k1' :: tkw (str "on") k2' :: dseg'), y'. eexists. split; [reflexivity|]. split; [exact Hp|]. split; [exact L2|]. split; [split; assumption|].
    right. split; [reflexivity|]. exists (match deps with [] => true | _ => false end). split; [apply stop_deps; exact Hst|]. intros rest' Hr. apply ss_deps; [exact D1|]. apply stop_deps. destruct D2; exact Hr.
  - exists (tdbg x), (tp (ch "=") eq :: d), e. split; [reflexivity|]. split; [discriminate|]. split; [eapply Heol; eassumption|]. intros tail h' y M L.
    destruct (lined_good _ _ _ _ (nxt_solid (fst (tdbg x)) ltac:(discriminate)) (good_no_newline (tp (ch "=") eq :: d) ltac:(constructor; [discriminate|exact Hd]) _) L) as (x' & y' & -> & F & L2 & Hp).
    apply mates_cons in F as (q & d' & -> & Mq & F). apply mate_punct in Mq as (eq' & -> & _). apply mate_dbg in M as (x1 & -> & _ & Rx). destruct (mates_solid _ _ Hd F) as [F1 F2].
    exists (SDbgAnnotation x1 d'), (tp (ch "=") eq' :: d'), y'. eexists. split; [reflexivity|]. split; [exact Hp|]. split; [exact L2|]. split; [split; assumption|]. left. split; [exact He|]. intros e' rest' He'. apply ss_dbg; assumption.
Qed.
End Lines.
