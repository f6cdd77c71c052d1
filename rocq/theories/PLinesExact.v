(** Blank lines and comments have no meaning in documents without errors. *)
From Verif Require Import Text Rope Chumsky Tokenizer Parser Numbers Index SemTok Diag Rename Cfg Backtrace Server SpecText SpecLex SpecParse SpecExact SpecIndex SpecDiag SpecPatch SpecSimilar SpecRebind SpecLines
  PText PLexSpec PLexProps PTokens PParse PParseProps PIndex PIndexDoc PIndexText PDiag PRelex PNatural PRetree PRebind PLayout PLines.

Ltac solid := repeat (apply Forall_cons; [discriminate|]); try apply Forall_nil.
(** ** The brace that closes a function *)
Definition ends_line (b : list stoken) : Prop := b = [] \/ exists n q, b = n :: q /\ fst n = TNewline.
Definition braced (x : list stoken) : Prop := exists a c b, x = a ++ tp (ch "}") c :: b /\ ends_line b.
Lemma braced_app y x : braced x -> braced (y ++ x).
Proof. intros (a & c & b & -> & H). exists (y ++ a), c, b. split; [rewrite <- app_assoc; reflexivity|exact H]. Qed.
Lemma good_tail a : forall p b, good p (a ++ b) -> good (after p a) b.
Proof. induction a as [|t a IH]; intros p b H; [exact H|]. cbn [app good after] in *. apply IH, H. Qed.
Lemma after_app a b : forall p, after p (a ++ b) = after (after p a) b.
Proof. induction a as [|t a IH]; intros p; [reflexivity|]. cbn [app after]. apply IH. Qed.
Lemma brace_place p : next_place p (TPunct (ch "}")) = Within.
Proof. reflexivity. Qed.
Lemma last_of (a b : list stoken) x y : a ++ [x] = b ++ [y] -> x = y.
Proof. intros H. apply app_inj_tail in H. apply H. Qed.
Lemma case_last l x : comma_sep case_seg l x -> x = [] \/ exists y t, x = y ++ [tident t].
Proof.
  induction 1 as [|a x (ty & v & k & e & ->)|a x sp b l xs _ H IH]; [left; reflexivity| |].
  - right. exists [ttype ty; v; tkw (str "label") k; tp (ch "=") e], a. reflexivity.
  - right. destruct IH as [->|(y & t & ->)].
    + exfalso. inversion H as [|? ? (ty & v & k & e & E)|? ? ? ? ? ? (ty & v & k & e & E)]; subst; try discriminate; match goal with G : _ = [] |- _ => destruct (app_eq_nil _ _ G); discriminate | G : [] = _ |- _ => symmetry in G; destruct (app_eq_nil _ _ G); discriminate end.
    + exists (x ++ tp (ch ",") sp :: y), t. rewrite <- app_assoc. reflexivity.
Qed.
Lemma phi_last l x : comma_sep phi_seg l x -> x = [] \/ exists y c, x = y ++ [tp (ch "]") c].
Proof.
  induction 1 as [|a x (o & comma & v & c & _ & ->)|a x sp b l xs _ H IH]; [left; reflexivity| |].
  - right. exists (tp (ch "[") o :: tident a :: tp (ch ",") comma :: v), c. reflexivity.
  - right. destruct IH as [->|(y & t & ->)].
    + exfalso. inversion H as [|? ? (o & comma & v & c & _ & E)|? ? ? ? ? ? (o & comma & v & c & _ & E)]; subst; try discriminate; match goal with G : _ = [] |- _ => destruct (app_eq_nil _ _ G); discriminate | G : [] = _ |- _ => symmetry in G; destruct (app_eq_nil _ _ G); discriminate end.
    + exists (x ++ tp (ch ",") sp :: y), t. rewrite <- app_assoc. reflexivity.
Qed.
(** no reading goes beyond it *)
Lemma body_no_brace f m refs body a c : body_seg f m refs body -> body = a ++ [tp (ch "}") c] -> ~ exists n, In n a /\ fst n = TNewline.
Proof.
  intros H E (n & Hn & Nn). destruct H as [m t Em|m ty v c1 t1 c2 t2 Em|m soup c1 k1 e1 t1 c2 k2 e2 t2 Hs|m soup c1 k1 e1 d c2 cases cs Em Hs Hc|m entries es Em He|m soup Hs Hf].
  - apply (last_of [tident m]) in E. discriminate E.
  - apply (last_of [tident m; (TType (str "int1"), ty); v; tp (ch ",") c1; tident t1; tp (ch ",") c2]) in E. discriminate E.
  - change (tident m :: soup ++ [tp (ch ",") c1; tkw (str "cont") k1; tp (ch "=") e1; tident t1; tp (ch ",") c2; tkw (str "overflow") k2; tp (ch "=") e2; tident t2])
      with (tident m :: soup ++ [tp (ch ",") c1; tkw (str "cont") k1; tp (ch "=") e1; tident t1; tp (ch ",") c2; tkw (str "overflow") k2; tp (ch "=") e2] ++ [tident t2]) in E.
    rewrite app_assoc, app_comm_cons in E. apply last_of in E. discriminate E.
  - destruct (case_last _ _ Hc) as [->|(y & t & ->)].
    + change ([tp (ch ",") c1; tkw (str "default") k1; tp (ch "=") e1; tident d; tp (ch ",") c2] ++ []) with ([tp (ch ",") c1; tkw (str "default") k1; tp (ch "=") e1; tident d] ++ [tp (ch ",") c2]) in E.
      rewrite app_assoc, app_comm_cons in E. apply last_of in E. discriminate E.
    + rewrite !app_assoc, app_comm_cons in E. apply last_of in E. discriminate E.
  - destruct (phi_last _ _ He) as [->|(y & t & ->)]; [apply (last_of []) in E; discriminate E|]. rewrite app_comm_cons in E. apply last_of in E. discriminate E.
  - assert (In n (tident m :: soup)) as Hin by (rewrite E; apply in_or_app; left; exact Hn). destruct Hin as [<-|Hin]; [discriminate Nn|].
    rewrite Forall_forall in Hs. destruct (Hs _ Hin) as [G _]. contradiction.
Qed.
Lemma reading_stops f m refs body dbg a c b rest : body_seg f m refs body -> body ++ opt_seg tdbg dbg ++ rest = a ++ tp (ch "}") c :: b -> ends_line b ->
  (exists n, In n a /\ fst n = TNewline) -> rest <> [].
Proof.
  intros Hb E He Hn ->. rewrite app_nil_r in E. assert (good Within (body ++ opt_seg tdbg dbg)) as Hg by (apply (body_good _ _ _ _ Hb), good_no_newline; destruct dbg; cbn [opt_seg]; solid).
  destruct He as [->|(n & q & -> & Nn)].
  - destruct dbg as [x|]; cbn [opt_seg] in E; [apply last_of in E; discriminate E|]. rewrite app_nil_r in E. exact (body_no_brace _ _ _ _ _ _ Hb E Hn).
  - rewrite E in Hg. apply good_tail in Hg. destruct Hg as [_ [Hg _]]. destruct (Hg Nn) as [G _]. discriminate G.
Qed.

Section Lines.
Variable R : stoken -> stoken -> Prop.
Let flip (a b : stoken) : Prop := R b a.
Lemma mate_flip a b : mate R a b -> mate flip b a.
Proof. intros [E H]. split; [congruence|]. intros N. apply H. congruence. Qed.
Lemma lined_flip p x y : lined R p x y -> lined flip p y x.
Proof.
  induction 1 as [p x x' H1 H2|p a a' x x' Hm H IH|a' x x' Ha H IH|a x x' Ha H IH]; [apply ld_end; assumption|apply ld_token; [apply mate_flip; exact Hm|rewrite <- (proj1 Hm); exact IH]|apply ld_less; assumption|apply ld_more; assumption].
Qed.
Lemma lined_front a a' b b' : Forall2 (mate R) a a' -> forall p, lined R (after p a) b b' -> lined R p (a ++ b) (a' ++ b').
Proof. induction 1 as [|x y a a' Hm _ IH]; intros p H; [exact H|]. cbn [app]. apply ld_token; [exact Hm|]. apply IH. exact H. Qed.
End Lines.
(** a reading of one text is a reading of the other *)
Lemma reads_lined R f m refs dbg st' rest' st : lined R Within st' st -> (exists a c b, st = a ++ tp (ch "}") c :: b /\ ends_line b /\ exists n, In n a /\ fst n = TNewline) ->
  reads f m refs dbg st' rest' -> exists m2 refs2 dbg2 rest2, reads f m2 refs2 dbg2 st rest2.
Proof.
  intros L (a & c & b & Ea & He & Hn) (body & Hb & Hf & -> & sp & q & Er). assert (good Within (body ++ opt_seg tdbg dbg)) as Hg by (apply (body_good _ _ _ _ Hb), good_no_newline; destruct dbg; cbn [opt_seg]; solid).
  rewrite app_assoc in L. destruct (lined_good R _ Within _ _ ltac:(discriminate) Hg L) as (seg & rest2 & E2 & F & L2 & Hp).
  apply mates_app in F as (body2 & d2 & -> & F1 & F2). destruct (body_mate R _ _ _ _ _ Hb F1) as (m2 & refs2 & B1 & B2 & _ & _).
  apply (opt_mate R tdbg (mate_dbg R)) in F2 as (dbg2 & -> & _). exists m2, refs2, dbg2, rest2. exists body2. split; [exact B1|]. split; [rewrite B2; exact Hf|].
  rewrite <- app_assoc in E2. split; [exact E2|]. assert (rest2 <> []) as Hne by (eapply reading_stops; [exact B1|exact (eq_trans (eq_sym E2) Ea)|exact He|exact Hn]).
  subst rest'. remember (tnl sp :: q) as z eqn:Ez. destruct L2 as [p2 x x' H1 H2|p2 t t' x x' Hm H|t' x x' Ht H|t x x' Ht H]; [| |contradiction|contradiction].
  - destruct x' as [|[k s2] x']; [contradiction|]. inversion H2 as [|? ? Hk _]; subst. cbn in Hk. subst k. exists s2, x'. reflexivity.
  - injection Ez as -> ->. destruct t' as [k s2]. destruct Hm as [Hk _]. cbn in Hk. subst k. exists s2, x'. reflexivity.
Qed.

Section Exact.
Variable R : stoken -> stoken -> Prop.
Lemma after_solid_tgt t x : target_seg t x -> after Within x = Within.
Proof. destruct t as [y|]; cbn [target_seg]; [intros (ty & e & ->)|intros ->]; reflexivity. Qed.
Lemma instr_at_seg i seg rest : instr_at i seg rest -> instr_seg any_form i 0 seg.
Proof.
  intros (f & tgt & st & H1 & H2 & (body & H3 & H4 & H5 & _) & _ & H6). exists f, tgt, body. split; [exact H1|]. split; [exact H3|].
  split; [|split; [exact H6|split; [symmetry; exact H4|exact I]]]. rewrite H5 in H2. rewrite !app_assoc in H2. apply app_inv_tail in H2. rewrite <- app_assoc in H2. exact H2.
Qed.
Lemma instr_at_mate i seg rest seg' rest' : instr_at i seg rest -> Forall2 (mate R) seg seg' -> lined R (after Within seg) rest rest' ->
  (exists sp q, rest' = tnl sp :: q) -> braced rest -> exists i', instr_at i' seg' rest' /\ same_instr R i i'.
Proof.
  intros H F L Hnl Hbr. pose proof (instr_at_seg _ _ _ H) as Hs. destruct (instr_good _ _ _ _ Hs) as (Hg & t & r & E & Ht).
  assert (ranges R (cover seg) (cover seg')) as Hc by (rewrite E in *; apply cover_mates; assumption). clear t r E Ht Hg Hs.
  destruct H as (f & tgt & st & H1 & H2 & (body & H3 & H4 & H5 & spn & qn & Hrn) & Hpref & H6). assert (seg = tgt ++ body ++ opt_seg tdbg (i_dbg i)) as E.
  { rewrite H5 in H2. rewrite !app_assoc in H2. apply app_inv_tail in H2. rewrite <- app_assoc in H2. exact H2. }
  rewrite E in F, L. apply mates_app in F as (tgt' & y & -> & F1 & F). pose proof F as Fbd. apply mates_app in F as (body' & y' & -> & F2 & F3).
  destruct (target_mate R _ _ _ H1 F1) as (t' & T1 & T2). destruct (body_mate R _ _ _ _ _ H3 F2) as (m' & refs' & B1 & B2 & B3 & B4). apply (opt_mate R tdbg (mate_dbg R)) in F3 as (d' & -> & D).
  rewrite after_app, (after_solid_tgt _ _ H1) in L. pose proof (lined_front R _ _ _ _ Fbd Within L) as Lst. rewrite <- !app_assoc in Lst.
  exists (mkInstr t' m' refs' d' (cover (tgt' ++ body' ++ opt_seg tdbg d'))). split.
  - exists f, tgt', (body' ++ opt_seg tdbg d' ++ rest'). split; [exact T1|]. split; [rewrite <- !app_assoc; reflexivity|]. split.
    + exists body'. split; [exact B1|]. split; [cbn [i_instr]; rewrite B2; exact H4|]. split; [reflexivity|exact Hnl].
    + split; [|reflexivity]. intros f2 m2 refs2 dbg2 rest2 Hr. apply lined_flip in Lst.
      assert (exists a c b, body ++ opt_seg tdbg (i_dbg i) ++ rest = a ++ tp (ch "}") c :: b /\ ends_line b /\ exists n, In n a /\ fst n = TNewline) as Hbb.
      { destruct Hbr as (a & c & b & Ea & He). destruct a as [|a0 a]; [rewrite Hrn in Ea; discriminate Ea|]. rewrite Hrn in Ea. cbn [app] in Ea. injection Ea as <- Ea.
        exists (body ++ opt_seg tdbg (i_dbg i) ++ tnl spn :: a), c, b. split; [rewrite Hrn, Ea, <- !app_assoc; reflexivity|]. split; [exact He|].
        exists (tnl spn). split; [apply in_or_app; right; apply in_or_app; right; left; reflexivity|reflexivity]. }
      destruct (reads_lined _ _ _ _ _ _ _ _ Lst Hbb Hr) as (m3 & refs3 & dbg3 & rest3 & Hr3).
      apply (Hpref f2 m3 refs3 dbg3 rest3). rewrite H5. exact Hr3.
  - split; [exact T2|]. split; [exact B3|]. split; [exact B4|]. split; [exact D|]. cbn [i_span]. rewrite H6. exact Hc.
Qed.
Lemma instrs_at_lined l seg rest : instrs_at l seg rest -> forall p nls t r y, rest = t :: r -> newlines nls -> fst t <> TNewline -> p <> LineStart -> nls <> [] -> braced rest ->
  lined R p (nls ++ seg ++ rest) y ->
  exists nls' l' seg' t' r', y = nls' ++ seg' ++ t' :: r' /\ newlines nls' /\ nls' <> [] /\ instrs_at l' seg' (t' :: r') /\ Forall2 (same_instr R) l l' /\ mate R t t' /\ lined R (nxt (fst t)) r r'.
Proof.
  induction 1 as [rest|i l pre seg post more rest Hpre Hpost Hne Hi H IH]; intros p nls t r y Er Hn Ht Hp Hnn Hbr L.
  - subst rest. cbn [app] in L. destruct (gap R _ Hn _ _ _ _ Ht L) as (nls' & t' & r' & -> & G1 & G2 & G3 & G4). exists nls', [], [], t', r'. split; [reflexivity|]. split; [exact G1|]. split; [rewrite G4 by exact Hp; exact Hnn|]. split; [constructor|]. split; [constructor|]. split; assumption.
  - destruct (instr_good _ _ _ _ (instr_at_seg _ _ _ Hi)) as (Hg & i0 & ir & E & Hi0). subst seg. rewrite <- !app_assoc in L. rewrite (app_assoc nls) in L.
    assert (newlines (nls ++ pre)) as Hn2 by (apply Forall_app; split; assumption). cbn [app] in L.
    destruct (gap R _ Hn2 _ _ _ _ Hi0 L) as (nls' & i0' & y1 & -> & G1 & G2 & G3 & G4). pose proof (Hg Within) as [_ Hg']. change (next_place Within (fst i0)) with (nxt (fst i0)) in Hg'.
    destruct (lined_good R _ _ _ _ (nxt_solid _ Hi0) Hg' G3) as (ir' & y2 & -> & F & L2 & Hp2).
    destruct (IH _ _ _ _ _ Er Hpost Ht Hp2 Hne Hbr L2) as (post' & l' & seg' & t' & r' & -> & K1 & K2 & K3 & K4 & K5 & K6).
    destruct (instr_at_mate _ _ _ (i0' :: ir') (post' ++ seg' ++ t' :: r') Hi ltac:(constructor; assumption)) as (i' & I1 & I2).
    { cbn [after]. exact L2. }
    { destruct post' as [|[k s] post']; [contradiction|]. inversion K1 as [|? ? Hk _]; subst. cbn in Hk. subst k. eexists _, _. reflexivity. }
    { apply braced_app, braced_app. exact Hbr. }
    exists nls', (i' :: l'), ([] ++ (i0' :: ir') ++ post' ++ seg'), t', r'. split; [cbn [app]; rewrite <- !app_assoc; reflexivity|]. split; [exact G1|].
    split; [rewrite G4 by exact Hp; destruct nls; [contradiction|discriminate]|]. split; [apply ia_cons; [constructor|exact K1|exact K2|exact I1|exact K3]|]. split; [constructor; assumption|]. split; assumption.
Qed.
Lemma blocks_at_head bs seg rest : blocks_at bs seg rest -> forall t r, fst t <> TNewline -> exists h x, seg ++ t :: r = h :: x /\ fst h <> TNewline.
Proof.
  intros H t r Ht. destruct H as [rest|b l seg more rest (label & comma & nls & rest0 & _ & _ & _ & _ & _ & -> & _) _]; [exists t, r; split; [reflexivity|exact Ht]|].
  do 2 eexists. split; [reflexivity|discriminate].
Qed.
Lemma blocks_at_lined bs seg rest : blocks_at bs seg rest -> forall t r h x h' x', rest = t :: r -> fst t <> TNewline -> braced rest -> seg ++ rest = h :: x -> mate R h h' -> lined R (nxt (fst h)) x x' ->
  exists bs' seg' t' r', h' :: x' = seg' ++ t' :: r' /\ blocks_at bs' seg' (t' :: r') /\ Forall2 (same_block R) bs bs' /\ mate R t t' /\ lined R (nxt (fst t)) r r'.
Proof.
  induction 1 as [rest|b l seg more rest Hb H IH]; intros t r h x h' x' Er Ht Hbr E M L.
  - subst rest. cbn [app] in E. injection E as -> ->. exists [], [], h', x'. split; [reflexivity|]. split; [constructor|]. split; [constructor|]. split; assumption.
  - destruct Hb as (label & comma & nls & rest0 & B1 & B2 & B3 & B4 & B5 & -> & B6). subst rest. destruct (blocks_at_head _ _ _ H t r Ht) as (h2 & x2 & E2 & N2).
    assert ((tident label :: tp (ch ":") comma :: nls ++ rest0) ++ h2 :: x2 = h :: x) as E0 by (etransitivity; [apply (f_equal (fun z => _ ++ z)); symmetry; exact E2|]; rewrite app_assoc; exact E). cbn [app] in E0. injection E0 as <- <-. rewrite <- app_assoc in L. change (nxt (fst (tident label))) with Within in L.
    destruct (lined_good R [tp (ch ":") comma] Within _ _ ltac:(discriminate) ltac:(split; [discriminate|exact I]) L) as (c' & y2 & -> & Fc & L2 & _). apply mates_cons in Fc as (c1 & y & -> & Mc & Fc). apply mates_nil in Fc. subst y.
    apply mate_punct in Mc as (comma' & -> & Rc). apply mate_ident in M as (label' & -> & _ & Rl). change (after Within [tp (ch ":") comma]) with Within in L2.
    assert (braced (more ++ t :: r)) as Hbr2 by (apply braced_app; exact Hbr). apply (fun z => eq_ind _ (fun z => instrs_at _ _ z) z _ E2) in B5. apply (fun z => eq_ind _ braced z _ E2) in Hbr2.
    destruct (instrs_at_lined _ _ _ B5 Within _ _ _ _ eq_refl B3 N2 ltac:(discriminate) B4 Hbr2 L2) as (nls' & l1 & seg1 & h2' & x2' & -> & K1 & K2 & K3 & K4 & K5 & K6).
    destruct (IH _ _ _ _ _ _ eq_refl Ht Hbr E2 K5 K6) as (bs' & seg' & t' & r' & E3 & I1 & I2 & I3 & I4).
    exists (mkBB (Some label') (Some comma') l1 (mkSpan (sp_start (snd label')) (last_end_of l1 (sp_end (snd label')))) :: bs'), ((tident label' :: tp (ch ":") comma' :: nls' ++ seg1) ++ seg'), t', r'.
    split; [rewrite E3; cbn [app]; rewrite <- !app_assoc; reflexivity|]. split; [apply ba_cons; [|exact I1]|].
    { exists label', comma', nls', seg1. rewrite <- E3. repeat (split; [first [reflexivity|assumption]|]). reflexivity. }
    split; [constructor; [|exact I2]|split; assumption]. split; [rewrite B1; exact Rl|]. split; [rewrite B2; exact Rc|]. split; [exact K4|]. rewrite B6. split; cbn [sp_start sp_end bb_span].
    + exists (tident label), (tident label'). split; [exact Rl|]. split; reflexivity.
    + apply last_end_alike; [exact K4|]. exists (tident label), (tident label'). split; [exact Rl|]. split; reflexivity.
Qed.
Lemma first_at_lined o seg rest : first_block_at o seg rest -> forall p nls t r y, rest = t :: r -> newlines nls -> fst t <> TNewline -> p <> LineStart -> nls <> [] -> braced rest -> lined R p (nls ++ seg ++ rest) y ->
  exists nls' o' seg' t' r', y = nls' ++ seg' ++ t' :: r' /\ newlines nls' /\ nls' <> [] /\ first_block_at o' seg' (t' :: r') /\ both (same_block R) o o' /\ mate R t t' /\ lined R (nxt (fst t)) r r'.
Proof.
  intros H p nls t r y Er Hn Ht Hp Hnn Hbr L. destruct o as [b|]; cbn [first_block_at] in H.
  - destruct H as (H1 & H2 & H3 & i & il & H4 & H5). destruct (instrs_at_lined _ _ _ H3 _ _ _ _ _ Er Hn Ht Hp Hnn Hbr L) as (nls' & l' & seg' & t' & r' & -> & K1 & K2 & K3 & K4 & K5 & K6).
    pose proof K4 as K4'. rewrite H4 in K4'. inversion K4' as [|? i' ? il' Hi Hil E1 E2]. subst l'.
    exists nls', (Some (mkBB None None (i' :: il') (mkSpan (sp_start (i_span i')) (last_end_of (i' :: il') 0)))), seg', t', r'. split; [reflexivity|]. split; [exact K1|]. split; [exact K2|].
    split; [split; [reflexivity|]; split; [reflexivity|]; split; [exact K3|]; exists i', il'; split; reflexivity|]. split; [|split; assumption].
    split; [rewrite H1; exact I|]. split; [rewrite H2; exact I|]. split; [exact K4|]. rewrite H5. cbn [bb_span]. split; cbn [sp_start sp_end].
    + destruct Hi as (_ & _ & _ & _ & Hr & _). exact Hr.
    + rewrite H4. destruct (last_end_alike R _ _ (sp_end (i_span i)) (sp_end (i_span i')) K4') as (a & a' & Ra & E3 & E4); [destruct Hi as (_ & _ & _ & _ & _ & Hr); exact Hr|].
      exists a, a'. split; [exact Ra|]. revert E3 E4. unfold last_end_of. destruct (rev (i :: il)) eqn:Er1; [apply (f_equal (@length _)) in Er1; rewrite rev_length in Er1; discriminate Er1|].
      destruct (rev (i' :: il')) eqn:Er2; [apply (f_equal (@length _)) in Er2; rewrite rev_length in Er2; discriminate Er2|]. auto.
  - subst seg. destruct (instrs_at_lined [] [] rest (ia_nil rest) _ _ _ _ _ Er Hn Ht Hp Hnn Hbr L) as (nls' & l' & seg' & t' & r' & -> & K1 & K2 & K3 & K4 & K5 & K6).
    inversion K4; subst l'. inversion K3; subst seg'. exists nls', None, [], t', r'. split; [reflexivity|]. split; [exact K1|]. split; [exact K2|]. split; [reflexivity|]. split; [exact I|]. split; assumption.
Qed.
Lemma fbody_at_lined b seg rest : fbody_at b seg rest -> ends_line rest -> forall p y, p <> LineStart -> lined R p (seg ++ rest) y ->
  exists b' seg' rest' p', y = seg' ++ rest' /\ fbody_at b' seg' rest' /\ same_body R b b' /\ lined R p' rest rest' /\ p' <> LineStart.
Proof.
  intros (nls & o & seg1 & bbs & seg2 & H1 & H2 & H3 & H4 & H5 & ->) He p y Hp L.
  cbn [app] in L. rewrite <- !app_assoc in L. cbn [app] in L. assert (braced (tp (ch "}") (fb_close b) :: rest)) as Hbr by (exists [], (fb_close b), rest; split; [reflexivity|exact He]).
  destruct (lined_good R [tp (ch "{") (fb_open b)] p _ _ Hp ltac:(split; [discriminate|exact I]) L) as (c' & y2 & -> & Fc & L2 & Hp2). apply mates_cons in Fc as (c1 & y & -> & Mc & Fc). apply mates_nil in Fc. subst y.
  apply mate_punct in Mc as (open' & -> & Ro). destruct (blocks_at_head _ _ _ H4 (tp (ch "}") (fb_close b)) rest ltac:(discriminate)) as (h & x & E & Nh).
  assert (braced (seg2 ++ tp (ch "}") (fb_close b) :: rest)) as Hbr2 by (apply braced_app; exact Hbr).
  destruct (first_at_lined _ _ _ H3 _ _ _ _ _ E H1 Nh Hp2 H2 Hbr2 L2) as (nls' & o' & seg1' & h' & x' & -> & K1 & K2 & K3 & K4 & K5 & K6).
  destruct (blocks_at_lined _ _ _ H4 (tp (ch "}") (fb_close b)) _ _ _ _ _ eq_refl ltac:(discriminate) Hbr E K5 K6) as (bs' & seg2' & t' & r' & E3 & I1 & I2 & I3 & I4). apply mate_punct in I3 as (close' & -> & Rc).
  exists (mkBody open' close' (match o' with Some x => x :: bs' | None => bs' end)), (tp (ch "{") open' :: nls' ++ seg1' ++ seg2' ++ [tp (ch "}") close']), r', Within. rewrite E3 in K3.
  split; [rewrite E3; cbn [app]; rewrite <- !app_assoc; reflexivity|]. split; [exists nls', o', seg1', bs', seg2'; repeat (split; [first [assumption|reflexivity]|]); reflexivity|].
  split; [|split; [exact I4|discriminate]]. split; [exact Ro|]. split; [exact Rc|]. cbn [fb_blocks]. rewrite H5. destruct o, o'; cbn [both] in K4; try contradiction; [constructor; assumption|exact I2].
Qed.

(** ** Statements *)
Lemma eol_newlines e rest : eol_seg e rest -> newlines e.
Proof. intros [(sp & ->)|(-> & _)]; [constructor; [reflexivity|constructor]|constructor]. Qed.
Lemma eol_ends e rest : eol_seg e rest -> ends_line (e ++ rest).
Proof. intros [(sp & ->)|(-> & ->)]; [right; exists (tnl sp), rest; split; reflexivity|left; reflexivity]. Qed.
Lemma stmt_at_core s seg rest : stmt_at s seg rest -> exists h x e, seg = h :: x ++ e /\ fst h <> TNewline /\ newlines e /\
  forall h' y, mate R h h' -> lined R (nxt (fst h)) (x ++ e ++ rest) y ->
    exists s' x' y' p, y = x' ++ y' /\ p <> LineStart /\ lined R p (e ++ rest) y' /\ same_stmt R s s' /\
      ((eol_seg e rest /\ forall e' rest', y' = e' ++ rest' -> eol_seg e' rest' -> stmt_at s' (h' :: x' ++ e') rest') \/
       (e = [] /\ exists none, stop none rest /\ forall rest', stop none rest' -> stmt_at s' (h' :: x') rest')).
Proof.
  intros H. destruct (match s with SFuncDef _ _ _ => true | _ => false end) eqn:Ed.
  - destruct s as [| |kw sig body| |]; try discriminate Ed. destruct H as (sseg & bseg & e & Hs & Hb & He & ->). destruct (sig_solid _ _ Hs) as [Ns _].
    exists (TDefine, kw), (sseg ++ bseg), e. split; [rewrite <- !app_assoc; reflexivity|]. split; [discriminate|]. split; [eapply eol_newlines; exact He|]. intros h' y M L. rewrite <- app_assoc in L.
    destruct (lined_good R _ _ _ _ (nxt_solid (fst (TDefine, kw)) ltac:(discriminate)) (good_no_newline sseg Ns _) L) as (sseg' & y' & -> & F & L2 & Hp). apply mate_plain in M as (kw' & -> & Rk); [|discriminate].
    destruct (sig_mate R _ _ _ Hs F) as (sig' & S1 & S2). destruct (fbody_at_lined _ _ _ Hb (eol_ends _ _ He) _ _ Hp L2) as (body' & bseg' & y2 & p2 & -> & B1 & B2 & B3 & B4).
    exists (SFuncDef kw' sig' body'), (sseg' ++ bseg'), y2, p2. split; [rewrite <- app_assoc; reflexivity|]. split; [exact B4|]. split; [exact B3|]. split; [split; [exact Rk|split; assumption]|].
    left. split; [exact He|]. intros e' rest' -> He'. exists sseg', bseg', e'. split; [exact S1|]. split; [exact B1|]. split; [exact He'|]. rewrite <- !app_assoc. reflexivity.
  - assert (stmt_seg any_form s 0 seg rest) as Hs by (destruct s; try exact H; discriminate Ed). destruct (stmt_core R _ _ _ _ _ Hs) as (h & x & e & -> & Nh & Ne & Hcore).
    exists h, x, e. split; [reflexivity|]. split; [exact Nh|]. split; [exact Ne|]. intros h' y M L. destruct (Hcore _ _ _ M L) as (s' & x' & y' & p & E & Hp & L2 & Rs & Hk).
    exists s', x', y', p. split; [exact E|]. split; [exact Hp|]. split; [exact L2|]. split; [exact Rs|].
    assert (forall sg rs, stmt_seg any_form s' 0 sg rs -> stmt_at s' sg rs) as Hat by (intros sg rs G; destruct s, s'; try discriminate Ed; try exact G; contradiction Rs).
    destruct Hk as [[He Hk]|(Ee & none & Hst & Hk)]; [left; split; [exact He|]; intros e' rest' _ He'; apply Hat, Hk, He'|right; split; [exact Ee|]; exists none; split; [exact Hst|]; intros rest' Hr; apply Hat, Hk, Hr].
Qed.
Lemma module_lined ss toks : module_at ss toks -> forall p nls y, newlines nls -> lined R p (nls ++ toks) y ->
  exists nls' ss' toks', y = nls' ++ toks' /\ newlines nls' /\ module_at ss' toks' /\ Forall2 (same_stmt R) ss ss' /\
    (toks = [] -> toks' = []) /\ (p <> LineStart -> nls <> [] -> toks' <> [] -> nls' <> []).
Proof.
  induction 1 as [|s ss pre seg post toks Hpre Hpost Hs H IH]; intros p nls y Hn L.
  - rewrite app_nil_r in L. exists y, [], []. split; [rewrite app_nil_r; reflexivity|]. split; [eapply lined_end; eassumption|]. split; [constructor|]. split; [constructor|]. split; [reflexivity|]. intros; contradiction.
  - destruct (stmt_at_core _ _ _ Hs) as (h & x & e & -> & Nh & Ne & Hcore). assert (lined R p ((nls ++ pre) ++ h :: x ++ e ++ post ++ toks) y) as L' by (revert L; cbn [app]; rewrite <- !app_assoc; cbn [app]; rewrite <- ?app_assoc; auto).
    assert (newlines (nls ++ pre)) as Hn2 by (apply Forall_app; split; assumption).
    destruct (gap R _ Hn2 _ _ _ _ Nh L') as (nls' & h' & y1 & -> & G1 & G2 & G3 & G4).
    destruct (Hcore _ _ G2 G3) as (s' & x' & y2 & p2 & -> & Hp2 & L2 & Rs & Hk). rewrite app_assoc in L2.
    assert (newlines (e ++ post)) as Hn3 by (apply Forall_app; split; assumption).
    destruct (IH _ _ _ Hn3 L2) as (nls2 & ss' & toks2 & -> & K1 & K2 & K3 & K4 & K5).
    assert (p <> LineStart -> nls <> [] -> nls' <> []) as Hfin by (intros Hp Hnn; rewrite G4 by exact Hp; destruct nls; [contradiction|discriminate]).
    destruct Hk as [[He Hk]|(-> & none & Hst & Hk)].
    + assert (exists e' post', nls2 = e' ++ post' /\ newlines post' /\ eol_seg e' (post' ++ toks2)) as (e' & post' & -> & P1 & P2).
      { destruct nls2 as [|c nls2].
        - exists [], []. split; [reflexivity|]. split; [constructor|]. right. split; [reflexivity|]. cbn [app]. destruct toks2 as [|z toks2]; [reflexivity|]. exfalso.
          destruct He as [(sp & ->)|(-> & Er)]; [apply (K5 Hp2); [discriminate|discriminate|reflexivity]|]. apply app_eq_nil in Er as [_ ->]. discriminate (K4 eq_refl).
        - inversion K1 as [|? ? Hc K1']; subst. destruct c as [k sp]. cbn in Hc. subst k. exists [(TNewline, sp)], nls2. split; [reflexivity|]. split; [exact K1'|]. left. exists sp. reflexivity. }
      exists nls', (s' :: ss'), ([] ++ (h' :: x' ++ e') ++ post' ++ toks2). split; [cbn [app]; rewrite <- !app_assoc; reflexivity|]. split; [exact G1|].
      split; [apply ma_cons; [constructor|exact P1|apply Hk; [rewrite <- app_assoc; reflexivity|exact P2]|exact K2]|]. split; [constructor; assumption|].
      split; [intros E; destruct pre; discriminate E|]. intros Hp Hnn _. exact (Hfin Hp Hnn).
    + exists nls', (s' :: ss'), ([] ++ (h' :: x') ++ nls2 ++ toks2). split; [cbn [app]; reflexivity|]. split; [exact G1|].
      split; [apply ma_cons; [constructor|exact K1|apply Hk|exact K2]|].
      { cbn [app] in L2. exact (stop_lined R _ _ _ _ Hp2 L2 Hst). }
      split; [constructor; assumption|]. split; [intros E; destruct pre; discriminate E|]. intros Hp Hnn _. exact (Hfin Hp Hnn).
Qed.
End Exact.
