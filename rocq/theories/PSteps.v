(** Several renames in a row. *)
From Verif Require Import Text Rope Chumsky Tokenizer Parser Numbers Index SemTok Diag Rename Cfg Backtrace Server SpecText SpecLex SpecParse SpecIndex SpecDiag SpecBacktrace SpecNumbers SpecCfg SpecView SpecRename SpecPatch SpecSimilar SpecRebind SpecSteps
  PLexSpec PLexProps PParse PParseProps PNumbers PHints PNav PIndex PIndexDoc PIndexText PDiag PRename PRelex PRetree PRebind PUndo.

(** ** Texts with the same blanks *)
Ltac same_pieces E L1 L2 := let E' := fresh in let E'' := fresh in
  destruct (same_length_app _ _ _ _ E L1) as [-> E']; destruct (same_length_app _ _ _ _ E' L2) as [-> ->].
(** two steps and one step *)
Lemma regapped_join u src E src' E' E2 i j t t' T T' : regapped u src E i j t t' T T' -> forall k t'' T'', regapped u src' E' j k t' t'' T' T'' -> forall m t2 T2, regapped u src E2 i m t t2 T T2 ->
  (forall a b w w' w'' w2, In (a, b) (combine T T') -> swapped u src E a w w' -> swapped u src' E' b w' w'' -> swapped u src E2 a w w2 -> w'' = w2) -> t'' = t2.
Proof.
  induction 1 as [i j bl|i j bl t t' w w' r r' T T' Hs Hr IH]; intros k t'' T'' H m t2 T2 H2 HR.
  - inversion H; subst. inversion H2; subst. reflexivity.
  - inversion H as [|j0 k0 bl2 t0 t1 v2 v3 r2 r3 tk2 tk3 Hs2 Hr2 Ej Ek E1 E3 E4 E5]; subst. inversion H2 as [|j1 k1 bl3 t3 t4 x2 x3 q2 q3 tk4 tk5 Hs3 Hr3 Ej' Ek' F1 F3 F4 F5]; subst.
    assert (length bl2 = length bl) as L1 by lia. assert (length v2 = length w') as L2 by lia. assert (length bl3 = length bl) as L3 by lia. assert (length x2 = length w) as L4 by lia.
    same_pieces E1 L1 L2. same_pieces F1 L3 L4. rewrite (HR _ _ _ _ _ _ (or_introl eq_refl) Hs Hs2 Hs3). f_equal. f_equal. eapply IH; [exact Hr2|exact Hr3|].
    intros a b z z' z'' z2 Hab. apply HR. right. exact Hab.
Qed.
(** two ways with two steps *)
Lemma regapped_square u src E src' E' E2 src2 E2' i j t t' T T' : regapped u src E i j t t' T T' -> forall k t'' T'', regapped u src' E' j k t' t'' T' T'' ->
  forall m t2 T2, regapped u src E2 i m t t2 T T2 -> forall n t3 T3, regapped u src2 E2' m n t2 t3 T2 T3 ->
  (forall a b c w w' w'' w2 w3, In (a, b) (combine T T') -> In (a, c) (combine T T2) -> swapped u src E a w w' -> swapped u src' E' b w' w'' -> swapped u src E2 a w w2 -> swapped u src2 E2' c w2 w3 -> w'' = w3) -> t'' = t3.
Proof.
  induction 1 as [i j bl|i j bl t t' w w' r r' T T' Hs Hr IH]; intros k t'' T'' H m t2 T2 H2 n t3 T3 H3 HR.
  - inversion H; subst. inversion H2; subst. inversion H3; subst. reflexivity.
  - inversion H as [|j0 k0 bl2 t0 t1 v2 v3 r2 r3 tk2 tk3 Hs2 Hr2 Ej Ek E1 E3 E4 E5]; subst. inversion H2 as [|j1 k1 bl3 t5 t4 x2 x3 q2 q3 tk4 tk5 Hs3 Hr3 Ej' Ek' F1 F3 F4 F5]; subst.
    inversion H3 as [|j2 k2 bl4 t6 t7 y2 y3 p2 p3 tk6 tk7 Hs4 Hr4 Ej2 Ek2 G1 G3 G4 G5]; subst.
    assert (length bl2 = length bl) as L1 by lia. assert (length v2 = length w') as L2 by lia. assert (length bl3 = length bl) as L3 by lia. assert (length x2 = length w) as L4 by lia.
    assert (length bl4 = length bl3) as L5 by lia. assert (length y2 = length x3) as L6 by lia.
    same_pieces E1 L1 L2. same_pieces F1 L3 L4. same_pieces G1 L5 L6.
    rewrite (HR _ _ _ _ _ _ _ _ (or_introl eq_refl) (or_introl eq_refl) Hs Hs2 Hs3 Hs4). f_equal. f_equal. eapply IH; [exact Hr2|exact Hr3|exact Hr4|].
    intros a b c z z' z'' z2 z3 Hab Hac. apply HR; right; assumption.
Qed.
(** no step *)
Lemma regapped_same u src E i j t t' T T' : regapped u src E i j t t' T T' -> (forall a w w', In a T -> swapped u src E a w w' -> w' = w) -> t' = t.
Proof.
  induction 1 as [i j bl|i j bl t t' w w' r r' T T' Hs Hr IH]; intros HR; [reflexivity|].
  rewrite (HR _ _ _ (or_introl eq_refl) Hs). f_equal. f_equal. apply IH. intros a z z' Ha. apply HR. right. exact Ha.
Qed.

(** ** What becomes of a token *)
Lemma swap_word u src pr ix new edits (Hsrc : plain_document src) (Hix : indexed u src pr ix) (Hrep : replaces src new (recorded (pr_stmts pr) (pr_tokens pr)) edits) a w w' :
  In a (pr_tokens pr) -> swapped u src edits a w w' ->
  (exists x, In x (recorded (pr_stmts pr) (pr_tokens pr)) /\ o_span x = snd a /\ new x w') \/
  (w' = w /\ forall x y, In x (recorded (pr_stmts pr) (pr_tokens pr)) -> o_span x = snd a -> ~ new x y).
Proof.
  intros Ha [_ [[-> Hu]|(ed & Hin & E & <-)]].
  - right. split; [reflexivity|]. intros x y Hx Es Hn. exact (proj1 (touched _ _ _ _ _ _ Hsrc Hix Hrep _ _ _ Ha Hx Es Hn) Hu).
  - left. eapply edit_occ; eassumption.
Qed.
Definition becomes (l : list occurrence) (o : occurrence) (final : text) (a : stoken) (w w' : text) : Prop :=
  (w' = final /\ exists x, In x l /\ o_span x = snd a /\ same_symbol o x) \/
  (w' = w /\ forall x, In x l -> o_span x = snd a -> ~ same_symbol o x).
Lemma swap_renamed u src pr ix o final edits (Hsrc : plain_document src) (Hix : indexed u src pr ix) (Hrep : replaces src (renamed o final) (recorded (pr_stmts pr) (pr_tokens pr)) edits) a w w' :
  In a (pr_tokens pr) -> swapped u src edits a w w' -> becomes (recorded (pr_stmts pr) (pr_tokens pr)) o final a w w'.
Proof.
  intros Ha Hs. destruct (swap_word _ _ _ _ _ _ Hsrc Hix Hrep _ _ _ Ha Hs) as [(x & Hx & Es & [S ->])|[-> Hno]].
  - left. split; [reflexivity|]. exists x. auto.
  - right. split; [reflexivity|]. intros x Hx Es S. exact (Hno x final Hx Es (conj S eq_refl)).
Qed.

(** ** One rename, asked for at a given occurrence *)
Definition single (pr : parser_result) (o : occurrence) : Prop := global (o_kind o) -> ~ dual (pr_stmts pr) (o_name o).
Lemma single_unique u src pr ix o x : indexed u src pr ix -> single pr o -> In o (recorded (pr_stmts pr) (pr_tokens pr)) -> In x (recorded (pr_stmts pr) (pr_tokens pr)) -> o_span o = o_span x -> o = x.
Proof.
  intros Hix Hd Ho Hx E. destruct (indexed_ok _ _ _ _ Hix) as (_ & _ & Hsp & Hsub & Hrg). destruct (recorded_unique _ _ _ Hsp Hsub Hrg _ _ Ho Hx E) as [G|D]; [exact G|]. exfalso.
  unfold single, dual_token, occ_token in *. cbn [fst] in D. destruct (o_kind o); try contradiction; (apply Hd; [unfold global; auto|exact D]).
Qed.
(** the symbol at the place of [o] is the one of [o] *)
Lemma single_symbol u src pr ix o x y : indexed u src pr ix -> single pr o -> In x (recorded (pr_stmts pr) (pr_tokens pr)) -> In y (recorded (pr_stmts pr) (pr_tokens pr)) -> o_span x = o_span y -> same_symbol o x -> x = y.
Proof. intros Hix Hd Hx Hy E (S1 & S2 & S3). eapply single_unique; try eassumption. unfold single in *. rewrite <- S1, <- S3. exact Hd. Qed.
Lemma proper_single u pr o new final : proper u pr o new final -> single pr o.
Proof. intros (_ & _ & _ & H). exact H. Qed.

Section First.
Variables (e : env) (src : text) (pr : parser_result) (ix : hir_index).
Notation u := (e_u e).
Notation l := (recorded (pr_stmts pr) (pr_tokens pr)).
Hypothesis Hsrc : plain_document src.
Hypothesis Hix : indexed u src pr ix.
Lemma rename_here s uri d p o new final : opened e s uri src d -> In o l -> covers (o_span o) p -> single pr o ->
  tokenize u src = Val (Some (pr_tokens pr), []) -> accepted u (o_kind o) new final -> (forall b, final <> b ++ [ch ":"]) ->
  (o_kind o = KLabel -> free_word final /\ plain_word (o_name o) /\ plain_word final) ->
  exists edits pr', rename e s uri (lsp_position src p) new = Val (Reply edits) /\ replaces src (renamed o final) l edits /\
    parse_from_str u (patched src edits) = Val pr' /\ tokenize u (patched src edits) = Val (Some (pr_tokens pr'), []) /\
    retold (renamed o final) l (pr_tokens pr) (pr_tokens pr') /\ regapped u src edits 0 0 src (patched src edits) (pr_tokens pr) (pr_tokens pr') /\
    (unused l o final -> bound_alike pr pr').
Proof.
  intros Ho Hin Hc Hd Hcl Ha Hend Hlb. destruct (span_bounds _ _ _ _ Hix _ Hin) as [Hb1 Hb2]. destruct (indexed_ok _ _ _ _ Hix) as (_ & _ & Hsp & Hsub & Hrg).
  destruct (rename_full _ _ _ _ _ p Hsrc Ho ltac:(destruct Hc; lia)) as (pr0 & Hpr & _ & _ & H). assert (pr0 = pr) as -> by (destruct Hix as [G _]; congruence).
  destruct H as [H|(o0 & errs & Hin0 & Hc0 & Ht & H)]; [exfalso; exact (H _ Hin Hc)|]. assert (errs = []) as -> by congruence.
  pose proof (covers_same _ _ _ Hsp Hsub _ _ _ Hin Hin0 Hc Hc0) as Etk. assert (o = o0) as <- by (eapply single_unique; try eassumption; exact (f_equal snd Etk)).
  destruct (H _ _ Ha Hend ltac:(auto)) as (edits & pr' & errs' & Er & Hrep & Hp' & Et' & R & Hgap & Hbd). destruct (Hgap eq_refl) as [-> Hg].
  exists edits, pr'. repeat (split; [assumption|]). intros Hu. exact (Hbd Hu Hd).
Qed.

(** the names of the new document *)
Lemma new_names o final pr' : single pr o -> retold (renamed o final) l (pr_tokens pr) (pr_tokens pr') -> bound_alike pr pr' ->
  forall x x', In (x, x') (combine l (recorded (pr_stmts pr') (pr_tokens pr'))) -> (same_symbol o x /\ o_name x' = final) \/ (~ same_symbol o x /\ o_name x' = o_name x).
Proof.
  intros Hdu R [[Hoc _] _] x x' Hx. destruct (indexed_ok _ _ _ _ Hix) as (_ & _ & Hsp & Hsub & Hrg).
  pose proof (combine_forall2 _ _ _ Hoc _ _ Hx) as (_ & _ & _ & Tx). pose proof (in_combine_l _ _ _ _ Hx) as Hx1.
  pose proof (occ_token_name x') as Hn'. destruct (renamed_name _ _ _ _ Hsp Hsub Hrg o final Hdu R x _ Hx1 Tx) as [[S E]|[S E]]; [left|right]; (split; [exact S|]); congruence.
Qed.

(** ** A second rename *)
Variables (src' : text) (pr' : parser_result).
Notation l' := (recorded (pr_stmts pr') (pr_tokens pr')).
Hypothesis Hsrc' : plain_document src'.
Hypothesis Hpr' : parse_from_str u src' = Val pr'.
Hypothesis Hcl' : tokenize u src' = Val (Some (pr_tokens pr'), []).
Hypothesis Hbound : bound_alike pr pr'.
Lemma rename_second s uri d q x t new final : opened e s uri src' d -> In x l -> single pr x -> counterparts (pr_tokens pr) (pr_tokens pr') (occ_token x) t -> covers (snd t) q ->
  accepted u (o_kind x) new final -> (forall b, final <> b ++ [ch ":"]) ->
  (o_kind x = KLabel -> free_word final /\ (forall x', In (x, x') (combine l l') -> plain_word (o_name x')) /\ plain_word final) ->
  exists edits toks, rename e s uri (lsp_position src' q) new = Val (Reply edits) /\ regapped u src' edits 0 0 src' (patched src' edits) (pr_tokens pr') toks /\
    forall a b w w', In (a, b) (combine (pr_tokens pr) (pr_tokens pr')) -> swapped u src' edits b w w' -> becomes l x final a w w'.
Proof.
  intros Ho Hx Hd Ht Hc Ha Hend Hlb. destruct (opened_indexed _ _ _ _ _ Ho) as (pr0 & Hix' & _). pose proof (proj1 Hix') as Hq0. assert (pr0 = pr') as -> by congruence.
  pose proof (proj1 Hbound) as [Hoc Hsy].
  destruct (there _ _ _ _ _ _ _ Hix Hix' Hoc x _ _ Ht Hx eq_refl) as (x' & Px & Hx' & Es' & Kx & Bx & _ & _).
  destruct (span_bounds _ _ _ _ Hix' _ Hx') as [Hb1 Hb2]. destruct (indexed_ok _ _ _ _ Hix') as (_ & _ & Hsp' & Hsub' & _).
  assert (covers (o_span x') q) as Hc' by (rewrite Es'; exact Hc).
  destruct (rename_full _ _ _ _ _ q Hsrc' Ho ltac:(destruct Hc'; lia)) as (pr2 & Hpr2 & _ & _ & H). assert (pr2 = pr') as -> by congruence.
  destruct H as [H|(o2 & errs & Hin2 & Hc2 & Htk & H)]; [exfalso; exact (H _ Hx' Hc')|]. assert (errs = []) as -> by congruence.
  pose proof (covers_same _ _ _ Hsp' Hsub' _ _ _ Hx' Hin2 Hc' Hc2) as Etk. assert (o_span o2 = snd t) as Es2 by (rewrite <- Es'; symmetry; exact (f_equal snd Etk)).
  destruct (here _ _ _ _ _ _ _ Hix Hix' Hoc o2 _ _ Ht Hin2 Es2) as (x2 & P2 & Hx2 & E2 & K2 & B2 & _ & _).
  assert (x = x2) as <- by (eapply single_unique; [exact Hix|exact Hd|exact Hx|exact Hx2|symmetry; exact E2]).
  destruct (H new final) as (edits & pr'' & errs'' & Er & Hrep & _ & _ & _ & Hgap & _).
  - rewrite <- K2. exact Ha.
  - exact Hend.
  - intros G. rewrite <- K2 in G. destruct (Hlb G) as (L1 & L2 & L3). auto.
  - destruct (Hgap eq_refl) as [_ Hg]. exists edits, (pr_tokens pr''). split; [exact Er|]. split; [exact Hg|]. intros a b w w' Hab Hs.
    destruct (swap_renamed _ _ _ _ _ _ _ Hsrc' Hix' Hrep _ _ _ (in_combine_r _ _ _ _ Hab) Hs) as [[-> (z' & Hz' & Ez' & Sz)]|[-> Hno]].
    + left. split; [reflexivity|]. destruct (here _ _ _ _ _ _ _ Hix Hix' Hoc z' _ _ Hab Hz' Ez') as (z & Pz & Hz & Ez & _). exists z. split; [exact Hz|]. split; [exact Ez|]. apply (Hsy _ _ _ _ P2 Pz). exact Sz.
    + right. split; [reflexivity|]. intros z Hz Ez Sz. destruct (there _ _ _ _ _ _ _ Hix Hix' Hoc z _ _ Hab Hz Ez) as (z' & Pz & Hz' & Ez' & _). apply (Hno z' Hz' Ez'). apply (Hsy _ _ _ _ P2 Pz). exact Sz.
Qed.
End First.

(** ** Renames of two symbols, in both orders *)
Lemma rename_orders e s uri src d : plain_document src -> opened e s uri src d ->
  exists pr, parse_from_str (e_u e) src = Val pr /\ pr_stmts pr = doc_stmts d /\
  forall o1 p1 new1 final1 o2 p2 new2 final2, tokenize (e_u e) src = Val (Some (pr_tokens pr), []) ->
    In o1 (recorded (pr_stmts pr) (pr_tokens pr)) -> covers (o_span o1) p1 -> proper (e_u e) pr o1 new1 final1 -> unused (recorded (pr_stmts pr) (pr_tokens pr)) o1 final1 ->
    In o2 (recorded (pr_stmts pr) (pr_tokens pr)) -> covers (o_span o2) p2 -> proper (e_u e) pr o2 new2 final2 -> unused (recorded (pr_stmts pr) (pr_tokens pr)) o2 final2 ->
    ~ same_symbol o1 o2 ->
    exists edits1 pr1 edits2 pr2,
      rename e s uri (lsp_position src p1) new1 = Val (Reply edits1) /\ parse_from_str (e_u e) (patched src edits1) = Val pr1 /\
      rename e s uri (lsp_position src p2) new2 = Val (Reply edits2) /\ parse_from_str (e_u e) (patched src edits2) = Val pr2 /\
      forall s1 uri1 d1 t2 q2 s2 uri2 d2 t1 q1,
        plain_document (patched src edits1) -> opened e s1 uri1 (patched src edits1) d1 -> counterparts (pr_tokens pr) (pr_tokens pr1) (occ_token o2) t2 -> covers (snd t2) q2 ->
        plain_document (patched src edits2) -> opened e s2 uri2 (patched src edits2) d2 -> counterparts (pr_tokens pr) (pr_tokens pr2) (occ_token o1) t1 -> covers (snd t1) q1 ->
        exists edits12 edits21,
          rename e s1 uri1 (lsp_position (patched src edits1) q2) new2 = Val (Reply edits12) /\
          rename e s2 uri2 (lsp_position (patched src edits2) q1) new1 = Val (Reply edits21) /\
          patched (patched src edits1) edits12 = patched (patched src edits2) edits21.
Proof.
  intros Hsrc Ho. destruct (opened_indexed _ _ _ _ _ Ho) as (pr & Hix & Hst). exists pr. split; [exact (proj1 Hix)|]. split; [symmetry; apply Hst|].
  intros o1 p1 new1 final1 o2 p2 new2 final2 Hcl Hin1 Hc1 (A1 & N1 & L1 & D1) U1 Hin2 Hc2 (A2 & N2 & L2 & D2) U2 Hdiff.
  destruct (rename_here _ _ _ _ Hsrc Hix _ _ _ _ _ _ _ Ho Hin1 Hc1 D1 Hcl A1 N1 L1) as (edits1 & pr1 & Er1 & Hrep1 & Hp1 & Ht1 & R1 & G1 & B1). specialize (B1 U1).
  destruct (rename_here _ _ _ _ Hsrc Hix _ _ _ _ _ _ _ Ho Hin2 Hc2 D2 Hcl A2 N2 L2) as (edits2 & pr2 & Er2 & Hrep2 & Hp2 & Ht2 & R2 & G2 & B2). specialize (B2 U2).
  exists edits1, pr1, edits2, pr2. repeat (split; [assumption|]). intros s1 uri1 d1 t2 q2 s2 uri2 d2 t1 q1 Hs1 Ho1 Hcp2 Hq2 Hs2 Ho2 Hcp1 Hq1.
  destruct (rename_second e src pr _ Hix _ _ Hs1 Hp1 Ht1 B1 _ _ _ _ _ _ new2 final2 Ho1 Hin2 D2 Hcp2 Hq2 A2 N2) as (edits12 & T12 & Er12 & G12 & S12).
  { intros K. destruct (L2 K) as (X1 & X2 & X3). split; [exact X1|]. split; [|exact X3]. intros x' Px. destruct (new_names _ _ _ _ Hix _ _ _ D1 R1 B1 _ _ Px) as [[S _]|[_ ->]]; [contradiction|exact X2]. }
  destruct (rename_second e src pr _ Hix _ _ Hs2 Hp2 Ht2 B2 _ _ _ _ _ _ new1 final1 Ho2 Hin1 D1 Hcp1 Hq1 A1 N1) as (edits21 & T21 & Er21 & G21 & S21).
  { intros K. destruct (L1 K) as (X1 & X2 & X3). split; [exact X1|]. split; [|exact X3]. intros x' Px. destruct (new_names _ _ _ _ Hix _ _ _ D2 R2 B2 _ _ Px) as [[S _]|[_ ->]]; [|exact X2].
    exfalso. apply Hdiff. destruct S as (? & ? & ?). split; [|split]; congruence. }
  exists edits12, edits21. split; [exact Er12|]. split; [exact Er21|]. eapply regapped_square; [exact G1|exact G12|exact G2|exact G21|].
  intros a b c w w' w'' w2 w3 Hab Hac W1 W12 W2 W21. pose proof (in_combine_l _ _ _ _ Hab) as Ha.
  apply (swap_renamed _ _ _ _ _ _ _ Hsrc Hix Hrep1 _ _ _ Ha) in W1. apply (swap_renamed _ _ _ _ _ _ _ Hsrc Hix Hrep2 _ _ _ Ha) in W2. apply (S12 _ _ _ _ Hab) in W12. apply (S21 _ _ _ _ Hac) in W21.
  assert (forall x1 x2, In x1 (recorded (pr_stmts pr) (pr_tokens pr)) -> In x2 (recorded (pr_stmts pr) (pr_tokens pr)) -> o_span x1 = snd a -> o_span x2 = snd a -> same_symbol o1 x1 -> same_symbol o2 x2 -> False) as No.
  { intros x1 x2 H1 H2 E1 E2 Sx1 Sx2. assert (x1 = x2) as -> by (eapply (single_symbol _ _ _ _ o1); try eassumption; congruence). apply Hdiff.
    destruct Sx1 as (? & ? & ?). destruct Sx2 as (? & ? & ?). split; [|split]; congruence. }
  destruct W1 as [[-> (x1 & I1 & E1 & Sx1)]|[-> No1]]; destruct W2 as [[-> (x2 & I2 & E2 & Sx2)]|[-> No2]].
  - exfalso. exact (No x1 x2 I1 I2 E1 E2 Sx1 Sx2).
  - destruct W12 as [[-> (x2 & I2 & E2 & Sx2)]|[-> _]]; [exfalso; exact (No2 _ I2 E2 Sx2)|]. destruct W21 as [[-> _]|[_ X]]; [reflexivity|exfalso; exact (X _ I1 E1 Sx1)].
  - destruct W12 as [[-> _]|[_ X]]; [|exfalso; exact (X _ I2 E2 Sx2)]. destruct W21 as [[_ (x1 & I1 & E1 & Sx1)]|[-> _]]; [exfalso; exact (No1 _ I1 E1 Sx1)|reflexivity].
  - destruct W12 as [[_ (x2 & I2 & E2 & Sx2)]|[-> _]]; [exfalso; exact (No2 _ I2 E2 Sx2)|]. destruct W21 as [[_ (x1 & I1 & E1 & Sx1)]|[-> _]]; [exfalso; exact (No1 _ I1 E1 Sx1)|reflexivity].
Qed.

(** ** A symbol renamed twice *)
Lemma rename_twice e s uri src d : plain_document src -> opened e s uri src d ->
  exists pr, parse_from_str (e_u e) src = Val pr /\ pr_stmts pr = doc_stmts d /\
  forall o p new1 final1 new2 final2, tokenize (e_u e) src = Val (Some (pr_tokens pr), []) ->
    In o (recorded (pr_stmts pr) (pr_tokens pr)) -> covers (o_span o) p -> proper (e_u e) pr o new1 final1 -> unused (recorded (pr_stmts pr) (pr_tokens pr)) o final1 -> proper (e_u e) pr o new2 final2 ->
    exists edits1 pr1 edits2,
      rename e s uri (lsp_position src p) new1 = Val (Reply edits1) /\ parse_from_str (e_u e) (patched src edits1) = Val pr1 /\
      rename e s uri (lsp_position src p) new2 = Val (Reply edits2) /\
      forall s1 uri1 d1 o' q, plain_document (patched src edits1) -> opened e s1 uri1 (patched src edits1) d1 ->
        In o' (recorded (pr_stmts pr1) (pr_tokens pr1)) -> covers (o_span o') q -> in_scope o o' -> o_name o' = final1 ->
        exists edits12, rename e s1 uri1 (lsp_position (patched src edits1) q) new2 = Val (Reply edits12) /\ patched (patched src edits1) edits12 = patched src edits2.
Proof.
  intros Hsrc Ho. destruct (opened_indexed _ _ _ _ _ Ho) as (pr & Hix & Hst). exists pr. split; [exact (proj1 Hix)|]. split; [symmetry; apply Hst|].
  intros o p new1 final1 new2 final2 Hcl Hin Hc (A1 & N1 & L1 & D1) U1 (A2 & N2 & L2 & _).
  destruct (rename_here _ _ _ _ Hsrc Hix _ _ _ _ _ _ _ Ho Hin Hc D1 Hcl A1 N1 L1) as (edits1 & pr1 & Er1 & Hrep1 & Hp1 & Ht1 & R1 & G1 & B1). specialize (B1 U1).
  destruct (rename_here _ _ _ _ Hsrc Hix _ _ _ _ _ _ _ Ho Hin Hc D1 Hcl A2 N2 L2) as (edits2 & pr2 & Er2 & Hrep2 & _ & _ & _ & G2 & _).
  exists edits1, pr1, edits2. repeat (split; [assumption|]). intros s1 uri1 d1 o' q Hs1 Ho1 Hin' Hq [Sk Sb] Hn.
  destruct (opened_indexed _ _ _ _ _ Ho1) as (pr0 & Hix1 & _). assert (pr0 = pr1) as -> by (destruct Hix1; congruence). pose proof (proj1 B1) as [Hoc Hsy].
  destruct (forall2_pair _ _ _ Hoc) as [_ F]. destruct (F _ Hin') as (x & Px). pose proof (combine_forall2 _ _ _ Hoc _ _ Px) as (_ & Kx & Bx & Tx). pose proof (in_combine_l _ _ _ _ Px) as Hx.
  assert (same_symbol o x) as Sx by (destruct (new_names _ _ _ _ Hix _ _ _ D1 R1 B1 _ _ Px) as [[S _]|[_ En]]; [exact S|exfalso; apply (U1 x Hx); congruence]). pose proof Sx as (S1 & S2 & S3).
  destruct (rename_second e src pr _ Hix _ _ Hs1 Hp1 Ht1 B1 _ _ _ q x (occ_token o') new2 final2 Ho1 Hx) as (edits12 & T12 & Er12 & G12 & S12); [|exact Tx|exact Hq|rewrite <- S1; exact A2|exact N2| |].
  { unfold single. rewrite <- S1, <- S3. exact D1. }
  { intros K. rewrite <- S1 in K. destruct (L2 K) as (X1 & X2 & X3). split; [exact X1|]. split; [|exact X3]. intros x' Px'. destruct (new_names _ _ _ _ Hix _ _ _ D1 R1 B1 _ _ Px') as [[_ ->]|[S _]]; [exact (proj2 (proj2 (L1 K)))|contradiction]. }
  exists edits12. split; [exact Er12|]. eapply regapped_join; [exact G1|exact G12|exact G2|].
  intros a b w w' w'' w2 Hab W1 W12 W2. pose proof (in_combine_l _ _ _ _ Hab) as Ha.
  apply (swap_renamed _ _ _ _ _ _ _ Hsrc Hix Hrep1 _ _ _ Ha) in W1. apply (swap_renamed _ _ _ _ _ _ _ Hsrc Hix Hrep2 _ _ _ Ha) in W2. apply (S12 _ _ _ _ Hab) in W12.
  assert (forall z, same_symbol o z <-> same_symbol x z) as Eq by (intros z; unfold same_symbol; rewrite S1, S2, S3; tauto).
  destruct W1 as [[-> (x1 & I1 & E1 & Sx1)]|[-> No1]].
  - destruct W12 as [[-> _]|[_ X]]; [|exfalso; apply (X _ I1 E1), Eq, Sx1]. destruct W2 as [[-> _]|[_ X]]; [reflexivity|exfalso; exact (X _ I1 E1 Sx1)].
  - destruct W12 as [[_ (x1 & I1 & E1 & Sx1)]|[-> _]]; [exfalso; apply (No1 _ I1 E1), Eq, Sx1|]. destruct W2 as [[_ (x1 & I1 & E1 & Sx1)]|[-> _]]; [exfalso; exact (No1 _ I1 E1 Sx1)|reflexivity].
Qed.

(** ** The old name as the new one *)
Lemma rename_same e s uri src d : plain_document src -> opened e s uri src d ->
  exists pr, parse_from_str (e_u e) src = Val pr /\ pr_stmts pr = doc_stmts d /\
  forall o p new, tokenize (e_u e) src = Val (Some (pr_tokens pr), []) ->
    In o (recorded (pr_stmts pr) (pr_tokens pr)) -> covers (o_span o) p -> proper (e_u e) pr o new (o_name o) ->
    exists edits, rename e s uri (lsp_position src p) new = Val (Reply edits) /\ edits <> [] /\ patched src edits = src.
Proof.
  intros Hsrc Ho. destruct (opened_indexed _ _ _ _ _ Ho) as (pr & Hix & Hst). exists pr. split; [exact (proj1 Hix)|]. split; [symmetry; apply Hst|].
  intros o p new Hcl Hin Hc (A1 & N1 & L1 & D1).
  destruct (rename_here _ _ _ _ Hsrc Hix _ _ _ _ _ _ _ Ho Hin Hc D1 Hcl A1 N1 L1) as (edits & pr1 & Er & Hrep & _ & _ & _ & G & _).
  exists edits. split; [exact Er|]. split.
  { destruct Hrep as [Hed _]. intros ->. apply (proj2 (Hed (mkEdit (lsp_range src (o_span o)) (o_name o)))). exists o, (o_name o). split; [exact Hin|]. split; [split; [split; [|split]; reflexivity|reflexivity]|reflexivity]. }
  eapply regapped_same; [exact G|]. intros a w w' Ha W. pose proof W as [Hw _].
  destruct (swap_renamed _ _ _ _ _ _ _ Hsrc Hix Hrep _ _ _ Ha W) as [[-> (x & Hx & Es & (_ & _ & Sn))]|[-> _]]; [|reflexivity].
  destruct (indexed_ok _ _ _ _ Hix) as (_ & _ & Hsp & Hsub & _).
  assert (occ_token x = a) as Ea by (apply (token_span_unique _ _ Hsp); [exact (recorded_token _ _ _ Hsp Hsub _ Hx)|exact Ha|exact Es]).
  pose proof (occ_token_name x) as Hnm. rewrite Ea in Hnm. rewrite Sn. symmetry. exact (lexeme_name _ _ _ _ Hw Hnm).
Qed.
