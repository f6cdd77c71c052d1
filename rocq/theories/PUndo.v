(** A rename undone by another rename. *)
From Verif Require Import Text Rope Chumsky Tokenizer Parser Numbers Index SemTok Diag Rename Cfg Backtrace Server SpecText SpecLex SpecParse SpecIndex SpecDiag SpecBacktrace SpecNumbers SpecCfg SpecView SpecRename SpecPatch SpecSimilar SpecRebind
  PLexSpec PLexProps PParse PParseProps PNumbers PHints PNav PIndex PIndexDoc PIndexText PDiag PRename PRelex PRetree PRebind.

Lemma same_length_app {A} (a b c d : list A) : a ++ b = c ++ d -> length a = length c -> a = c /\ b = d.
Proof. revert c. induction a as [|x a IH]; intros [|y c] E L; try discriminate; [auto|]. cbn in E, L. injection E as -> E. destruct (IH c E ltac:(lia)) as [-> ->]. auto. Qed.
(** ** Two texts with the same blanks *)
Lemma regapped_back u src edits src' edits' i j t t' toks toks' : regapped u src edits i j t t' toks toks' -> forall k t'' toks'', regapped u src' edits' j k t' t'' toks' toks'' ->
  (forall a b w w' w'', In (a, b) (combine toks toks') -> swapped u src edits a w w' -> swapped u src' edits' b w' w'' -> w'' = w) -> t'' = t.
Proof.
  induction 1 as [i j bl|i j bl t t' w w' r r' toks toks' Hs Hr IH]; intros k t'' toks'' H HR.
  - inversion H. reflexivity.
  - inversion H as [|j0 k0 bl2 t0 t1 w2 w3 r2 r3 tk2 tk3 Hs2 Hr2 Ej Ek E1 E2 E3 E4]; subst.
    assert (length bl2 = length bl) as L by lia. assert (length w2 = length w') as L' by lia.
    destruct (same_length_app _ _ _ _ E1 L) as [-> E1']. destruct (same_length_app _ _ _ _ E1' L') as [-> ->].
    rewrite (HR _ _ _ _ _ (or_introl eq_refl) Hs Hs2). f_equal. f_equal. eapply IH; [exact Hr2|]. intros a b v v' v'' Hab. apply HR. right. exact Hab.
Qed.

Section Back.
Variables (u : uclass) (src src' : text) (pr pr' : parser_result) (ix ix' : hir_index) (new new' : occurrence -> text -> Prop) (edits edits' : list text_edit).
Hypothesis Hsrc : plain_document src.
Hypothesis Hsrc' : plain_document src'.
Hypothesis Hix : indexed u src pr ix.
Hypothesis Hix' : indexed u src' pr' ix'.
Notation l := (recorded (pr_stmts pr) (pr_tokens pr)).
Notation l' := (recorded (pr_stmts pr') (pr_tokens pr')).
Hypothesis Hrep : replaces src new l edits.
Hypothesis Hrep' : replaces src' new' l' edits'.
Hypothesis Hback : forall a b, In (a, b) (combine (pr_tokens pr) (pr_tokens pr')) ->
  (forall x y, In x l -> o_span x = snd a -> new x y -> exists x', In x' l' /\ o_span x' = snd b /\ new' x' (o_name x)) /\
  (forall x' y', In x' l' -> o_span x' = snd b -> new' x' y' -> ~ forall x y, In x l -> o_span x = snd a -> ~ new x y).

Lemma touched v pv iv nw eds (Hv : plain_document v) (Hi : indexed u v pv iv) (Hr : replaces v nw (recorded (pr_stmts pv) (pr_tokens pv)) eds) t x y :
  In t (pr_tokens pv) -> In x (recorded (pr_stmts pv) (pr_tokens pv)) -> o_span x = snd t -> nw x y ->
  ~ untouched v eds (snd t) /\ forall ed, In ed eds -> te_range ed = lsp_range v (snd t) -> te_text ed = y.
Proof.
  intros Ht Hx Es Hn. destruct Hr as (Hed & Hsep & _). destruct (indexed_ok _ _ _ _ Hi) as (_ & _ & Hsp & _). pose proof (spans_in_each _ _ _ _ Hsp Ht) as Hb.
  assert (In (mkEdit (lsp_range v (o_span x)) y) eds) as Hie by (apply Hed; eauto). split.
  - intros Hu. pose proof (edit_at_span v eds Hv Hsep _ (snd t) (sp_start (snd t)) Hie ltac:(rewrite <- Es; reflexivity) ltac:(lia) ltac:(lia)) as E1.
    rewrite Hu in E1 by lia. discriminate.
  - intros ed Hin E. destruct (ForallOrdPairs_In Hsep _ _ Hie Hin) as [E1|[E1|E1]]; [rewrite <- E1; reflexivity|..];
      exfalso; cbn [te_range] in E1; rewrite E, Es in E1;
      destruct (position_before v Hv (sp_start (snd t)) (sp_end (snd t)) ltac:(lia) ltac:(lia)) as [P|P]; unfold separate, pos_le in E1; cbn [lsp_range te_range r_start r_end] in E1; lia.
Qed.
Lemma edit_occ v pv iv nw eds (Hv : plain_document v) (Hi : indexed u v pv iv) (Hr : replaces v nw (recorded (pr_stmts pv) (pr_tokens pv)) eds) t ed :
  In t (pr_tokens pv) -> In ed eds -> te_range ed = lsp_range v (snd t) -> exists x, In x (recorded (pr_stmts pv) (pr_tokens pv)) /\ o_span x = snd t /\ nw x (te_text ed).
Proof.
  intros Ht Hin E. destruct Hr as (Hed & _). destruct (indexed_ok _ _ _ _ Hi) as (_ & _ & Hsp & _). pose proof (spans_in_each _ _ _ _ Hsp Ht) as Hb.
  apply Hed in Hin as (x & y & Hx & Hn & ->). exists x. cbn [te_range te_text] in *. destruct (span_bounds _ _ _ _ Hi _ Hx).
  apply (range_inj v Hv) in E; [|lia..]. auto.
Qed.
Lemma back_again i j k t t' t'' toks'' :
  regapped u src edits i j t t' (pr_tokens pr) (pr_tokens pr') -> regapped u src' edits' j k t' t'' (pr_tokens pr') toks'' -> t'' = t.
Proof.
  intros H H'. eapply regapped_back; [exact H|exact H'|]. intros a b w w' w'' Hab [Hw Hc] [Hw' Hc']. destruct (Hback _ _ Hab) as [B1 B2].
  pose proof (in_combine_l _ _ _ _ Hab) as Ha. pose proof (in_combine_r _ _ _ _ Hab) as Hb.
  destruct Hc as [[-> Hu]|(ed & Hin & E & Et)].
  - destruct Hc' as [[-> _]|(ed' & Hin' & E' & Et')]; [reflexivity|]. exfalso.
    destruct (edit_occ _ _ _ _ _ Hsrc' Hix' Hrep' _ _ Hb Hin' E') as (x' & Hx' & Es' & Hn'). apply (B2 _ _ Hx' Es' Hn'). intros x y Hx Es Hn.
    exact (proj1 (touched _ _ _ _ _ Hsrc Hix Hrep _ _ _ Ha Hx Es Hn) Hu).
  - destruct (edit_occ _ _ _ _ _ Hsrc Hix Hrep _ _ Ha Hin E) as (x & Hx & Es & Hn). destruct (B1 _ _ Hx Es Hn) as (x' & Hx' & Es' & Hn').
    destruct (touched _ _ _ _ _ Hsrc' Hix' Hrep' _ _ _ Hb Hx' Es' Hn') as [T1 T2]. destruct Hc' as [[_ G]|(ed' & Hin' & E' & <-)]; [contradiction|].
    rewrite (T2 _ Hin' E'). destruct (indexed_ok _ _ _ _ Hix) as (_ & _ & Hsp & Hsub & _).
    assert (occ_token x = a) as Ea by (apply (token_span_unique _ _ Hsp); [exact (recorded_token _ _ _ Hsp Hsub _ Hx)|exact Ha|exact Es]).
    pose proof (occ_token_name x) as Hnm. rewrite Ea in Hnm. symmetry. exact (lexeme_name _ _ _ _ Hw Hnm).
Qed.

(** occurrences at corresponding tokens *)
Hypothesis Hocc : Forall2 (same_occ (counterparts (pr_tokens pr) (pr_tokens pr'))) l l'.
Lemma forall2_pair {A B} (R : A -> B -> Prop) a b : Forall2 R a b -> (forall x, In x a -> exists y, In (x, y) (combine a b)) /\ (forall y, In y b -> exists x, In (x, y) (combine a b)).
Proof.
  induction 1 as [|p q a b _ _ [IH1 IH2]]; [split; contradiction|]. split.
  - intros x [->|Hx]; [exists q; left; reflexivity|]. destruct (IH1 _ Hx) as [y Hy]. exists y. right. exact Hy.
  - intros y [->|Hy]; [exists p; left; reflexivity|]. destruct (IH2 _ Hy) as [x Hx]. exists x. right. exact Hx.
Qed.
Lemma pair_at a b x x' : In (a, b) (combine (pr_tokens pr) (pr_tokens pr')) -> In (x, x') (combine l l') -> (o_span x = snd a <-> o_span x' = snd b) /\ (o_span x = snd a -> occ_token x = a /\ occ_token x' = b).
Proof.
  intros Hab Hx. pose proof (combine_forall2 _ _ _ Hocc _ _ Hx) as (_ & _ & _ & Ht).
  destruct (indexed_ok _ _ _ _ Hix) as (_ & _ & Hsp & _). destruct (indexed_ok _ _ _ _ Hix') as (_ & _ & Hsp' & _).
  pose proof (T_pos _ _ _ _ Hsp Hsp' _ _ Ht) as P1. pose proof (T_pos _ _ _ _ Hsp Hsp' _ _ Hab) as P2. change (o_span ?z) with (snd (occ_token z)).
  destruct (counterparts_order _ _ _ _ _ _ Hsp Hsp' _ _ _ _ Ht Hab) as [[-> ->]|D]; [tauto|]. split; [split|]; intros E; exfalso; rewrite E in *; lia.
Qed.
Lemma there x a b : In (a, b) (combine (pr_tokens pr) (pr_tokens pr')) -> In x l -> o_span x = snd a ->
  exists x', In (x, x') (combine l l') /\ In x' l' /\ o_span x' = snd b /\ o_kind x = o_kind x' /\ o_body x = o_body x' /\ occ_token x = a /\ occ_token x' = b.
Proof.
  intros Hab Hx E. destruct (forall2_pair _ _ _ Hocc) as [F _]. destruct (F _ Hx) as (x' & Hp). exists x'. destruct (pair_at _ _ _ _ Hab Hp) as [G1 G2].
  pose proof (combine_forall2 _ _ _ Hocc _ _ Hp) as (_ & K & B & _). split; [exact Hp|]. split; [eapply in_combine_r; exact Hp|]. split; [apply G1, E|]. auto.
Qed.
Lemma here x' a b : In (a, b) (combine (pr_tokens pr) (pr_tokens pr')) -> In x' l' -> o_span x' = snd b ->
  exists x, In (x, x') (combine l l') /\ In x l /\ o_span x = snd a /\ o_kind x = o_kind x' /\ o_body x = o_body x' /\ occ_token x = a /\ occ_token x' = b.
Proof.
  intros Hab Hx E. destruct (forall2_pair _ _ _ Hocc) as [_ F]. destruct (F _ Hx) as (x & Hp). exists x. destruct (pair_at _ _ _ _ Hab Hp) as [G1 G2].
  pose proof (combine_forall2 _ _ _ Hocc _ _ Hp) as (_ & K & B & _). apply G1 in E. split; [exact Hp|]. split; [eapply in_combine_l; exact Hp|]. split; [exact E|]. auto.
Qed.
End Back.

(** ** Both kinds of renames, with everything known about the new document *)
Lemma rename_full e s uri src d p : plain_document src -> opened e s uri src d -> p <= length src ->
  exists pr, parse_from_str (e_u e) src = Val pr /\ pr_stmts pr = doc_stmts d /\ indexed (e_u e) src pr (doc_index d) /\
  ((forall o, In o (recorded (pr_stmts pr) (pr_tokens pr)) -> ~ covers (o_span o) p) \/
   exists o errs, In o (recorded (pr_stmts pr) (pr_tokens pr)) /\ covers (o_span o) p /\ tokenize (e_u e) src = Val (Some (pr_tokens pr), errs) /\
     (forall new final, accepted (e_u e) (o_kind o) new final -> (forall b, final <> b ++ [ch ":"]) ->
       (o_kind o = KLabel -> errs = [] /\ free_word final /\ plain_word (o_name o) /\ plain_word final) ->
       exists edits pr' errs', rename e s uri (lsp_position src p) new = Val (Reply edits) /\ replaces src (renamed o final) (recorded (pr_stmts pr) (pr_tokens pr)) edits /\
         parse_from_str (e_u e) (patched src edits) = Val pr' /\ tokenize (e_u e) (patched src edits) = Val (Some (pr_tokens pr'), errs') /\
         retold (renamed o final) (recorded (pr_stmts pr) (pr_tokens pr)) (pr_tokens pr) (pr_tokens pr') /\
         (errs = [] -> errs' = [] /\ regapped (e_u e) src edits 0 0 src (patched src edits) (pr_tokens pr) (pr_tokens pr')) /\
         (unused (recorded (pr_stmts pr) (pr_tokens pr)) o final -> (global (o_kind o) -> ~ dual (pr_stmts pr) (o_name o)) -> bound_alike pr pr'))).
Proof.
  intros Hsrc Ho Hp. destruct (accepted_plain _ _ _ _ _ _ Hsrc Ho Hp) as (pr & Hpr & Hst & H). exists pr. split; [exact Hpr|]. split; [exact Hst|].
  destruct (opened_indexed _ _ _ _ _ Ho) as (pr0 & Hix & _). assert (pr0 = pr) as -> by (destruct Hix as [G _]; congruence). split; [exact Hix|].
  destruct H as [[H _]|(o & Hin & Hc & Hacc & _)]; [left; exact H|]. right.
  destruct (indexed_ok _ _ _ _ Hix) as (_ & _ & Hsp & Hsub & Hrg). pose proof (recorded_token _ _ _ Hsp Hsub _ Hin) as Ht0.
  assert (pr_tokens pr <> []) as Hne by (intros G; rewrite G in Ht0; contradiction).
  destruct (opened_tokens _ _ _ Hpr Hne) as (errs & Ht). exists o, errs. split; [exact Hin|]. split; [exact Hc|]. split; [exact Ht|].
  intros new final Ha Hend Hlb. destruct (Hacc _ _ Ha) as (edits & Er & Hrep).
  destruct (renamed_gaps (e_u e) src pr (doc_index d) (renamed o final) edits Hsrc Hix Hrep (is_label (o_kind o)) errs Ht) as (toks' & errs' & Et & R & Hn & Hgap); [| |exact Hne|].
  { intros G. apply Hlb, is_label_true, G. }
  { intros x y Hx [(Hkx & _) ->]. destruct (is_label (o_kind o)) eqn:Ek.
    - apply is_label_true in Ek. right. split; [reflexivity|]. split; [congruence|]. eapply accepted_label; [rewrite <- Ek; exact Ha|exact Hend|apply Hlb, Ek].
    - left. rewrite <- Hkx. eapply accepted_sigil; [exact Ha| |exact Hend]. intros G. rewrite G in Ek. discriminate. }
  assert (Forall2 (fun a b => similar (fst a) (fst b)) (pr_tokens pr) toks') as Hsim.
  { eapply retold_similar; [exact R| |].
    - intros x y Hx [(S1 & _ & S3) ->] Hkx. rewrite <- S3. destruct (Hlb ltac:(congruence)) as (_ & _ & P1 & P2). auto.
    - intros x t Hx Hit Es. exact (occ_at_token _ _ _ Hsp Hsub _ _ Hx Hit Es). }
  destruct (reparsed _ _ _ _ _ _ _ Hpr Ht Et Hsim Hn) as (pr' & Hp' & <- & Hs & He). exists edits, pr', errs'. split; [exact Er|]. split; [exact Hrep|]. split; [exact Hp'|]. split; [exact Et|].
  split; [exact R|]. split; [auto|]. intros Hu Hd.
  pose proof (proj1 (parse_from_str_module _ _ _ Hp')) as Hsp'.
  assert (same_bindings (counterparts (pr_tokens pr) (pr_tokens pr')) (recorded (pr_stmts pr) (pr_tokens pr)) (recorded (pr_stmts pr') (pr_tokens pr'))) as B.
  { eapply bindings_kept; [exact Hsp|exact Hsp'|exact Hsim|exact Hsub|exact Hrg|exact Hs|]. eapply renamed_consistent; eassumption. }
  split; [exact B|]. eapply same_reports; [exact Hsp|exact Hsp'|exact B].
Qed.
Lemma shift_full e s uri src d p : plain_document src -> visits_all (e_ord e) -> opened e s uri src d -> p <= length src ->
  exists pr, parse_from_str (e_u e) src = Val pr /\ pr_stmts pr = doc_stmts d /\ indexed (e_u e) src pr (doc_index d) /\
  ((forall o, In o (recorded (pr_stmts pr) (pr_tokens pr)) -> ~ covers (o_span o) p) \/
   exists o errs, In o (recorded (pr_stmts pr) (pr_tokens pr)) /\ covers (o_span o) p /\ tokenize (e_u e) src = Val (Some (pr_tokens pr), errs) /\
     (forall new z n, asks_shift new z -> has_number (o_name o) n -> no_overflow (recorded (pr_stmts pr) (pr_tokens pr)) o n z ->
       (o_kind o = KLabel -> errs = [] /\ forall x y, In x (recorded (pr_stmts pr) (pr_tokens pr)) -> moved o n z x y -> free_word y) ->
       exists edits pr' errs', rename e s uri (lsp_position src p) new = Val (Reply edits) /\ replaces src (moved o n z) (recorded (pr_stmts pr) (pr_tokens pr)) edits /\
         parse_from_str (e_u e) (patched src edits) = Val pr' /\ tokenize (e_u e) (patched src edits) = Val (Some (pr_tokens pr'), errs') /\
         retold (moved o n z) (recorded (pr_stmts pr) (pr_tokens pr)) (pr_tokens pr) (pr_tokens pr') /\
         (errs = [] -> errs' = [] /\ regapped (e_u e) src edits 0 0 src (patched src edits) (pr_tokens pr) (pr_tokens pr')) /\
         ((0 <= z)%Z -> ~ global (o_kind o) ->
          (forall x, In x (recorded (pr_stmts pr) (pr_tokens pr)) -> in_scope o x -> no_leading_zeros (o_name x) /\ forall m, has_number (o_name x) m -> fits_i64 (Z.of_N m + z)) ->
          bound_alike pr pr'))).
Proof.
  intros Hsrc Hv Ho Hp. destruct (shift_plain _ _ _ _ _ _ Hsrc Hv Ho Hp) as (pr & Hpr & Hst & H). exists pr. split; [exact Hpr|]. split; [exact Hst|].
  destruct (opened_indexed _ _ _ _ _ Ho) as (pr0 & Hix & _). assert (pr0 = pr) as -> by (destruct Hix as [G _]; congruence). split; [exact Hix|].
  destruct H as [H|(o & Hin & Hc & Hacc & _)]; [left; exact H|]. right.
  destruct (indexed_ok _ _ _ _ Hix) as (_ & _ & Hsp & Hsub & Hrg). pose proof (recorded_token _ _ _ Hsp Hsub _ Hin) as Ht0.
  assert (pr_tokens pr <> []) as Hne by (intros G; rewrite G in Ht0; contradiction).
  destruct (opened_tokens _ _ _ Hpr Hne) as (errs & Ht). exists o, errs. split; [exact Hin|]. split; [exact Hc|]. split; [exact Ht|].
  intros new z n Ha Hnum Hov Hlb. destruct (Hacc _ _ _ Ha Hnum Hov) as (edits & Er & Hrep).
  destruct (renamed_gaps (e_u e) src pr (doc_index d) (moved o n z) edits Hsrc Hix Hrep (is_label (o_kind o)) errs Ht) as (toks' & errs' & Et & R & Hn & Hgap); [| |exact Hne|].
  { intros G. apply Hlb, is_label_true, G. }
  { intros x y Hx Hxm. pose proof Hxm as [(Hkx & _) Hm]. destruct (is_label (o_kind o)) eqn:Ek.
    - apply is_label_true in Ek. right. split; [reflexivity|]. split; [congruence|]. destruct (Hlb Ek) as [_ Hf]. destruct (occ_label _ _ _ _ _ Hix Hx ltac:(congruence)) as (c & w & H1 & H2 & H3).
      eapply moves_label; [exact H1|exact H2|exact H3|exact Hm|]. eapply Hf; eassumption.
    - left. assert (o_kind o <> KLabel) as Hk by (intros G; rewrite G in Ek; discriminate). destruct (occ_sigil _ _ _ _ _ Hix Hx ltac:(congruence)) as (c & w & H1 & H2 & H3). eapply moves_sigil; eassumption. }
  assert (Forall2 (fun a b => similar (fst a) (fst b)) (pr_tokens pr) toks') as Hsim.
  { eapply retold_similar; [exact R| |].
    - intros x y Hx [_ Hm] Hkx. exact (moves_plain _ _ _ _ Hm).
    - intros x t Hx Hit Es. exact (occ_at_token _ _ _ Hsp Hsub _ _ Hx Hit Es). }
  destruct (reparsed _ _ _ _ _ _ _ Hpr Ht Et Hsim Hn) as (pr' & Hp' & <- & Hs & He). exists edits, pr', errs'. split; [exact Er|]. split; [exact Hrep|]. split; [exact Hp'|]. split; [exact Et|].
  split; [exact R|]. split; [auto|]. intros Hz Hd Hx.
  pose proof (proj1 (parse_from_str_module _ _ _ Hp')) as Hsp'.
  assert (same_bindings (counterparts (pr_tokens pr) (pr_tokens pr')) (recorded (pr_stmts pr) (pr_tokens pr)) (recorded (pr_stmts pr') (pr_tokens pr'))) as B.
  { eapply bindings_kept; [exact Hsp|exact Hsp'|exact Hsim|exact Hsub|exact Hrg|exact Hs|]. eapply moved_consistent; try eassumption.
    - unfold global in Hd. destruct (o_kind o); tauto.
    - intros x Hi Hsc. apply (Hx x Hi Hsc).
    - intros x m Hi Hsc. apply (Hx x Hi Hsc). }
  split; [exact B|]. eapply same_reports; [exact Hsp|exact Hsp'|exact B].
Qed.

(** ** The names of the old document are good names *)
Lemma name_no_colon u src pr ix x : indexed u src pr ix -> In x (recorded (pr_stmts pr) (pr_tokens pr)) -> forall b, o_name x <> b ++ [ch ":"].
Proof.
  intros Hix Hx b E.
  assert (forall c w, name_tail u w -> c <> ch ":" -> c :: w <> b ++ [ch ":"]) as G.
  { intros c w [_ [->|(w' & c' & -> & Hc)]] Hcc G; [destruct b as [|? b]; [|destruct b; discriminate]; injection G as G; contradiction|].
    change (c :: w' ++ [c']) with ((c :: w') ++ [c']) in G. apply app_inj_tail in G as [_ ->]. apply name_char_cases in Hc. cbn in Hc. lia. }
  destruct (kind_dec (o_kind x) KLabel) as [K|K].
  - destruct (occ_label _ _ _ _ _ Hix Hx K) as (c & w & E1 & Hc & Hw). rewrite E1 in E. apply (G _ _ Hw) in E; [exact E|]. intros ->. apply name_start_cases in Hc. cbn in Hc. lia.
  - destruct (occ_sigil _ _ _ _ _ Hix Hx K) as (c & w & Es & E1 & Hw). rewrite E1 in E. apply (G _ _ Hw) in E; [exact E|]. intros ->. destruct (o_kind x); discriminate.
Qed.
Lemma label_free u src pr ix x : indexed u src pr ix -> In x (recorded (pr_stmts pr) (pr_tokens pr)) -> o_kind x = KLabel -> free_word (o_name x).
Proof.
  intros Hix Hx Hk. destruct (occ_label _ _ _ _ _ Hix Hx Hk) as (c & w & E1 & Hc & _).
  split; [intros b E; rewrite E1 in E; injection E as -> _; apply name_start_cases in Hc; cbn in Hc; lia|].
  destruct (indexed_ok _ _ _ _ Hix) as (_ & _ & Hsp & Hsub & _). pose proof (recorded_token _ _ _ Hsp Hsub _ Hx) as Hin.
  pose proof (proj1 Hix) as Hp. apply parse_from_str_cases in Hp as [(errs & Et & Ep & _)|(toks' & errs & Et & Ep & _)]; [rewrite Ep in Hin; contradiction|].
  rewrite Ep in Hin. apply tokenize_lexes in Et. destruct (occ_token x) as [tok sp] eqn:Eo. destruct (lexes_texts_errors _ _ _ _ _ Et [] eq_refl _ _ Hin) as (g & w0 & _ & Hw).
  unfold occ_token in Eo. rewrite Hk in Eo. injection Eo as <- _. remember (TIdent (o_name x)) as tk eqn:Etk.
  destruct Hw as [| | | | |c' w' t' _ _ [Hr|[Hr ->]]| | | |]; try discriminate Etk.
  - exfalso. subst t'. unfold reserved in Hr. cbn [In] in Hr. repeat (destruct Hr as [Hr|Hr]; [discriminate Hr|]). exact Hr.
  - injection Etk as <-. exact Hr.
Qed.

(** ** Undoing *)
Lemma covers_same hi toks ss (Hsp : spans_in 0 hi toks) (Hsub : subseq (flat_map stmt_tokens ss) toks) x y p :
  In x (recorded ss toks) -> In y (recorded ss toks) -> covers (o_span x) p -> covers (o_span y) p -> occ_token x = occ_token y.
Proof.
  intros Hx Hy [C1 C2] [D1 D2]. pose proof (recorded_token _ _ _ Hsp Hsub _ Hx) as Tx. pose proof (recorded_token _ _ _ Hsp Hsub _ Hy) as Ty.
  destruct (spans_in_disjoint _ _ _ _ _ Hsp Tx Ty) as [E|[E|E]]; [exact E|..]; change (snd (occ_token ?z)) with (o_span z) in E; cbn in E; lia.
Qed.
Lemma rename_undo e s uri src d p : plain_document src -> opened e s uri src d -> p <= length src ->
  exists pr, parse_from_str (e_u e) src = Val pr /\ pr_stmts pr = doc_stmts d /\
  ((forall o, In o (recorded (pr_stmts pr) (pr_tokens pr)) -> ~ covers (o_span o) p) \/
   exists o, In o (recorded (pr_stmts pr) (pr_tokens pr)) /\ covers (o_span o) p /\
     (forall new final back, tokenize (e_u e) src = Val (Some (pr_tokens pr), []) -> accepted (e_u e) (o_kind o) new final -> (forall b, final <> b ++ [ch ":"]) ->
       (o_kind o = KLabel -> free_word final /\ plain_word (o_name o) /\ plain_word final) ->
       unused (recorded (pr_stmts pr) (pr_tokens pr)) o final -> (global (o_kind o) -> ~ dual (pr_stmts pr) (o_name o)) ->
       accepted (e_u e) (o_kind o) back (o_name o) ->
       exists edits pr', rename e s uri (lsp_position src p) new = Val (Reply edits) /\ parse_from_str (e_u e) (patched src edits) = Val pr' /\
         (exists o', In o' (recorded (pr_stmts pr') (pr_tokens pr')) /\ in_scope o o' /\ o_name o' = final) /\
         forall s' uri' d' p' o', plain_document (patched src edits) -> opened e s' uri' (patched src edits) d' ->
           In o' (recorded (pr_stmts pr') (pr_tokens pr')) -> covers (o_span o') p' -> in_scope o o' -> o_name o' = final ->
           exists edits', rename e s' uri' (lsp_position (patched src edits) p') back = Val (Reply edits') /\ patched (patched src edits) edits' = src)).
Proof.
  intros Hsrc Ho Hp. destruct (rename_full _ _ _ _ _ _ Hsrc Ho Hp) as (pr & Hpr & Hst & Hix & H). exists pr. split; [exact Hpr|]. split; [exact Hst|].
  destruct H as [H|(o & errs & Hin & Hc & Ht & H)]; [left; exact H|]. right. exists o. split; [exact Hin|]. split; [exact Hc|].
  intros new final back Hcl Ha Hend Hlb Hun Hdu Hb. assert (errs = []) as -> by congruence.
  destruct (H _ _ Ha Hend ltac:(auto)) as (edits & pr' & errs' & Er & Hrep & Hp' & Et' & R & Hgap & Hbd). destruct (Hgap eq_refl) as [-> Hg]. clear Hgap. specialize (Hbd Hun Hdu).
  destruct (indexed_ok _ _ _ _ Hix) as (_ & _ & Hsp & Hsub & Hrg). pose proof (proj1 Hbd) as [Hoc Hsy].
  assert (forall x x', In (x, x') (combine (recorded (pr_stmts pr) (pr_tokens pr)) (recorded (pr_stmts pr') (pr_tokens pr'))) ->
    (same_symbol o x /\ o_name x' = final) \/ (~ same_symbol o x /\ o_name x' = o_name x)) as Hnm.
  { intros x x' Hx. pose proof (combine_forall2 _ _ _ Hoc _ _ Hx) as (_ & _ & _ & Tx). pose proof (in_combine_l _ _ _ _ Hx) as Hx1.
    pose proof (occ_token_name x') as Hn'. destruct (renamed_name _ _ _ _ Hsp Hsub Hrg o final Hdu R x _ Hx1 Tx) as [[S E]|[S E]]; [left|right]; (split; [exact S|]); congruence. }
  exists edits, pr'. split; [exact Er|]. split; [exact Hp'|]. split.
  { destruct (forall2_pair _ _ _ Hoc) as [F _]. destruct (F _ Hin) as (o' & Hp1). exists o'. split; [eapply in_combine_r; exact Hp1|].
    pose proof (combine_forall2 _ _ _ Hoc _ _ Hp1) as (_ & K & B & _). split; [split; congruence|]. destruct (Hnm _ _ Hp1) as [[_ E]|[S _]]; [exact E|]. exfalso. apply S. split; [|split]; reflexivity. }
  intros s' uri' d' p' o' Hsrc' Ho' Hin' Hc' Hsc' Hn'.
  destruct (opened_indexed _ _ _ _ _ Ho') as (pr0 & Hix0 & _). pose proof (proj1 Hix0) as Hq0. assert (pr0 = pr') as -> by congruence.
  destruct (span_bounds _ _ _ _ Hix0 _ Hin') as [Hb1 Hb2]. destruct (indexed_ok _ _ _ _ Hix0) as (_ & _ & Hsp' & Hsub' & Hrg').
  destruct (rename_full _ _ _ _ _ p' Hsrc' Ho' ltac:(destruct Hc'; lia)) as (pr2 & Hpr2 & Hst2 & Hix2 & H2). assert (pr2 = pr') as -> by congruence. clear Hpr2.
  destruct H2 as [H2|(o2 & errs2 & Hin2 & Hc2 & Ht2 & H2)]; [exfalso; exact (H2 _ Hin' Hc')|]. assert (errs2 = []) as -> by congruence.
  (* the occurrence the server finds belongs to the same symbol *)
  assert (same_symbol o' o2) as S2.
  { pose proof (covers_same _ _ _ Hsp' Hsub' _ _ _ Hin' Hin2 Hc' Hc2) as Etk. destruct (occ_at_name _ _ Etk) as [En Ek].
    destruct (forall2_pair _ _ _ Hoc) as [_ F]. destruct (F _ Hin') as (x & Px). destruct (F _ Hin2) as (x2 & Px2).
    pose proof (combine_forall2 _ _ _ Hoc _ _ Px) as (_ & K & B & Tx). pose proof (combine_forall2 _ _ _ Hoc _ _ Px2) as (_ & K2 & B2 & Tx2). rewrite <- Etk in Tx2.
    pose proof (in_combine_l _ _ _ _ Px) as Ix. pose proof (in_combine_l _ _ _ _ Px2) as Ix2.
    assert (occ_token x = occ_token x2) as Ext.
    { destruct (counterparts_order _ _ _ _ _ _ Hsp Hsp' _ _ _ _ Tx Tx2) as [[E _]|D]; [exact E|]. pose proof (T_pos _ _ _ _ Hsp Hsp' _ _ Tx). exfalso. lia. }
    assert (o_span x = o_span x2) as Exs by exact (f_equal snd Ext). destruct Hsc' as [Sk Sb].
    destruct (Hnm _ _ Px) as [[S _]|[_ E]].
    - destruct (recorded_unique _ _ _ Hsp Hsub Hrg _ _ Ix Ix2 Exs) as [<-|D]; [split; [|split]; congruence|]. exfalso.
      unfold dual_token, occ_token in D. cbn [fst] in D. destruct S as (S1 & S2 & S3). destruct (o_kind x) eqn:Kx; try contradiction; (apply Hdu; [rewrite S1; unfold global; auto|rewrite S3; exact D]).
    - exfalso. apply (Hun x Ix); congruence. }
  destruct S2 as (S21 & S22 & S23). destruct Hsc' as [Sk Sb].
  assert (o_kind o2 = o_kind o) as K2 by congruence.
  destruct (H2 back (o_name o)) as (edits' & pr'' & errs'' & Er2 & Hrep2 & _ & _ & _ & Hgap2 & _).
  - rewrite K2. exact Hb.
  - exact (name_no_colon _ _ _ _ _ Hix Hin).
  - intros G. rewrite K2 in G. destruct (Hlb G) as (L1 & L2 & L3). split; [reflexivity|]. split; [exact (label_free _ _ _ _ _ Hix Hin G)|]. split; [|exact L2]. rewrite <- S23, Hn'. exact L3.
  - destruct (Hgap2 eq_refl) as [_ Hg2]. exists edits'. split; [exact Er2|].
    eapply (back_again (e_u e) src (patched src edits) pr pr' _ _ (renamed o final) (renamed o2 (o_name o)) edits edits' Hsrc Hsrc' Hix Hix0 Hrep Hrep2); [|exact Hg|exact Hg2].
    intros a b Hab. split.
    + intros x y Hx Es [Sx ->]. destruct (there _ _ _ _ _ _ _ Hix Hix0 Hoc x a b Hab Hx Es) as (x' & Px & Hx' & Es' & Kx & Bx & _). exists x'. split; [exact Hx'|]. split; [exact Es'|].
      destruct (Hnm _ _ Px) as [[_ En]|[S _]]; [|contradiction]. destruct Sx as (X1 & X2 & X3). split; [split; [|split]; congruence|congruence].
    + intros x' y' Hx' Es' [Sx ->] Hno. destruct (here _ _ _ _ _ _ _ Hix Hix0 Hoc x' a b Hab Hx' Es') as (x & Px & Hx & Es & Kx & Bx & _).
      destruct Sx as (X1 & X2 & X3). destruct (Hnm _ _ Px) as [[S _]|[_ En]]; [exact (Hno x final Hx Es (conj S eq_refl))|].
      apply (Hun x Hx); congruence.
Qed.

Lemma moves_back n0 z a b : (0 <= z)%Z -> no_leading_zeros a -> (forall n, has_number a n -> fits_i64 (Z.of_N n + z)) -> moves n0 z a b -> moves (Z.to_N (Z.of_N n0 + z)) (- z) b a.
Proof.
  intros Hz Hl Hf Hm. apply moves_numbered in Hm as (p & ds & n & ds' & A1 & A2 & A3 & A4 & A5).
  assert (fits_i64 (Z.of_N n + z)) as F by (apply Hf; exists p, ds; auto). unfold fits_i64 in F.
  exists p, ds', (Z.abs_N (Z.of_N n + z)), ds. split; [exact A4|]. split; [unfold max_i64; lia|]. split; [lia|]. split; [|exact (proj1 A1)].
  replace (Z.abs_N (Z.of_N (Z.abs_N (Z.of_N n + z)) + - z)) with n by lia. exact (Hl _ _ _ A1).
Qed.
Lemma shift_undo e s uri src d p : plain_document src -> visits_all (e_ord e) -> opened e s uri src d -> p <= length src ->
  exists pr, parse_from_str (e_u e) src = Val pr /\ pr_stmts pr = doc_stmts d /\
  ((forall o, In o (recorded (pr_stmts pr) (pr_tokens pr)) -> ~ covers (o_span o) p) \/
   exists o, In o (recorded (pr_stmts pr) (pr_tokens pr)) /\ covers (o_span o) p /\
     (forall new z n back, tokenize (e_u e) src = Val (Some (pr_tokens pr), []) -> asks_shift new z -> has_number (o_name o) n -> no_overflow (recorded (pr_stmts pr) (pr_tokens pr)) o n z ->
       (o_kind o = KLabel -> forall x y, In x (recorded (pr_stmts pr) (pr_tokens pr)) -> moved o n z x y -> free_word y) ->
       (0 <= z)%Z -> ~ global (o_kind o) ->
       (forall x, In x (recorded (pr_stmts pr) (pr_tokens pr)) -> in_scope o x -> no_leading_zeros (o_name x) /\ forall m, has_number (o_name x) m -> fits_i64 (Z.of_N m + z)) ->
       asks_shift back (- z) ->
       exists edits pr', rename e s uri (lsp_position src p) new = Val (Reply edits) /\ parse_from_str (e_u e) (patched src edits) = Val pr' /\
         (exists o', In o' (recorded (pr_stmts pr') (pr_tokens pr')) /\ in_scope o o' /\ has_number (o_name o') (Z.to_N (Z.of_N n + z))) /\
         forall s' uri' d' p' o', plain_document (patched src edits) -> opened e s' uri' (patched src edits) d' ->
           In o' (recorded (pr_stmts pr') (pr_tokens pr')) -> covers (o_span o') p' -> in_scope o o' -> has_number (o_name o') (Z.to_N (Z.of_N n + z)) ->
           exists edits', rename e s' uri' (lsp_position (patched src edits) p') back = Val (Reply edits') /\ patched (patched src edits) edits' = src)).
Proof.
  intros Hsrc Hv Ho Hp. destruct (shift_full _ _ _ _ _ _ Hsrc Hv Ho Hp) as (pr & Hpr & Hst & Hix & H). exists pr. split; [exact Hpr|]. split; [exact Hst|].
  destruct H as [H|(o & errs & Hin & Hc & Ht & H)]; [left; exact H|]. right. exists o. split; [exact Hin|]. split; [exact Hc|].
  intros new z n back Hcl Ha Hnum Hov Hlb Hz Hgl Hsc Hb. assert (errs = []) as -> by congruence.
  destruct (H _ _ _ Ha Hnum Hov (fun G => conj eq_refl (Hlb G))) as (edits & pr' & errs' & Er & Hrep & Hp' & Et' & R & Hgap & Hbd). destruct (Hgap eq_refl) as [-> Hg]. clear Hgap. specialize (Hbd Hz Hgl Hsc).
  destruct (indexed_ok _ _ _ _ Hix) as (_ & _ & Hsp & Hsub & Hrg). pose proof (proj1 Hbd) as [Hoc _].
  (* a moved name, or one that stays *)
  assert (forall x x' y, In (x, x') (combine (recorded (pr_stmts pr) (pr_tokens pr)) (recorded (pr_stmts pr') (pr_tokens pr'))) -> moved o n z x y -> o_name x' = y) as Hmv.
  { intros x x' y Hx Hm. pose proof (combine_forall2 _ _ _ Hoc _ _ Hx) as (_ & _ & _ & Tx). pose proof (in_combine_l _ _ _ _ Hx) as Hx1.
    pose proof (combine_forall2 _ _ _ R _ _ Tx) as [R1 _]. specialize (R1 x y Hx1 eq_refl Hm). pose proof (occ_token_name x') as E1. rewrite R1, with_name_token in E1. congruence. }
  assert (forall x x', In (x, x') (combine (recorded (pr_stmts pr) (pr_tokens pr)) (recorded (pr_stmts pr') (pr_tokens pr'))) -> in_scope o x -> (forall y, ~ moves n z (o_name x) y) -> o_name x' = o_name x) as Hst0.
  { intros x x' Hx Hs Hm. pose proof (combine_forall2 _ _ _ Hoc _ _ Hx) as (_ & _ & _ & Tx). pose proof (in_combine_l _ _ _ _ Hx) as Hx1.
    pose proof (combine_forall2 _ _ _ R _ _ Tx) as [_ R2]. assert (fst (occ_token x') = fst (occ_token x)) as E.
    { apply R2. intros w y Hw Es [_ Mw]. change (o_span w = o_span x) in Es. destruct (occ_at_name _ _ (occ_at _ _ _ Hsp Hsub _ _ Hw Hx1 Es)) as [En _]. rewrite En in Mw. exact (Hm _ Mw). }
    pose proof (occ_token_name x') as E1. rewrite E, occ_token_name in E1. congruence. }
  assert (forall nm m, has_number nm m -> (n <= m)%N -> exists y, moves n z nm y) as Hmoves.
  { intros nm m (q & ds & N1 & N2) Hle. eexists. exists q, ds, m, (render_N (Z.abs_N (Z.of_N m + z))). split; [exact N1|]. split; [exact N2|]. split; [exact Hle|]. split; [apply render_N_canonical|reflexivity]. }
  exists edits, pr'. split; [exact Er|]. split; [exact Hp'|]. split.
  { destruct (forall2_pair _ _ _ Hoc) as [F _]. destruct (F _ Hin) as (o' & Hp1). exists o'. split; [eapply in_combine_r; exact Hp1|].
    pose proof (combine_forall2 _ _ _ Hoc _ _ Hp1) as (_ & K & B & _). split; [split; congruence|].
    destruct (Hmoves _ _ Hnum ltac:(lia)) as (y & Hy). assert (in_scope o o) as Soo by (split; reflexivity). rewrite (Hmv _ _ _ Hp1 (conj Soo Hy)).
    apply moves_numbered in Hy as (q & ds & m & ds' & A1 & A2 & A3 & A4 & A5). destruct Hnum as (q0 & ds0 & N1 & N2). destruct (numbered_unique _ _ _ _ _ _ _ A1 N1) as (_ & _ & ->).
    assert (fits_i64 (Z.of_N n + z)) as F1 by (apply (Hsc o Hin Soo); exists q0, ds0; auto). unfold fits_i64 in F1.
    exists q, ds'. replace (Z.to_N (Z.of_N n + z)) with (Z.abs_N (Z.of_N n + z)) by lia. split; [exact A4|unfold max_i64; lia]. }
  intros s' uri' d' p' o' Hsrc' Ho' Hin' Hc' Hsc' Hn'.
  destruct (opened_indexed _ _ _ _ _ Ho') as (pr0 & Hix0 & _). pose proof (proj1 Hix0) as Hq0. assert (pr0 = pr') as -> by congruence.
  destruct (span_bounds _ _ _ _ Hix0 _ Hin') as [Hb1 Hb2]. destruct (indexed_ok _ _ _ _ Hix0) as (_ & _ & Hsp' & Hsub' & Hrg').
  destruct (shift_full _ _ _ _ _ p' Hsrc' Hv Ho' ltac:(destruct Hc'; lia)) as (pr2 & Hpr2 & Hst2 & Hix2 & H2). assert (pr2 = pr') as -> by congruence. clear Hpr2.
  destruct H2 as [H2|(o2 & errs2 & Hin2 & Hc2 & Ht2 & H2)]; [exfalso; exact (H2 _ Hin' Hc')|]. assert (errs2 = []) as -> by congruence.
  assert (o2 = o') as ->.
  { pose proof (covers_same _ _ _ Hsp' Hsub' _ _ _ Hin' Hin2 Hc' Hc2) as Etk. destruct (recorded_unique _ _ _ Hsp' Hsub' Hrg' _ _ Hin' Hin2 (f_equal snd Etk)) as [E|D]; [congruence|].
    exfalso. apply Hgl. destruct Hsc' as [Sk _]. rewrite <- Sk. unfold dual_token, occ_token in D. cbn [fst] in D. unfold global. destruct (o_kind o'); tauto. }
  clear Hin2 Hc2. destruct Hsc' as [Sk Sb]. set (n' := Z.to_N (Z.of_N n + z)) in *.
  (* moving back a name gives the old one *)
  assert (forall x x' y', In (x, x') (combine (recorded (pr_stmts pr) (pr_tokens pr)) (recorded (pr_stmts pr') (pr_tokens pr'))) -> moved o' n' (- z) x' y' -> ~ ~ (exists y, moved o n z x y) /\ forall y, moved o n z x y -> y' = o_name x) as Hbk.
  { intros x x' y' Px [[X1 X2] Hm]. pose proof (combine_forall2 _ _ _ Hoc _ _ Px) as (_ & Kx & Bx & _). pose proof (in_combine_l _ _ _ _ Px) as Hx.
    assert (in_scope o x) as Sx by (split; congruence). split.
    - intros No. assert (o_name x' = o_name x) as E by (apply (Hst0 _ _ Px Sx); intros y Hy; apply No; exists y; split; assumption).
      rewrite E in Hm. destruct Hm as (q & ds & m & ds' & A1 & A2 & A3 & _). destruct (Hmoves (o_name x) m) as (y & Hy); [exists q, ds; auto|unfold n' in A3; lia|]. apply No. exists y. split; assumption.
    - intros y Hy. pose proof (Hmv _ _ _ Px Hy) as E. destruct Hy as [_ Hy]. destruct (Hsc x Hx Sx) as [L1 L2]. pose proof (moves_back _ _ _ _ Hz L1 L2 Hy) as Hy2.
      rewrite E in Hm. exact (moves_unique _ _ _ _ _ Hm Hy2). }
  destruct (H2 back (- z)%Z n' Hb Hn') as (edits' & pr'' & errs'' & Er2 & Hrep2 & _ & _ & _ & Hgap2 & _).
  - destruct Hov as [Hf _]. unfold fits_i64 in Hf. split; [unfold fits_i64; lia|]. intros x m Hx Sx (q & ds & N1 & N2) Hle. unfold n', fits_i64, max_i64 in *. lia.
  - intros G. split; [reflexivity|]. intros x' y' Hx' Hm. destruct (forall2_pair _ _ _ Hoc) as [_ F]. destruct (F _ Hx') as (x & Px). destruct (Hbk _ _ _ Px Hm) as [N1 N2].
    pose proof (combine_forall2 _ _ _ Hoc _ _ Px) as (_ & Kx & _ & _). pose proof (in_combine_l _ _ _ _ Px) as Hx.
    assert (o_kind x = KLabel) as Kl by (destruct Hm as [[M1 _] _]; congruence). pose proof (label_free _ _ _ _ _ Hix Hx Kl) as Fr.
    split; [intros b E|intros t E]; apply N1; intros (y & Hy); specialize (N2 y Hy); subst y'; [exact (proj1 Fr _ E)|exact (proj2 Fr _ E)].
  - destruct (Hgap2 eq_refl) as [_ Hg2]. exists edits'. split; [exact Er2|].
    eapply (back_again (e_u e) src (patched src edits) pr pr' _ _ (moved o n z) (moved o' n' (- z)) edits edits' Hsrc Hsrc' Hix Hix0 Hrep Hrep2); [|exact Hg|exact Hg2].
    intros a b Hab. split.
    + intros x y Hx Es Hm. destruct (there _ _ _ _ _ _ _ Hix Hix0 Hoc x a b Hab Hx Es) as (x' & Px & Hx' & Es' & Kx & Bx & _). exists x'. split; [exact Hx'|]. split; [exact Es'|].
      pose proof (Hmv _ _ _ Px Hm) as E. destruct Hm as [[M1 M2] Hm]. destruct (Hsc x Hx (conj M1 M2)) as [L1 L2]. split; [split; congruence|]. rewrite E. exact (moves_back _ _ _ _ Hz L1 L2 Hm).
    + intros x' y' Hx' Es' Hm Hno. destruct (here _ _ _ _ _ _ _ Hix Hix0 Hoc x' a b Hab Hx' Es') as (x & Px & Hx & Es & _).
      destruct (Hbk _ _ _ Px Hm) as [N1 _]. apply N1. intros (y & Hy). exact (Hno x y Hx Es Hy).
Qed.
