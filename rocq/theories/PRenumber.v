(** A relative rename replaces the numbered words of a scope. *)
From Verif Require Import Text Rope Chumsky Tokenizer Parser Numbers Index SemTok Diag Rename Cfg Backtrace Server SpecText SpecLex SpecParse SpecIndex SpecDiag SpecBacktrace SpecCfg SpecView SpecNumbers SpecRename SpecCoherent SpecWritten SpecRenumber
  PText PRope PParse PParseProps PIndex PIndexDoc PIndexText PDiag PDiagDoc PCfg PBacktrace PHints PView PNav PRename PRequest PSumIndex PSumNav PCoherent PWritten.

Lemma tree_variable o ss : forall id, In o (tree_occs id ss) -> o_kind o = KGlobalVar -> exists x v, In (SGlobalVar x v) ss /\ o = occ Def KGlobalVar None x.
Proof.
  induction ss as [|s l IH]; intros id H Hk; [contradiction|]. cbn [tree_occs] in *.
  apply in_app_iff in H as [H|H]; [|destruct (IH _ H Hk) as (x & v & H1 & H2); exists x, v; split; [right; exact H1|exact H2]]. clear IH.
  destruct s; cbn [stmt_occs] in H.
  - destruct H as [<-|[]]. eexists _, _. split; [left; reflexivity|reflexivity].
  - destruct H as [<-|[]]. discriminate.
  - exfalso. destruct H as [<-|H]; [discriminate|]. apply in_app_iff in H as [H|H].
    + unfold param_occs in H. apply in_map_iff in H as (a & <- & _). discriminate.
    + apply in_flat_map in H as (x & _ & H). unfold block_occs in H. apply in_app_iff in H as [H|H].
      * destruct (bb_label x); cbn in H; [destruct H as [<-|[]]; discriminate|contradiction].
      * apply in_flat_map in H as (i & _ & H). unfold instr_occs in H. apply in_app_iff in H as [H|H].
        -- destruct (i_target i); cbn in H; [destruct H as [<-|[]]; discriminate|contradiction].
        -- apply in_map_iff in H as (z & <- & _). discriminate.
  - contradiction.
  - destruct H as [<-|[]]. discriminate.
Qed.
Lemma variable_tree x v ss : forall id, In (SGlobalVar x v) ss -> In (occ Def KGlobalVar None x) (tree_occs id ss).
Proof.
  induction ss as [|s l IH]; intros id H; [contradiction|]. cbn [tree_occs]. apply in_app_iff. destruct H as [->|H]; [left; left; reflexivity|right; apply IH; exact H].
Qed.
Section Document.
Variables (e : env) (s : server) (uri src : text) (d : doc) (pr : parser_result).
Hypothesis Hix : indexed (e_u e) src pr (doc_index d).
Hypothesis Hrope : doc_rope d = src.
Hypothesis Hget : get_doc s uri = Some d.
Hypothesis Hsrc : plain_document src.
Notation l := (recorded (pr_stmts pr) (pr_tokens pr)).
Notation ss := (pr_stmts pr).
Lemma same_token t t' : In t (pr_tokens pr) -> In t' (pr_tokens pr) -> snd t = snd t' -> t = t'.
Proof.
  intros H1 H2 E. destruct (indexed_ok _ _ _ _ Hix) as (_ & _ & Hsp & _). destruct (spans_in_disjoint _ _ _ _ _ Hsp H1 H2) as [G|G]; [exact G|]. destruct (spans_in_each _ _ _ _ Hsp H1). rewrite E in *. lia.
Qed.
Lemma occ_word x : o_kind x <> KLabel -> word (occ_token x) = o_name x.
Proof. unfold word, occ_token. cbn [fst]. destruct (o_kind x); congruence. Qed.
Lemma inside_place i r t : nth_error (flat_map func_ranges ss) i = Some r -> In t (pr_tokens pr) -> SpecParse.inside (snd t) r -> containing (flat_map func_ranges ss) (sp_start (snd t)) = Some i.
Proof.
  intros R1 Ht [A1 A2]. destruct (indexed_ok _ _ _ _ Hix) as (_ & _ & Hsp & _ & Hr). destruct (spans_in_each _ _ _ _ Hsp Ht) as (T1 & T2 & T3). apply (containing_unique _ _ 0 i r Hr R1). unfold span_contains. rewrite andb_true_iff, Nat.leb_le, Nat.ltb_lt. lia.
Qed.
Lemma space_iff t k b n o : In t (pr_tokens pr) -> place_of pr t = Some (k, b, n) -> o_kind o = k -> o_body o = b ->
  forall w sp, (exists x, In x l /\ in_scope o x /\ o_name x = w /\ o_span x = sp) <-> In (w, sp) (space_of ss (pr_tokens pr) t).
Proof.
  intros Ht Hv Ko Bo w sp. destruct (indexed_ok _ _ _ _ Hix) as (_ & Hi & Hsp & Hsub & Hr). destruct (place_kind _ _ _ _ _ Hv) as [Hg Hl]. unfold space_of. rewrite in_map_iff. split.
  - intros (x & Hx & (S1 & S2) & <- & <-). assert (o_kind x = k) as Kx by congruence. assert (o_body x = b) as Bx by congruence.
    exists (occ_token x). split; [rewrite occ_word by congruence; reflexivity|]. pose proof (recorded_token _ _ _ Hsp Hsub _ Hx) as Hxt. apply filter_In. split; [exact Hxt|].
    destruct (token_symbol e src d pr Hix t k b n Ht Hv) as (y & Y1 & Y2 & Y3 & Y4 & Y5).
    unfold place_of in Hv. unfold same_space, occ_token. cbn [fst snd]. destruct (fst t); try discriminate.
    + destruct (containing _ _) as [i|]; [|discriminate]. cbn in Hv. injection Hv as Ek Eb En. rewrite Kx, <- Ek. rewrite existsb_exists. rewrite <- Eb in *.
      destruct (recorded_body _ _ _ Hsp Hsub x i Hx Bx) as (r & R1 & R2). destruct (recorded_body _ _ _ Hsp Hsub y i Y1 Y3) as (r' & R1' & R2'). assert (r' = r) as -> by congruence.
      exists r. split; [eapply nth_error_In; exact R1|]. rewrite andb_true_iff, !around_spec, <- Y5. auto.
    + injection Hv as Ek Eb En. unfold here_kind in Ek. rewrite En in *. destruct (is_function ss n) eqn:F; rewrite Kx, <- Ek.
      * apply (function_kind e src d pr Hix); congruence.
      * apply orb_true_iff. pose proof Hx as Hx'. rewrite (recorded_eq _ _ _ Hsp Hsub), in_app_iff in Hx'. destruct Hx' as [Hx'|Hx'].
        -- right. destruct (tree_variable _ _ _ Hx') as (z & v & Z1 & Z2); [congruence|]. apply existsb_exists. exists (SGlobalVar z v). split; [exact Z1|]. rewrite Z2. cbn. unfold span_eqb. rewrite !Nat.eqb_refl. reflexivity.
        -- left. apply filter_In in Hx' as [Hx' _]. apply in_flat_map in Hx' as (q & _ & Hx'). apply token_shape in Hx' as [_ K]. rewrite Kx, <- Ek in K. destruct K as [_ K]. rewrite K. reflexivity.
    + injection Hv as Ek Eb En. rewrite Kx, <- Ek. reflexivity.
  - intros (t' & E & Hin). injection E as <- <-. apply filter_In in Hin as [Ht' Hsame].
    assert (forall m, place_of pr t' = Some (k, b, m) -> word t' = m -> exists x, In x l /\ in_scope o x /\ o_name x = word t' /\ o_span x = snd t') as G.
    { intros m Hm <-. destruct (token_symbol e src d pr Hix t' k b _ Ht' Hm) as (x & X1 & X2 & X3 & X4 & X5). exists x. unfold in_scope. repeat split; congruence. }
    unfold same_space in Hsame. pose proof Hv as Hv'. unfold place_of in Hv. destruct (fst t) eqn:Et; try discriminate; destruct (fst t') eqn:Et'; try discriminate.
    + apply existsb_exists in Hsame as (r & R1 & R2). apply andb_true_iff in R2 as [R2 R3]. apply around_spec in R2, R3. apply In_nth_error in R1 as [j R1].
      rewrite (inside_place _ _ _ R1 Ht R2) in Hv. cbn in Hv. injection Hv as Ek Eb En. subst k b n.
      refine (G n1 _ _); [unfold place_of; rewrite Et', (inside_place _ _ _ R1 Ht' R3); reflexivity|unfold word; rewrite Et'; reflexivity].
    + injection Hv as Ek Eb En. unfold here_kind in Ek. subst n0 b. destruct (is_function ss n) eqn:F.
      * apply (G n1); [unfold place_of, here_kind; rewrite Et', Hsame, Ek; reflexivity|unfold word; rewrite Et'; reflexivity].
      * destruct (is_function ss n1) eqn:F1; [|apply (G n1); [unfold place_of, here_kind; rewrite Et', F1, Ek; reflexivity|unfold word; rewrite Et'; reflexivity]].
        cbn [negb orb] in Hsame. apply existsb_exists in Hsame as (st & S1 & S2). destruct st as [x v| | | |]; try discriminate. cbn in S2. unfold span_eqb in S2. apply andb_true_iff in S2 as [S2 S3]. apply Nat.eqb_eq in S2, S3.
        pose proof (variable_tree x v ss 0 S1) as Hx. assert (In (occ Def KGlobalVar None x) l) as Hx' by (rewrite (recorded_eq _ _ _ Hsp Hsub); apply in_app_iff; left; exact Hx).
        pose proof (recorded_token _ _ _ Hsp Hsub _ Hx') as Hxt. assert (occ_token (occ Def KGlobalVar None x) = t') as E. { apply same_token; [exact Hxt|exact Ht'|]. cbn. destruct (snd x), (snd t'). cbn in *. congruence. }
        exists (occ Def KGlobalVar None x). split; [exact Hx'|]. unfold in_scope. rewrite <- E. cbn. repeat split; congruence.
    + injection Hv as Ek Eb En. subst k b n. apply (G n1); [unfold place_of; rewrite Et'; reflexivity|unfold word; rewrite Et'; reflexivity].
Qed.
(** what is done about the symbol that is found *)
Lemma shifts o p places : visits_all (e_ord e) -> p <= length src -> symbol_at d (lsp_position src p) = Some o ->
  (forall w sp, (exists x, In x l /\ in_scope o x /\ o_name x = w /\ o_span x = sp) <-> In (w, sp) places) ->
  forall new z n, asks_shift new z -> has_number (o_name o) n -> room (map fst places) n z -> exists edits, rename e s uri (lsp_position src p) new = Val (Reply edits) /\ renumbers src places n z edits.
Proof.
  intros Hord Hp E Hpl new z n Hz Hn [R1 R2]. destruct (symbol_at_cases e src d pr Hix Hrope Hsrc p Hp) as [[E' _]|(o' & m & ud & E' & Ho & Hc & Hm & Hud)]; [congruence|]. assert (o' = o) as -> by congruence. clear E'.
  apply asks_signed in Hz as (c & r & nr & -> & Hcs & Hnr & ->).
  assert (no_overflow l o n (if (c =? ch "-")%N then (- nr)%Z else nr)) as Hov.
  { split; [exact R1|]. intros x m' Hx Hsc Hm' Hle. apply (R2 (o_name x)); [|exact Hm'|exact Hle]. apply in_map_iff. exists (o_name x, o_span x). split; [reflexivity|]. apply Hpl. exists x. auto. }
  assert (exists edits, relative_rename e d o c r = Val (Reply edits) /\ replaces src (moved o n (if (c =? ch "-")%N then (- nr)%Z else nr)) l edits) as (edits & A1 & A2 & A3) by (eapply relative_ok; eassumption).
  exists edits. split.
  - unfold rename. rewrite Hget, E. replace ((c =? ch "+")%N || (c =? ch "-")%N) with true by (symmetry; destruct Hcs as [-> | ->]; reflexivity). exact A1.
  - split; [|exact A3]. intros ed. rewrite A2. split.
    + intros (x & y & Hx & (Hsc & Hmv) & ->). exists (o_name x, o_span x), y. split; [apply Hpl; exists x; auto|]. split; [exact Hmv|reflexivity].
    + intros ([w sp] & y & Hin & Hmv & ->). apply Hpl in Hin as (x & Hx & Hsc & <- & <-). exists x, y. split; [exact Hx|]. split; [split; assumption|reflexivity].
Qed.
End Document.
Lemma words_shifted e s uri src d pr t p new z n : plain_document src -> visits_all (e_ord e) -> opened e s uri src d -> parse_from_str (e_u e) src = Val pr -> In t (pr_tokens pr) -> names_symbol (pr_stmts pr) t -> covers (snd t) p ->
  asks_shift new z -> has_number (word t) n -> room (map fst (space_of (pr_stmts pr) (pr_tokens pr) t)) n z ->
  exists edits, rename e s uri (lsp_position src p) new = Val (Reply edits) /\ renumbers src (space_of (pr_stmts pr) (pr_tokens pr) t) n z edits.
Proof.
  intros Hsrc Hord Hop Hpr Ht Hn Hc Hz Hnum Hroom. apply opened_indexed in Hop as (pr' & Hix & Hrope & Hst & Hg). assert (pr' = pr) as -> by (destruct Hix; congruence).
  destruct (places_of e src d pr Hix t Ht Hn) as (v & Hv). destruct v as [[k b] m]. destruct (indexed_ok _ _ _ _ Hix) as (_ & _ & Hsp & _). destruct (spans_in_each _ _ _ _ Hsp Ht) as (T1 & T2 & T3). assert (p <= length src) as Hp by (destruct Hc; lia).
  destruct (found_at e src d pr Hix Hrope Hsrc t p k b m Ht Hv Hc Hp) as (o & E & Ho & K1 & K2 & K3 & K4).
  apply (shifts e s uri src d pr Hix Hrope Hg Hsrc o p _ Hord Hp E (space_iff e src d pr Hix t k b m o Ht Hv K1 K2)); [exact Hz| |exact Hroom].
  assert (word t = m) as Ew. { unfold place_of in Hv. unfold word. destruct (fst t); try discriminate; try congruence. destruct (containing _ _); [|discriminate]. cbn in Hv. congruence. } congruence.
Qed.
Lemma labels_shifted e s uri src d pr f x p new z n : plain_document src -> visits_all (e_ord e) -> opened e s uri src d -> parse_from_str (e_u e) src = Val pr -> In f (function_defs (pr_stmts pr)) -> In x (label_names (fb_blocks (snd f))) -> covers (snd x) p ->
  asks_shift new z -> has_number (fst x) n -> room (map fst (label_names (fb_blocks (snd f)))) n z ->
  exists edits, rename e s uri (lsp_position src p) new = Val (Reply edits) /\ renumbers src (label_names (fb_blocks (snd f))) n z edits.
Proof.
  intros Hsrc Hord Hop Hpr Hf Hx Hc Hz Hnum Hroom. apply opened_indexed in Hop as (pr' & Hix & Hrope & Hst & Hg). assert (pr' = pr) as -> by (destruct Hix; congruence).
  apply In_nth_error in Hf as [i Hf]. pose proof Hx as Hx'. rewrite <- (labelled_tree _ 0 i f Hf) in Hx'. cbn [Nat.add] in Hx'. apply in_map_iff in Hx' as (o & Ex & Ho). apply filter_In in Ho as [Ho Lo]. subst x. cbn [bare fst snd] in *.
  unfold labelled in Lo. destruct (kind_dec (o_kind o) KLabel) as [K|]; [|discriminate]. destruct (body_dec (o_body o) (Some i)) as [B|]; [|discriminate]. clear Lo.
  destruct (indexed_ok _ _ _ _ Hix) as (_ & _ & Hsp & Hsub & Hr). assert (In o (recorded (pr_stmts pr) (pr_tokens pr))) as Hl by (rewrite (recorded_eq _ _ _ Hsp Hsub); apply in_app_iff; left; exact Ho).
  destruct (occ_bounds e src d pr Hix o Hl) as [B1 B2]. assert (p <= length src) as Hp by (destruct Hc; lia).
  destruct (symbol_at_cases e src d pr Hix Hrope Hsrc p Hp) as [[_ H]|(o' & m & ud & E & Ho' & Hco & _)]; [exfalso; exact (H o Hl Hc)|].
  pose proof (covering_token e src d pr Hix o' o p Ho' Hl Hco Hc) as Et. assert (o' = o) as ->. { apply (local_body e src d pr Hix _ _ Ho' Hl Et). destruct (token_kinds _ _ Et) as [G|[[_ G]|[_ G]]]; congruence. }
  apply (shifts e s uri src d pr Hix Hrope Hg Hsrc o p _ Hord Hp E); [|exact Hz|exact Hnum|exact Hroom].
  intros w sp. rewrite <- (labelled_tree _ 0 i f Hf). cbn [Nat.add]. rewrite in_map_iff. split.
  - intros (x & X1 & [S1 S2] & <- & <-). exists x. split; [reflexivity|]. rewrite (recorded_eq _ _ _ Hsp Hsub), in_app_iff in X1. destruct X1 as [X1|X1].
    + apply filter_In. split; [exact X1|]. unfold labelled. destruct (kind_dec (o_kind x) KLabel); [|congruence]. destruct (body_dec (o_body x) (Some i)); [reflexivity|congruence].
    + exfalso. apply filter_In in X1 as [X1 _]. apply in_flat_map in X1 as (t & _ & X1). apply token_shape in X1 as [_ G]. rewrite S1, K in G. exact G.
  - intros (x & Ex & Hx2). apply filter_In in Hx2 as [Hx2 Lx]. unfold bare in Ex. injection Ex as <- <-. exists x. split; [rewrite (recorded_eq _ _ _ Hsp Hsub); apply in_app_iff; left; exact Hx2|].
    unfold labelled in Lx. destruct (kind_dec (o_kind x) KLabel), (body_dec (o_body x) (Some i)); try discriminate. repeat split; congruence.
Qed.
