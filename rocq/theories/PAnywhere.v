(** Where a relative rename is asked for decides only from which number on. *)
From Verif Require Import Text Rope Chumsky Tokenizer Parser Numbers Index SemTok Diag Rename Cfg Backtrace Server SpecText SpecLex SpecParse SpecIndex SpecDiag SpecBacktrace SpecCfg SpecView SpecNumbers SpecRename SpecCoherent SpecWritten SpecRenumber SpecAnywhere
  PText PRope PParse PParseProps PIndex PIndexDoc PIndexText PDiag PDiagDoc PCfg PBacktrace PHints PView PNav PRename PRequest PSumIndex PSumNav PCoherent PWritten PRenumber.
From Coq Require Import Permutation.

Lemma edit_dec (a b : text_edit) : {a = b} + {a <> b}.
Proof. repeat decide equality. Qed.
Lemma edits_nodup l : ForallOrdPairs (fun a b => separate (te_range a) (te_range b)) l -> Forall (fun a => nonempty (te_range a)) l -> NoDup l.
Proof.
  induction 1 as [|a l H1 H2 IH]; intros H; [constructor|]. inversion H; subst. constructor; [|apply IH; assumption].
  intros Hin. rewrite Forall_forall in H1. specialize (H1 a Hin). revert H1 H4. unfold separate, nonempty, pos_le, pos_lt. destruct (te_range a) as [[] []]. cbn. lia.
Qed.
Lemma split_members (l k : list text_edit) : NoDup l -> NoDup k -> incl k l ->
  exists r, Permutation l (k ++ r) /\ forall x, In x r -> In x l /\ ~ In x k.
Proof.
  intros Hl Hk Hi. exists (filter (fun x => if in_dec edit_dec x k then false else true) l). split.
  - apply NoDup_Permutation; [exact Hl| |].
    + clear Hi. induction Hk as [|a k Ha Hk IH]; cbn [app].
      * apply NoDup_filter. exact Hl.
      * constructor.
        -- rewrite in_app_iff. intros [G|G]; [exact (Ha G)|]. apply filter_In in G as [_ G]. destruct (in_dec edit_dec a (a :: k)) as [|G']; [discriminate|apply G'; left; reflexivity].
        -- assert (forall u v, NoDup (u ++ filter v l) -> forall w, (forall x, w x = true -> v x = true) -> NoDup (u ++ filter w l)) as Gen.
           { intros u v. induction u as [|b u IHu]; cbn [app]; intros G w Hw; [apply NoDup_filter; exact Hl|]. inversion G; subst. constructor; [|eapply IHu; eassumption].
             rewrite in_app_iff in *. intros [X|X]; [tauto|]. apply filter_In in X as [X1 X2]. apply H1. right. apply filter_In. auto. }
           apply (Gen _ _ IH). intros x. destruct (in_dec edit_dec x (a :: k)) as [|G]; [discriminate|]. destruct (in_dec edit_dec x k); [|reflexivity]. intros _. exfalso. apply G. right. assumption.
    + intros x. rewrite in_app_iff, filter_In. split; [|intros [G|[G _]]; [apply Hi|]; exact G]. intros Hx. destruct (in_dec edit_dec x k); auto.
  - intros x Hx. apply filter_In in Hx as [H1 H2]. destruct (in_dec edit_dec x k); [discriminate|auto].
Qed.
Lemma renumbers_less src places n n' z edits edits' : (n <= n')%N -> renumbers src places n z edits -> renumbers src places n' z edits' ->
  exists lower, Permutation edits (edits' ++ lower) /\ Forall (for_lower src places n n' z) lower.
Proof.
  intros Hn (A1 & A2 & A3) (B1 & B2 & B3). destruct (split_members edits edits') as (r & R1 & R2).
  - apply edits_nodup; assumption.
  - apply edits_nodup; assumption.
  - intros ed H. apply B1 in H as (x & y & Hx & (p & ds & m & ds' & M1 & M2 & M3 & M4) & ->). apply A1. exists x, y. split; [exact Hx|]. split; [|reflexivity]. exists p, ds, m, ds'. split; [exact M1|]. split; [exact M2|]. split; [lia|exact M4].
  - exists r. split; [exact R1|]. apply Forall_forall. intros ed H. apply R2 in H as [H1 H2]. apply A1 in H1 as (x & y & Hx & Hm & E). pose proof Hm as (p & ds & m & ds' & M1 & M2 & M3 & M4).
    exists x, m. split; [exact Hx|]. split; [exists p, ds; auto|]. subst ed. cbn [te_text te_range]. split; [|split; [exact Hm|reflexivity]]. split; [exact M3|].
    destruct (N.lt_ge_cases m n') as [G|G]; [exact G|]. exfalso. apply H2. apply B1. exists x, y. split; [exact Hx|]. split; [|reflexivity]. exists p, ds, m, ds'. tauto.
Qed.
Lemma room_less words n n' z : (n <= n')%N -> room words n z -> room words n' z.
Proof. intros H [A B]. split; [exact A|]. intros w m Hw Hm Hle. apply (B w m Hw Hm). lia. Qed.
Lemma includes_same src places n z a a' : includes src places n n z a a' -> same_edits a a'.
Proof.
  intros (edits & edits' & lower & -> & -> & P & F). exists edits, edits'. split; [reflexivity|]. split; [reflexivity|].
  destruct lower as [|x r]; [rewrite app_nil_r in P; exact P|]. inversion F; subst. destruct H1 as (? & m & _ & _ & G & _). lia.
Qed.
Lemma space_together e src d pr t t' : indexed (e_u e) src pr (doc_index d) -> In t (pr_tokens pr) -> In t' (pr_tokens pr) -> together (pr_stmts pr) t t' ->
  space_of (pr_stmts pr) (pr_tokens pr) t = space_of (pr_stmts pr) (pr_tokens pr) t'.
Proof.
  intros Hix Ht Ht' [S1 S2]. unfold space_of. f_equal. apply filter_ext_in. intros x Hx. unfold same_space in *.
  destruct (fst t) eqn:Et, (fst t') eqn:Et'; try discriminate; try reflexivity.
  - destruct (fst x); try reflexivity. apply existsb_exists in S1 as (r & R1 & R2). apply andb_true_iff in R2 as [R2 R3]. apply around_spec in R2, R3. apply In_nth_error in R1 as [j R1].
    apply eq_true_iff_eq. rewrite !existsb_exists.
    assert (forall a b : stoken, In a (pr_tokens pr) -> SpecParse.inside (snd a) r -> SpecParse.inside (snd b) r ->
      (exists q, In q (flat_map func_ranges (pr_stmts pr)) /\ around (snd a) q && around (snd x) q = true) -> exists q, In q (flat_map func_ranges (pr_stmts pr)) /\ around (snd b) q && around (snd x) q = true) as G.
    { intros a b Ha Ia Ib (q & Q1 & Q2). apply andb_true_iff in Q2 as [Q2 Q3]. apply around_spec in Q2. apply In_nth_error in Q1 as [i Q1].
      pose proof (inside_place e src d pr Hix _ _ _ Q1 Ha Q2) as E1. pose proof (inside_place e src d pr Hix _ _ _ R1 Ha Ia) as E2. assert (i = j) as -> by congruence. assert (q = r) as -> by congruence.
      exists r. split; [eapply nth_error_In; exact R1|]. rewrite Q3, (proj2 (around_spec _ _) Ib). reflexivity. }
    split; apply G; assumption.
  - destruct (fst x); try reflexivity. destruct (is_function (pr_stmts pr) n) eqn:F, (is_function (pr_stmts pr) n0) eqn:F'; try discriminate; reflexivity.
Qed.
Lemma anywhere_words e s uri src d pr t t' p p' new z n n' : plain_document src -> visits_all (e_ord e) -> opened e s uri src d -> parse_from_str (e_u e) src = Val pr ->
  In t (pr_tokens pr) -> In t' (pr_tokens pr) -> names_symbol (pr_stmts pr) t -> names_symbol (pr_stmts pr) t' -> together (pr_stmts pr) t t' -> covers (snd t) p -> covers (snd t') p' ->
  asks_shift new z -> has_number (word t) n -> has_number (word t') n' -> (n <= n')%N -> room (map fst (space_of (pr_stmts pr) (pr_tokens pr) t)) n z ->
  includes src (space_of (pr_stmts pr) (pr_tokens pr) t) n n' z (rename e s uri (lsp_position src p) new) (rename e s uri (lsp_position src p') new).
Proof.
  intros Hsrc Hord Hop Hpr Ht Ht' Hs Hs' Htog Hc Hc' Hz Hn Hn' Hle Hroom.
  destruct (words_shifted e s uri src d pr t p new z n Hsrc Hord Hop Hpr Ht Hs Hc Hz Hn Hroom) as (edits & E1 & E2).
  assert (space_of (pr_stmts pr) (pr_tokens pr) t = space_of (pr_stmts pr) (pr_tokens pr) t') as Esp.
  { pose proof Hop as Hop'. apply opened_indexed in Hop' as (pr' & Hix & _). assert (pr' = pr) as -> by (destruct Hix; congruence). eapply space_together; eassumption. }
  destruct (words_shifted e s uri src d pr t' p' new z n' Hsrc Hord Hop Hpr Ht' Hs' Hc' Hz Hn') as (edits' & E1' & E2'); [rewrite <- Esp; eapply room_less; eassumption|].
  rewrite <- Esp in E2'. destruct (renumbers_less _ _ _ _ _ _ _ Hle E2 E2') as (lower & L1 & L2). exists edits, edits', lower. auto.
Qed.
Lemma anywhere_labels e s uri src d pr f x x' p p' new z n n' : plain_document src -> visits_all (e_ord e) -> opened e s uri src d -> parse_from_str (e_u e) src = Val pr ->
  In f (function_defs (pr_stmts pr)) -> In x (label_names (fb_blocks (snd f))) -> In x' (label_names (fb_blocks (snd f))) -> covers (snd x) p -> covers (snd x') p' ->
  asks_shift new z -> has_number (fst x) n -> has_number (fst x') n' -> (n <= n')%N -> room (map fst (label_names (fb_blocks (snd f)))) n z ->
  includes src (label_names (fb_blocks (snd f))) n n' z (rename e s uri (lsp_position src p) new) (rename e s uri (lsp_position src p') new).
Proof.
  intros Hsrc Hord Hop Hpr Hf Hx Hx' Hc Hc' Hz Hn Hn' Hle Hroom.
  destruct (labels_shifted e s uri src d pr f x p new z n Hsrc Hord Hop Hpr Hf Hx Hc Hz Hn Hroom) as (edits & E1 & E2).
  destruct (labels_shifted e s uri src d pr f x' p' new z n' Hsrc Hord Hop Hpr Hf Hx' Hc' Hz Hn') as (edits' & E1' & E2'); [eapply room_less; eassumption|].
  destruct (renumbers_less _ _ _ _ _ _ _ Hle E2 E2') as (lower & L1 & L2). exists edits, edits', lower. auto.
Qed.
(** the same number: the same edits *)
Lemma anywhere_same_words e s uri src d pr t t' p p' new z n : plain_document src -> visits_all (e_ord e) -> opened e s uri src d -> parse_from_str (e_u e) src = Val pr ->
  In t (pr_tokens pr) -> In t' (pr_tokens pr) -> names_symbol (pr_stmts pr) t -> names_symbol (pr_stmts pr) t' -> together (pr_stmts pr) t t' -> covers (snd t) p -> covers (snd t') p' ->
  asks_shift new z -> has_number (word t) n -> has_number (word t') n -> room (map fst (space_of (pr_stmts pr) (pr_tokens pr) t)) n z ->
  same_edits (rename e s uri (lsp_position src p) new) (rename e s uri (lsp_position src p') new).
Proof. intros. apply (includes_same src (space_of (pr_stmts pr) (pr_tokens pr) t) n z). apply (anywhere_words e s uri src d pr t t'); try assumption. apply N.le_refl. Qed.
Lemma anywhere_same_labels e s uri src d pr f x x' p p' new z n : plain_document src -> visits_all (e_ord e) -> opened e s uri src d -> parse_from_str (e_u e) src = Val pr ->
  In f (function_defs (pr_stmts pr)) -> In x (label_names (fb_blocks (snd f))) -> In x' (label_names (fb_blocks (snd f))) -> covers (snd x) p -> covers (snd x') p' ->
  asks_shift new z -> has_number (fst x) n -> has_number (fst x') n -> room (map fst (label_names (fb_blocks (snd f)))) n z ->
  same_edits (rename e s uri (lsp_position src p) new) (rename e s uri (lsp_position src p') new).
Proof. intros. apply (includes_same src (label_names (fb_blocks (snd f))) n z). apply (anywhere_labels e s uri src d pr f x x'); try assumption. apply N.le_refl. Qed.
