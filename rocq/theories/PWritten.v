(** The requests about a name find the places where it is written. *)
From Verif Require Import Text Rope Chumsky Tokenizer Parser Numbers Index SemTok Diag Rename Cfg Backtrace Server SpecText SpecLex SpecParse SpecIndex SpecDiag SpecBacktrace SpecCfg SpecView SpecRename SpecCoherent SpecWritten
  PText PRope PParse PParseProps PIndex PIndexDoc PIndexText PDiag PDiagDoc PCfg PBacktrace PHints PView PNav PRename PRequest PSumIndex PSumNav PCoherent.

Lemma around_spec sp r : around sp r = true <-> SpecParse.inside sp r.
Proof. unfold around, SpecParse.inside. rewrite andb_true_iff, !Nat.leb_le. reflexivity. Qed.

Section Document.
Variables (e : env) (s : server) (uri src : text) (d : doc) (pr : parser_result).
Hypothesis Hix : indexed (e_u e) src pr (doc_index d).
Hypothesis Hrope : doc_rope d = src.
Hypothesis Hget : get_doc s uri = Some d.
Hypothesis Hsrc : plain_document src.
Notation l := (recorded (pr_stmts pr) (pr_tokens pr)).
Notation ss := (pr_stmts pr).

Definition here_kind (n : text) : symbol_kind := if is_function ss n then KFunction else KGlobalVar.
Lemma function_kind x : In x l -> o_kind x = KFunction -> is_function ss (o_name x) = true.
Proof.
  intros H Hk. destruct (indexed_ok _ _ _ _ Hix) as (_ & _ & Hsp & Hsub & Hr). pose proof (global_body e src d pr Hix x H (or_intror Hk)) as Hb. rewrite (recorded_eq _ _ _ Hsp Hsub), in_app_iff in H. destruct H as [H|H].
  - apply (function_symbols _ ss 0). exists x. auto.
  - apply filter_In in H as [H _]. apply in_flat_map in H as (t & _ & H). unfold token_occs in H. destruct (fst t); try contradiction.
    + destruct (containing _ _); [|contradiction]. destruct H as [<-|[]]. discriminate.
    + destruct H as [<-|[]]. cbn in *. destruct (is_function _ n); [reflexivity|discriminate].
    + destruct H as [<-|[]]. discriminate.
Qed.
Lemma token_recorded t z : In t (pr_tokens pr) -> In z (token_occs ss t) -> exists x, In x l /\ same_symbol z x /\ o_span x = o_span z.
Proof.
  intros Ht Hz. destruct (indexed_ok _ _ _ _ Hix) as (_ & _ & Hsp & Hsub & Hr). rewrite (recorded_eq _ _ _ Hsp Hsub).
  assert (In z (flat_map (token_occs ss) (pr_tokens pr))) as Hz' by (apply in_flat_map; eauto).
  destruct (fresh ss z) eqn:Fz.
  - exists z. split; [apply in_app_iff; right; apply filter_In; auto|]. repeat split.
  - unfold fresh in Fz. apply negb_false_iff in Fz. apply existsb_exists in Fz as (w & Hw & Fw). apply same_place_spec in Fw as (W1 & W2 & W3 & W4). exists w. split; [apply in_app_iff; left; exact Hw|]. repeat split; auto.
Qed.
(** every name is recorded, global names with the kind that is found *)
Definition place_of (t : stoken) : option (symbol_kind * option nat * text) :=
  match fst t with
  | TGlobalName n => Some (here_kind n, None, n)
  | TDebugRef n => Some (KDbgAnnotation, None, n)
  | TLocalName n => option_map (fun i => (KLocalVar, Some i, n)) (containing (flat_map func_ranges ss) (sp_start (snd t)))
  | _ => None
  end.
Lemma token_symbol t k b n : In t (pr_tokens pr) -> place_of t = Some (k, b, n) -> exists x, In x l /\ o_kind x = k /\ o_body x = b /\ o_name x = n /\ o_span x = snd t.
Proof.
  intros Ht Hp. assert (In (mkOcc (snd t) Use k n b) (token_occs ss t)) as Hz.
  { unfold place_of in Hp. unfold token_occs. destruct (fst t); try discriminate.
    - destruct (containing _ _); [|discriminate]. injection Hp as <- <- <-. left. reflexivity.
    - injection Hp as <- <- <-. left. reflexivity.
    - injection Hp as <- <- <-. left. reflexivity. }
  destruct (token_recorded t _ Ht Hz) as (x & H1 & (H2 & H3 & H4) & H5). exists x. cbn in *. repeat split; congruence.
Qed.
Lemma place_kind t k b n : place_of t = Some (k, b, n) -> (k = KGlobalVar -> is_function ss n = false) /\ k <> KLabel.
Proof.
  unfold place_of, here_kind. destruct (fst t); try discriminate.
  - destruct (containing _ _); [|discriminate]. intros E. injection E as <- <- <-. split; discriminate.
  - intros E. injection E as <- <- <-. destruct (is_function ss n0) eqn:F; split; try discriminate; auto.
  - intros E. injection E as <- <- <-. split; discriminate.
Qed.
Lemma found_at t p k b n : In t (pr_tokens pr) -> place_of t = Some (k, b, n) -> covers (snd t) p -> p <= length src ->
  exists o, symbol_at d (lsp_position src p) = Some o /\ In o l /\ o_kind o = k /\ o_body o = b /\ o_name o = n /\ o_span o = snd t.
Proof.
  intros Ht Hp Hc Hle. destruct (token_symbol _ _ _ _ Ht Hp) as (x & X1 & X2 & X3 & X4 & X5). rewrite <- X5 in Hc.
  destruct (symbol_at_cases e src d pr Hix Hrope Hsrc p Hle) as [[_ H]|(o & m & ud & E & Ho & Hco & _)]; [exfalso; exact (H x X1 Hc)|].
  pose proof (covering_token e src d pr Hix o x p Ho X1 Hco Hc) as Et. exists o. split; [exact E|]. split; [exact Ho|].
  destruct (token_kinds _ _ Et) as [K|[[K1 K2]|[K1 K2]]].
  - assert (o = x) as -> by (apply (local_body e src d pr Hix); assumption). auto.
  - exfalso. exact (prefers_function e src d pr Hix Hrope Hsrc _ _ _ Hle E X1 Hc K2 K1).
  - exfalso. pose proof (function_kind o Ho K1) as F. assert (o_name o = n) as En by (unfold occ_token in Et; rewrite K1, K2 in Et; inversion Et; congruence). rewrite En in F.
    destruct (place_kind _ _ _ _ Hp) as [G _]. rewrite G in F by congruence. discriminate.
Qed.
Lemma place_of_token x k b n : In x l -> o_kind x = k -> o_body x = b -> o_name x = n -> k <> KLabel -> (k = KGlobalVar -> is_function ss n = false) -> place_of (occ_token x) = Some (k, b, n).
Proof.
  intros Hx Hk Hb Hn Hl Hg. destruct (indexed_ok _ _ _ _ Hix) as (_ & Hi & Hsp & Hsub & Hr). unfold place_of, occ_token. cbn [fst snd]. rewrite Hk, Hn. pose proof (ii_scope _ _ Hi _ Hx) as Hsc. unfold scope_ok in Hsc. rewrite Hk in Hsc. destruct k; try congruence.
  - unfold here_kind. rewrite Hg by reflexivity. rewrite <- Hb. rewrite (global_body e src d pr Hix x Hx) by auto. reflexivity.
  - unfold here_kind. rewrite <- Hn, (function_kind x Hx Hk), Hn, <- Hb, (global_body e src d pr Hix x Hx) by auto. reflexivity.
  - rewrite Hb in Hsc. destruct b; [contradiction|]. reflexivity.
  - rewrite Hb in Hsc. destruct b as [i|]; [|contradiction]. rename Hb into Hi'. destruct (recorded_body _ _ _ Hsp Hsub x i Hx Hi') as (r & Hr1 & Hr2).
    rewrite (containing_unique _ _ 0 i r Hr Hr1); [reflexivity|]. destruct (occ_bounds e src d pr Hix x Hx). destruct Hr2. unfold span_contains. apply andb_true_iff. rewrite Nat.leb_le, Nat.ltb_lt. lia.
Qed.
Lemma same_iff t t' v : In t (pr_tokens pr) -> In t' (pr_tokens pr) -> place_of t = Some v -> (names_the_same ss t t' = true <-> place_of t' = Some v).
Proof.
  intros Ht Ht' Hv. destruct (indexed_ok _ _ _ _ Hix) as (_ & _ & Hsp & Hsub & Hr). pose proof Hv as Hv'. pose proof (fun k b n => token_symbol t' k b n Ht') as X'. destruct v as [[k b] n]. pose proof (token_symbol t k b n Ht Hv) as X.
  unfold place_of in *. unfold names_the_same. destruct (fst t) eqn:Et; try discriminate.
  - destruct (containing (flat_map func_ranges ss) (sp_start (snd t))) as [i|] eqn:Ec; [|discriminate]. cbn [option_map] in Hv. injection Hv as <- <- <-.
    destruct (fst t') eqn:Et'; try (split; discriminate).
    rewrite andb_true_iff, text_eqb_eq, existsb_exists. split.
    + intros (<- & r & R1 & R2). apply andb_true_iff in R2 as [R2 R3]. apply around_spec in R2 as [A1 A2], R3 as [B1 B2]. destruct (spans_in_each _ _ _ _ Hsp Ht) as (T1 & T2 & T3), (spans_in_each _ _ _ _ Hsp Ht') as (U1 & U2 & U3).
        apply In_nth_error in R1 as [j R1]. assert (containing (flat_map func_ranges ss) (sp_start (snd t)) = Some j) as E1 by (apply (containing_unique _ _ 0 j r Hr R1); unfold span_contains; rewrite andb_true_iff, Nat.leb_le, Nat.ltb_lt; lia).
        assert (containing (flat_map func_ranges ss) (sp_start (snd t')) = Some j) as E2 by (apply (containing_unique _ _ 0 j r Hr R1); unfold span_contains; rewrite andb_true_iff, Nat.leb_le, Nat.ltb_lt; lia).
        rewrite E2. cbn. congruence.
    + intros E. destruct (containing (flat_map func_ranges ss) (sp_start (snd t'))) as [j|] eqn:Ec'; [|discriminate]. cbn [option_map] in E. injection E as -> ->. split; [reflexivity|].
        destruct X as (x & X1 & _ & X2 & _ & X3). destruct (X' _ _ _ eq_refl) as (y & Y1 & _ & Y2 & _ & Y3).
        destruct (recorded_body _ _ _ Hsp Hsub x i X1 X2) as (r & R1 & R2). destruct (recorded_body _ _ _ Hsp Hsub y i Y1 Y2) as (r' & R1' & R2'). assert (r' = r) as -> by congruence.
        exists r. split; [eapply nth_error_In; exact R1|]. rewrite andb_true_iff, !around_spec, <- X3, <- Y3. auto.
  - injection Hv as <- <- <-. destruct (fst t') eqn:Et'; try (split; discriminate).
    + split; [discriminate|]. destruct (containing _ _); discriminate.
    + rewrite text_eqb_eq. split; [intros ->; reflexivity|intros E; congruence].
    + split; [discriminate|]. unfold here_kind. destruct (is_function _ _); discriminate.
  - injection Hv as <- <- <-. destruct (fst t') eqn:Et'; try (split; discriminate).
    + split; [discriminate|]. destruct (containing _ _); discriminate.
    + split; [discriminate|]. unfold here_kind. destruct (is_function _ _); discriminate.
    + rewrite text_eqb_eq. split; [intros ->; reflexivity|intros E; congruence].
Qed.
Lemma tokens_nodup : NoDup (map snd (pr_tokens pr)).
Proof.
  destruct (indexed_ok _ _ _ _ Hix) as (_ & _ & Hsp & _). clear - Hsp. generalize 0 (length src) Hsp. generalize (pr_tokens pr). clear. induction l as [|[t sp] r IH]; intros lo hi H; [constructor|]. cbn [map snd]. destruct H as (H1 & H2 & H3). constructor; [|eapply IH; exact H3].
  intros Hin. apply in_map_iff in Hin as ((t', sp') & E & Hin). cbn in E. subst sp'. apply (spans_in_start _ _ _ _ H3) in Hin. cbn in Hin. lia.
Qed.
Lemma written_spans t p v o : In t (pr_tokens pr) -> place_of t = Some v -> symbol_at d (lsp_position src p) = Some o -> (o_kind o, o_body o, o_name o) = v ->
  Permutation (spans pr Def o ++ spans pr Decl o ++ spans pr Use o) (written ss (pr_tokens pr) t).
Proof.
  intros Ht Hp Hs Hv. apply NoDup_Permutation.
  - apply (spans_nodup e src d pr Hix).
  - unfold written. assert (H := tokens_nodup). clear - H. induction (pr_tokens pr) as [|x r IH]; [constructor|]. cbn [map] in H. inversion_clear H as [|? ? H1 H2]. cbn [filter]. destruct (names_the_same _ _ _); [|auto]. cbn [map]. constructor; [|auto]. intros Hin. apply H1. apply in_map_iff in Hin as (y & E & Hy). apply filter_In in Hy as [Hy _]. apply in_map_iff. eauto.
  - intros sp. rewrite in_spans. unfold written. rewrite in_map_iff. destruct v as [[k b] n]. injection Hv as Hk Hb Hn. destruct (place_kind _ _ _ _ Hp) as [Hg Hl]. split.
    + intros (x & Hx & (S1 & S2 & S3) & <-). exists (occ_token x). split; [reflexivity|]. destruct (indexed_ok _ _ _ _ Hix) as (_ & _ & Hsp & Hsub & Hr). pose proof (recorded_token _ _ _ Hsp Hsub _ Hx) as Hxt.
      apply filter_In. split; [exact Hxt|]. apply (same_iff _ _ (k, b, n) Ht Hxt Hp). apply place_of_token; [exact Hx|congruence|congruence|congruence|exact Hl|exact Hg].
    + intros (t' & <- & Ht'). apply filter_In in Ht' as [Ht' Hsame]. apply (same_iff _ _ (k, b, n) Ht Ht' Hp) in Hsame. destruct (token_symbol _ _ _ _ Ht' Hsame) as (x & X1 & X2 & X3 & X4 & X5). exists x. repeat split; congruence.
Qed.
Lemma places_of t : In t (pr_tokens pr) -> names_symbol ss t -> exists v, place_of t = Some v.
Proof.
  intros Ht Hn. unfold names_symbol in Hn. unfold place_of. destruct (fst t); try contradiction; eauto. destruct Hn as (r & R1 & R2 & R3). destruct (indexed_ok _ _ _ _ Hix) as (_ & _ & Hsp & _ & Hr). destruct (spans_in_each _ _ _ _ Hsp Ht) as (T1 & T2 & T3).
  apply In_nth_error in R1 as [j R1]. assert (containing (flat_map func_ranges ss) (sp_start (snd t)) = Some j) as -> by (apply (containing_unique _ _ 0 j r Hr R1); unfold span_contains; rewrite andb_true_iff, Nat.leb_le, Nat.ltb_lt; lia). eexists. reflexivity.
Qed.
(** what is answered about the symbol that is found *)
Lemma asked o p here : p <= length src -> symbol_at d (lsp_position src p) = Some o -> Permutation (spans pr Def o ++ spans pr Decl o ++ spans pr Use o) here ->
  exists own decls refs,
    (goto_definition e s uri (lsp_position src p) = Panic \/ exists ext, goto_definition e s uri (lsp_position src p) = Val (Some (lsp_range src (o_span o), own ++ ext))) /\
    goto_declaration e s uri (lsp_position src p) = Val (Some (lsp_range src (o_span o), decls)) /\
    references e s uri (lsp_position src p) = Val (Some refs) /\
    Permutation (own ++ decls ++ refs) (map (location_of src uri) here) /\
    prepare_rename s uri (lsp_position src p) = Some (lsp_range src (o_span o)) /\
    forall new edits, ~ signed new -> rename e s uri (lsp_position src p) new = Val (Reply edits) -> Permutation (map te_range edits) (map (lsp_range src) here).
Proof.
  intros Hp E Hh. pose proof (answer_at e s uri src d pr Hix Hrope Hget Hsrc o p) as A. set (L := map (location_of src uri)).
  destruct (symbol_at_cases e src d pr Hix Hrope Hsrc p Hp) as [[E' _]|(o' & m & ud & E' & Ho & Hc & Hm & Hud)]; [congruence|]. assert (o' = o) as -> by congruence. clear E'.
  exists (L (spans pr Def o)), (L (spans pr Decl o)), (L (spans pr Use o)).
  split. { unfold goto_definition. rewrite (A Def E). cbn [ud_kind_is_def]. destruct (external_locations _ _ _) as [ext|]; [right; exists ext; reflexivity|left; reflexivity]. }
  split. { unfold goto_declaration. rewrite (A Decl E). cbn [ud_kind_is_def rmap rbind]. rewrite app_nil_r. reflexivity. }
  split. { unfold references. rewrite (A Use E). cbn [ud_kind_is_def rmap rbind option_map snd]. rewrite app_nil_r. reflexivity. }
  split. { unfold L. rewrite <- !map_app. apply Permutation_map. exact Hh. }
  split. { rewrite (prepare_symbol e s uri src d pr _ Hsrc Hix Hrope Hget), E. reflexivity. }
  intros new edits Hns Hr. rewrite <- Hh. unfold rename in Hr. rewrite Hget, E, unsigned_absolute in Hr by exact Hns. destruct (absolute_accepted _ _ _ _ _ Hr) as (final & Hf).
  assert (exists edits', absolute_rename e d o new = Val (Reply edits') /\ replaces src (renamed o final) (recorded (pr_stmts pr) (pr_tokens pr)) edits') as AO by (eapply absolute_ok; eassumption).
  destruct AO as (edits' & Hr' & (P1 & P2 & P3)). rewrite Hr in Hr'. injection Hr' as <-. apply NoDup_Permutation.
  - clear - P2 P3. induction edits as [|a l IH]; [constructor|]. inversion_clear P2 as [|? ? Q1 Q2]. inversion_clear P3 as [|? ? Q3 Q4]. cbn. constructor; [|auto].
    intros Hin. apply in_map_iff in Hin as (b & Eb & Hb). rewrite Forall_forall in Q1. specialize (Q1 b Hb). rewrite Eb in Q1. unfold separate, nonempty, pos_le, pos_lt in *. lia.
  - apply nodup_map_injective; [|apply (spans_nodup e src d pr Hix)]. intros a b Ha Hb Eab. apply in_spans in Ha as (x & Hx & (X1 & X2 & _) & <-), Hb as (y & Hy & (Y1 & Y2 & _) & <-). f_equal. apply (range_inj e src d pr Hix Hrope Hsrc); congruence.
  - intros r. rewrite !in_map_iff. split.
    + intros (ed & <- & Hed). apply P1 in Hed as (y & z & Hy & (Hs & _) & ->). exists (o_span y). split; [reflexivity|]. apply in_spans. eauto.
    + intros (sp & <- & Hsp). apply in_spans in Hsp as (y & Hy & Hs & <-). exists (mkEdit (lsp_range src (o_span y)) final). split; [reflexivity|]. apply P1. exists y, final. repeat split; auto; apply Hs.
Qed.
End Document.
(** ** Names of labels *)
Definition labelled (i : nat) (o : occurrence) : bool := (if kind_dec (o_kind o) KLabel then true else false) && (if body_dec (o_body o) (Some i) then true else false).
Definition bare (o : occurrence) : spanned := (o_name o, o_span o).
Lemma labelled_instr i ins : map bare (filter (labelled i) (instr_occs i ins)) = i_refs ins.
Proof.
  unfold instr_occs. rewrite filter_app, map_app. assert (filter (labelled i) (target_occs i (i_target ins)) = []) as -> by (destruct (i_target ins); reflexivity). cbn [map app].
  induction (i_refs ins) as [|[n sp] r IH]; [reflexivity|]. cbn [map filter]. unfold labelled at 1. cbn [occ o_kind o_body]. destruct (kind_dec KLabel KLabel); [|congruence]. destruct (body_dec (Some i) (Some i)); [|congruence]. cbn [andb map]. rewrite IH. reflexivity.
Qed.
Lemma labelled_blocks i bs : map bare (filter (labelled i) (flat_map (block_occs i) bs)) = label_names bs.
Proof.
  unfold label_names. induction bs as [|b bs IH]; [reflexivity|]. cbn [flat_map]. rewrite filter_app, map_app, IH. f_equal. unfold block_occs. rewrite filter_app, map_app. f_equal.
  - destruct (bb_label b) as [[n sp]|]; [|reflexivity]. cbn [label_occs filter]. unfold labelled. cbn [occ o_kind o_body]. destruct (kind_dec KLabel KLabel); [|congruence]. destruct (body_dec (Some i) (Some i)); [|congruence]. reflexivity.
  - induction (bb_instrs b) as [|x r IHr]; [reflexivity|]. cbn [flat_map]. rewrite filter_app, map_app, labelled_instr, IHr. reflexivity.
Qed.
Lemma labelled_other i id s : id <> i -> filter (labelled i) (stmt_occs id s) = [].
Proof.
  intros H. apply filter_nothing. intros x Hx. unfold labelled. destruct (kind_dec (o_kind x) KLabel) as [K|]; [|reflexivity]. destruct (body_dec (o_body x) (Some i)) as [B|]; [|reflexivity]. exfalso.
  destruct s as [|sig| kw sig body| |]; cbn [stmt_occs] in Hx; try (destruct Hx as [<-|[]]; discriminate); try contradiction.
  destruct Hx as [<-|Hx]; [discriminate|]. apply in_app_iff in Hx as [Hx|Hx].
  - unfold param_occs in Hx. apply in_map_iff in Hx as (a & <- & _). discriminate.
  - apply in_flat_map in Hx as (b & _ & Hx). unfold block_occs in Hx. apply in_app_iff in Hx as [Hx|Hx].
    + destruct (bb_label b); [|contradiction]. destruct Hx as [<-|[]]. cbn in B. congruence.
    + apply in_flat_map in Hx as (ins & _ & Hx). unfold instr_occs in Hx. apply in_app_iff in Hx as [Hx|Hx].
      * destruct (i_target ins); [|contradiction]. destruct Hx as [<-|[]]. discriminate.
      * apply in_map_iff in Hx as (z & <- & _). cbn in B. congruence.
Qed.
Lemma labelled_later i ss : forall id, i < id -> filter (labelled i) (tree_occs id ss) = [].
Proof. induction ss as [|s r IH]; intros id H; [reflexivity|]. cbn [tree_occs]. rewrite filter_app, labelled_other by lia. apply IH. lia. Qed.
Lemma labelled_tree ss : forall id i f, nth_error (function_defs ss) i = Some f -> map bare (filter (labelled (id + i)) (tree_occs id ss)) = label_names (fb_blocks (snd f)).
Proof.
  induction ss as [|s r IH]; intros id i f H; [destruct i; discriminate|]. cbn [tree_occs]. rewrite filter_app, map_app. unfold function_defs in H. cbn [flat_map] in H. fold (function_defs r) in H.
  destruct s as [x v|sig b c|kw sig body|a b|x v]; cbn [app] in H; try (cbn [is_def]; rewrite Nat.add_0_r, (IH id i f H); destruct (stmt_occs id _) eqn:Es; cbn [stmt_occs] in Es; try discriminate; try (injection Es as <- <-); reflexivity).
  cbn [is_def]. destruct i as [|i].
  - cbn in H. injection H as <-. rewrite Nat.add_0_r, labelled_later, app_nil_r by lia. cbn [snd stmt_occs]. cbn [filter]. assert (labelled id (occ Def KFunction None (fs_name sig)) = false) as -> by reflexivity.
    rewrite filter_app. assert (filter (labelled id) (param_occs id sig) = []) as ->; [|apply labelled_blocks]. apply filter_nothing. intros y Hy. unfold param_occs in Hy. apply in_map_iff in Hy as (a & <- & _). reflexivity.
  - cbn in H. rewrite labelled_other by lia. cbn [map app]. replace (id + S i) with (id + 1 + i) by lia. apply IH. exact H.
Qed.
Lemma label_spans {u} src pr ix i f o : indexed u src pr ix -> nth_error (function_defs (pr_stmts pr)) i = Some f -> In o (recorded (pr_stmts pr) (pr_tokens pr)) -> o_kind o = KLabel -> o_body o = Some i ->
  forall sp, In sp (label_written (fb_blocks (snd f)) (o_name o)) <-> exists x, In x (recorded (pr_stmts pr) (pr_tokens pr)) /\ same_symbol o x /\ o_span x = sp.
Proof.
  intros Hix Hf Ho Hk Hb sp. destruct (indexed_ok _ _ _ _ Hix) as (_ & _ & Hsp & Hsub & Hr). unfold label_written. rewrite <- (labelled_tree _ 0 i f Hf). cbn [Nat.add]. rewrite (recorded_eq _ _ _ Hsp Hsub), in_map_iff. split.
  - intros ([n z] & E & H). cbn in E. subst z. apply filter_In in H as [H En]. apply in_map_iff in H as (x & Ex & Hx). apply filter_In in Hx as [Hx Lx]. exists x. cbn in En. apply text_eqb_eq in En. unfold bare in Ex. injection Ex as <- <-.
    split; [apply in_app_iff; left; exact Hx|]. split; [|reflexivity]. unfold labelled in Lx. destruct (kind_dec (o_kind x) KLabel), (body_dec (o_body x) (Some i)); try discriminate. repeat split; congruence.
  - intros (x & Hx & (S1 & S2 & S3) & <-). exists (bare x). split; [reflexivity|]. apply filter_In. split; [|cbn; apply text_eqb_eq; congruence]. apply in_map. apply in_app_iff in Hx as [Hx|Hx].
    + apply filter_In. split; [exact Hx|]. unfold labelled. destruct (kind_dec (o_kind x) KLabel); [|congruence]. destruct (body_dec (o_body x) (Some i)); [reflexivity|congruence].
    + exfalso. apply filter_In in Hx as [Hx _]. apply in_flat_map in Hx as (t & _ & Hx). apply token_shape in Hx as [_ K]. rewrite <- S1, Hk in K. exact K.
Qed.
Lemma label_nodup {u} src pr ix i f n : indexed u src pr ix -> nth_error (function_defs (pr_stmts pr)) i = Some f -> NoDup (label_written (fb_blocks (snd f)) n).
Proof.
  intros Hix Hf. destruct (indexed_ok _ _ _ _ Hix) as (_ & _ & Hsp & Hsub & Hr). unfold label_written. rewrite <- (labelled_tree _ 0 i f Hf). cbn [Nat.add]. pose proof (tree_nodup _ _ _ Hsp Hsub) as H.
  assert (G : forall (A : Type) (g : A -> span) (q : A -> bool) m, NoDup (map g m) -> NoDup (map g (filter q m))).
  { clear. intros A g q m. induction m as [|x m IH]; intros H; [constructor|]. cbn [map] in H. inversion_clear H as [|? ? H1 H2]. cbn [filter]. destruct (q x); [|auto]. cbn [map]. constructor; [|auto]. intros Hi. apply H1. apply in_map_iff in Hi as (y & Ey & Hy). apply filter_In in Hy as [Hy _]. apply in_map_iff. eauto. }
  apply (G _ snd). rewrite map_map. cbn [bare snd]. apply (G _ o_span). exact H.
Qed.

(** ** Documents *)
Lemma written_found e s uri src d pr t p : plain_document src -> opened e s uri src d -> parse_from_str (e_u e) src = Val pr -> In t (pr_tokens pr) -> names_symbol (pr_stmts pr) t -> covers (snd t) p ->
  let here := written (pr_stmts pr) (pr_tokens pr) t in let pos := lsp_position src p in
  exists own decls refs,
    (goto_definition e s uri pos = Panic \/ exists ext, goto_definition e s uri pos = Val (Some (lsp_range src (snd t), own ++ ext))) /\
    goto_declaration e s uri pos = Val (Some (lsp_range src (snd t), decls)) /\
    references e s uri pos = Val (Some refs) /\
    Permutation (own ++ decls ++ refs) (map (location_of src uri) here) /\
    prepare_rename s uri pos = Some (lsp_range src (snd t)) /\
    forall new edits, ~ signed new -> rename e s uri pos new = Val (Reply edits) -> Permutation (map te_range edits) (map (lsp_range src) here).
Proof.
  intros Hsrc Hop Hpr Ht Hn Hc here pos. apply opened_indexed in Hop as (pr' & Hix & Hrope & Hst & Hg). assert (pr' = pr) as -> by (destruct Hix; congruence).
  destruct (places_of e src d pr Hix t Ht Hn) as (v & Hv). destruct v as [[k b] n]. destruct (indexed_ok _ _ _ _ Hix) as (_ & _ & Hsp & _). destruct (spans_in_each _ _ _ _ Hsp Ht) as (T1 & T2 & T3). assert (p <= length src) as Hp by (destruct Hc; lia).
  destruct (found_at e src d pr Hix Hrope Hsrc t p k b n Ht Hv Hc Hp) as (o & E & Ho & K1 & K2 & K3 & K4). rewrite <- K4.
  apply (asked e s uri src d pr Hix Hrope Hg Hsrc o p here Hp E). apply (written_spans e src d pr Hix t p (k, b, n) o Ht Hv E). congruence.
Qed.
Lemma label_found e s uri src d pr f x p : plain_document src -> opened e s uri src d -> parse_from_str (e_u e) src = Val pr -> In f (function_defs (pr_stmts pr)) -> In x (label_names (fb_blocks (snd f))) -> covers (snd x) p ->
  let here := label_written (fb_blocks (snd f)) (fst x) in let pos := lsp_position src p in
  exists own decls refs,
    (goto_definition e s uri pos = Panic \/ exists ext, goto_definition e s uri pos = Val (Some (lsp_range src (snd x), own ++ ext))) /\
    goto_declaration e s uri pos = Val (Some (lsp_range src (snd x), decls)) /\
    references e s uri pos = Val (Some refs) /\
    Permutation (own ++ decls ++ refs) (map (location_of src uri) here) /\
    prepare_rename s uri pos = Some (lsp_range src (snd x)) /\
    forall new edits, ~ signed new -> rename e s uri pos new = Val (Reply edits) -> Permutation (map te_range edits) (map (lsp_range src) here).
Proof.
  intros Hsrc Hop Hpr Hf Hx Hc here pos. apply opened_indexed in Hop as (pr' & Hix & Hrope & Hst & Hg). assert (pr' = pr) as -> by (destruct Hix; congruence).
  apply In_nth_error in Hf as [i Hf]. pose proof Hx as Hx'. rewrite <- (labelled_tree _ 0 i f Hf) in Hx'. cbn [Nat.add] in Hx'. apply in_map_iff in Hx' as (o & Ex & Ho). apply filter_In in Ho as [Ho Lo]. subst x. cbn [bare fst snd] in *.
  unfold labelled in Lo. destruct (kind_dec (o_kind o) KLabel) as [K|]; [|discriminate]. destruct (body_dec (o_body o) (Some i)) as [B|]; [|discriminate]. clear Lo.
  destruct (indexed_ok _ _ _ _ Hix) as (_ & _ & Hsp & Hsub & Hr). assert (In o (recorded (pr_stmts pr) (pr_tokens pr))) as Hl by (rewrite (recorded_eq _ _ _ Hsp Hsub); apply in_app_iff; left; exact Ho).
  destruct (occ_bounds e src d pr Hix o Hl) as [B1 B2]. assert (p <= length src) as Hp by (destruct Hc; lia).
  destruct (symbol_at_cases e src d pr Hix Hrope Hsrc p Hp) as [[_ H]|(o' & m & ud & E & Ho' & Hco & _)]; [exfalso; exact (H o Hl Hc)|].
  pose proof (covering_token e src d pr Hix o' o p Ho' Hl Hco Hc) as Et. assert (o' = o) as ->. { apply (local_body e src d pr Hix _ _ Ho' Hl Et). destruct (token_kinds _ _ Et) as [G|[[_ G]|[_ G]]]; congruence. }
  apply (asked e s uri src d pr Hix Hrope Hg Hsrc o p here Hp E). apply NoDup_Permutation; [apply (spans_nodup e src d pr Hix)|exact (label_nodup src pr _ i f _ Hix Hf)|]. intros sp. rewrite in_spans. symmetry. exact (label_spans src pr _ i f o Hix Hf Hl K B sp).
Qed.
(** anything else is no name *)
Lemma nothing_found e s uri src d pr p : plain_document src -> opened e s uri src d -> parse_from_str (e_u e) src = Val pr -> p <= length src ->
  (forall t, In t (pr_tokens pr) -> covers (snd t) p -> ~ names_symbol (pr_stmts pr) t) ->
  (forall f x, In f (function_defs (pr_stmts pr)) -> In x (label_names (fb_blocks (snd f))) -> ~ covers (snd x) p) ->
  goto_definition e s uri (lsp_position src p) = Val None /\ goto_declaration e s uri (lsp_position src p) = Val None /\ references e s uri (lsp_position src p) = Val None /\
  prepare_rename s uri (lsp_position src p) = None /\ forall new, exists m, rename e s uri (lsp_position src p) new = Val (RpcError m).
Proof.
  intros Hsrc Hop Hpr Hp Hn Hl. assert (Hop' := Hop). apply opened_indexed in Hop as (pr' & Hix & Hrope & Hst & Hg). assert (pr' = pr) as -> by (destruct Hix; congruence).
  apply (nothing e s uri src d p Hsrc Hop' Hp). right. right. right.
  destruct (symbol_at_cases e src d pr Hix Hrope Hsrc p Hp) as [[E _]|(o & m & ud & E & Ho & Hco & _)]; [rewrite (prepare_symbol e s uri src d pr _ Hsrc Hix Hrope Hg), E; reflexivity|].
  exfalso. destruct (indexed_ok _ _ _ _ Hix) as (_ & Hi & Hsp & Hsub & Hr). pose proof (recorded_token _ _ _ Hsp Hsub _ Ho) as Ht. pose proof (ii_scope _ _ Hi _ Ho) as Hsc. unfold scope_ok in Hsc.
  destruct (o_kind o) eqn:K.
  - apply (Hn _ Ht Hco). unfold names_symbol, occ_token. rewrite K. exact I.
  - apply (Hn _ Ht Hco). unfold names_symbol, occ_token. rewrite K. exact I.
  - apply (Hn _ Ht Hco). unfold names_symbol, occ_token. rewrite K. exact I.
  - destruct (o_body o) as [i|] eqn:B; [|contradiction]. destruct (recorded_body _ _ _ Hsp Hsub o i Ho B) as (r & R1 & _). 
    assert (exists f, nth_error (function_defs (pr_stmts pr)) i = Some f) as (f & Hf).
    { destruct (nth_error (function_defs (pr_stmts pr)) i) as [f|] eqn:En; [eauto|]. exfalso. apply nth_error_None in En. assert (i < length (flat_map func_ranges (pr_stmts pr))) by (apply nth_error_Some; congruence).
      assert (length (flat_map func_ranges (pr_stmts pr)) = length (function_defs (pr_stmts pr))) as El by (clear; unfold function_defs; induction (pr_stmts pr) as [|x r IH]; [reflexivity|]; cbn [flat_map]; rewrite !app_length, IH; destruct x; reflexivity). lia. }
    apply (Hl f (bare o) (nth_error_In _ _ Hf)); [|exact Hco]. rewrite <- (labelled_tree _ 0 i f Hf). cbn [Nat.add]. apply in_map. apply filter_In. rewrite (recorded_eq _ _ _ Hsp Hsub), in_app_iff in Ho. destruct Ho as [Ho|Ho].
    + split; [exact Ho|]. unfold labelled. rewrite K, B. destruct (kind_dec KLabel KLabel); [|congruence]. destruct (body_dec (Some i) (Some i)); [reflexivity|congruence].
    + exfalso. apply filter_In in Ho as [Ho _]. apply in_flat_map in Ho as (t & _ & Ho). apply token_shape in Ho as [_ Q]. rewrite K in Q. exact Q.
  - apply (Hn _ Ht Hco). unfold names_symbol, occ_token. rewrite K. cbn [fst snd]. destruct (o_body o) as [i|] eqn:B; [|contradiction]. destruct (recorded_body _ _ _ Hsp Hsub o i Ho B) as (r & R1 & R2). exists r. split; [eapply nth_error_In; exact R1|exact R2].
Qed.
