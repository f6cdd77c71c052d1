(** The offered code action replaces the numbered words of a scope. *)
From Verif Require Import Text Rope Chumsky Tokenizer Parser Numbers Index SemTok Diag Rename Cfg Backtrace Server SpecText SpecLex SpecParse SpecIndex SpecDiag SpecBacktrace SpecCfg SpecView SpecNumbers SpecRename SpecServer SpecCoherent SpecWritten SpecRenumber SpecActionWords
  PText PRope PParse PParseProps PIndex PIndexDoc PIndexText PDiag PDiagDoc PCfg PBacktrace PHints PView PNav PNumbers PRename PServer PRequest PSumIndex PSumNav PCoherent PWritten PRenumber.

Section Document.
Variables (e : env) (s : server) (uri src : text) (d : doc) (pr : parser_result).
Hypothesis Hix : indexed (e_u e) src pr (doc_index d).
Hypothesis Hrope : doc_rope d = src.
Hypothesis Hget : get_doc s uri = Some d.
Hypothesis Hsrc : plain_document src.
Hypothesis Hu : e_url_parse e uri = Some uri.
Notation l := (recorded (pr_stmts pr) (pr_tokens pr)).
Lemma acts o p places : visits_all (e_ord e) -> p <= length src -> symbol_at d (lsp_position src p) = Some o ->
  (forall w sp, (exists x, In x l /\ in_scope o x /\ o_name x = w /\ o_span x = sp) <-> In (w, sp) places) ->
  forall n, has_number (o_name o) n -> room (map fst places) n 1 -> action_renumbers e s uri src p places n.
Proof.
  intros Hord Hp E Hpl n Hn [R1 R2]. destruct (symbol_at_cases e src d pr Hix Hrope Hsrc p Hp) as [[E' _]|(o' & m & ud & E' & Ho & Hc & Hm & Hud)]; [congruence|]. assert (o' = o) as -> by congruence. clear E'.
  assert (Hpe : forall a : position_, pos_eqb a a = true) by (intros a; unfold pos_eqb; rewrite !Nat.eqb_refl; reflexivity).
  assert (no_overflow l o n 1) as Hov.
  { split; [exact R1|]. intros x m' Hx Hsc Hm' Hle. apply (R2 (o_name x)); [|exact Hm'|exact Hle]. apply in_map_iff. exists (o_name x, o_span x). split; [reflexivity|]. apply Hpl. exists x. auto. }
  pose proof (occ_ascii e src d pr Hix Hsrc o Ho) as Ha. apply (has_number_extract (e_u e) _ _ Ha) in Hn as [q En]. destruct (shift_ok e src d pr Hix Hrope Hsrc o m n 1 Hord Hm Hov) as (edits & Ee & A2 & A3).
  set (a := mkCA (action_title (o_kind o)) (Some (action_data_to_json (mkAD uri (o_kind o) (o_body o) (Z.of_N n)))) None).
  assert (Hlazy : code_action e (with_lazy true s) uri (mkRange (lsp_position src p) (lsp_position src p)) = Val (Reply (Some [a]))).
  { unfold code_action. change (get_doc (with_lazy true s) uri) with (get_doc s uri). rewrite Hget. cbn [r_start r_end]. rewrite Hpe. cbn [negb]. unfold unresolved_actions. rewrite E, En. reflexivity. }
  assert (Hres : code_action_resolve e s a = Val (Reply (mkCA (ca_title a) (ca_data a) (Some (uri, edits))))).
  { unfold code_action_resolve, do_code_action_resolve. cbn [a ca_data ca_title]. rewrite json_round; [|exact Hu|eapply extract_in_i64; exact En].
    cbn [ad_uri ad_kind ad_body ad_nr]. rewrite Hget, Hrope, Ee. reflexivity. }
  exists a, edits. split; [exact Hlazy|]. split; [reflexivity|]. split; [exact Hres|]. split; [apply (lazy_eager _ _ _ _ _ _ Hu Hlazy); constructor; [exact Hres|constructor]|].
  split; [|exact A3]. intros ed. rewrite A2. split.
  - intros (x & y & Hx & (Hsc & Hmv) & ->). exists (o_name x, o_span x), y. split; [apply Hpl; exists x; auto|]. split; [exact Hmv|reflexivity].
  - intros ([w sp] & y & Hin & Hmv & ->). apply Hpl in Hin as (x & Hx & Hsc & <- & <-). exists x, y. split; [exact Hx|]. split; [split; assumption|reflexivity].
Qed.
End Document.
Lemma words_acted e s uri src d pr t p n : plain_document src -> visits_all (e_ord e) -> opened e s uri src d -> e_url_parse e uri = Some uri -> parse_from_str (e_u e) src = Val pr -> In t (pr_tokens pr) -> names_symbol (pr_stmts pr) t -> covers (snd t) p ->
  has_number (word t) n -> room (map fst (space_of (pr_stmts pr) (pr_tokens pr) t)) n 1 ->
  action_renumbers e s uri src p (space_of (pr_stmts pr) (pr_tokens pr) t) n.
Proof.
  intros Hsrc Hord Hop Hu Hpr Ht Hn Hc Hnum Hroom. apply opened_indexed in Hop as (pr' & Hix & Hrope & Hst & Hg). assert (pr' = pr) as -> by (destruct Hix; congruence).
  destruct (places_of e src d pr Hix t Ht Hn) as (v & Hv). destruct v as [[k b] m]. destruct (indexed_ok _ _ _ _ Hix) as (_ & _ & Hsp & _). destruct (spans_in_each _ _ _ _ Hsp Ht) as (T1 & T2 & T3). assert (p <= length src) as Hp by (destruct Hc; lia).
  destruct (found_at e src d pr Hix Hrope Hsrc t p k b m Ht Hv Hc Hp) as (o & E & Ho & K1 & K2 & K3 & K4).
  apply (acts e s uri src d pr Hix Hrope Hg Hsrc Hu o p _ Hord Hp E (space_iff e src d pr Hix t k b m o Ht Hv K1 K2)); [|exact Hroom].
  assert (word t = m) as Ew. { unfold place_of in Hv. unfold word. destruct (fst t); try discriminate; try congruence. destruct (containing _ _); [|discriminate]. cbn in Hv. congruence. } congruence.
Qed.
Lemma labels_acted e s uri src d pr f x p n : plain_document src -> visits_all (e_ord e) -> opened e s uri src d -> e_url_parse e uri = Some uri -> parse_from_str (e_u e) src = Val pr -> In f (function_defs (pr_stmts pr)) -> In x (label_names (fb_blocks (snd f))) -> covers (snd x) p ->
  has_number (fst x) n -> room (map fst (label_names (fb_blocks (snd f)))) n 1 ->
  action_renumbers e s uri src p (label_names (fb_blocks (snd f))) n.
Proof.
  intros Hsrc Hord Hop Hu Hpr Hf Hx Hc Hnum Hroom. apply opened_indexed in Hop as (pr' & Hix & Hrope & Hst & Hg). assert (pr' = pr) as -> by (destruct Hix; congruence).
  apply In_nth_error in Hf as [i Hf]. pose proof Hx as Hx'. rewrite <- (labelled_tree _ 0 i f Hf) in Hx'. cbn [Nat.add] in Hx'. apply in_map_iff in Hx' as (o & Ex & Ho). apply filter_In in Ho as [Ho Lo]. subst x. cbn [bare fst snd] in *.
  unfold labelled in Lo. destruct (kind_dec (o_kind o) KLabel) as [K|]; [|discriminate]. destruct (body_dec (o_body o) (Some i)) as [B|]; [|discriminate]. clear Lo.
  destruct (indexed_ok _ _ _ _ Hix) as (_ & _ & Hsp & Hsub & Hr). assert (In o (recorded (pr_stmts pr) (pr_tokens pr))) as Hl by (rewrite (recorded_eq _ _ _ Hsp Hsub); apply in_app_iff; left; exact Ho).
  destruct (occ_bounds e src d pr Hix o Hl) as [B1 B2]. assert (p <= length src) as Hp by (destruct Hc; lia).
  destruct (symbol_at_cases e src d pr Hix Hrope Hsrc p Hp) as [[_ H]|(o' & m & ud & E & Ho' & Hco & _)]; [exfalso; exact (H o Hl Hc)|].
  pose proof (covering_token e src d pr Hix o' o p Ho' Hl Hco Hc) as Et. assert (o' = o) as ->. { apply (local_body e src d pr Hix _ _ Ho' Hl Et). destruct (token_kinds _ _ Et) as [G|[[_ G]|[_ G]]]; congruence. }
  apply (acts e s uri src d pr Hix Hrope Hg Hsrc Hu o p _ Hord Hp E); [|exact Hnum|exact Hroom].
  intros w sp. rewrite <- (labelled_tree _ 0 i f Hf). cbn [Nat.add]. rewrite in_map_iff. split.
  - intros (x & X1 & [S1 S2] & <- & <-). exists x. split; [reflexivity|]. rewrite (recorded_eq _ _ _ Hsp Hsub), in_app_iff in X1. destruct X1 as [X1|X1].
    + apply filter_In. split; [exact X1|]. unfold labelled. destruct (kind_dec (o_kind x) KLabel); [|congruence]. destruct (body_dec (o_body x) (Some i)); [reflexivity|congruence].
    + exfalso. apply filter_In in X1 as [X1 _]. apply in_flat_map in X1 as (t & _ & X1). apply token_shape in X1 as [_ G]. rewrite S1, K in G. exact G.
  - intros (x & Ex & Hx2). apply filter_In in Hx2 as [Hx2 Lx]. unfold bare in Ex. injection Ex as <- <-. exists x. split; [rewrite (recorded_eq _ _ _ Hsp Hsub); apply in_app_iff; left; exact Hx2|].
    unfold labelled in Lx. destruct (kind_dec (o_kind x) KLabel), (body_dec (o_body x) (Some i)); try discriminate. repeat split; congruence.
Qed.
