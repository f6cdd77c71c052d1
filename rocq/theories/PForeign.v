(** Documents with characters that are not ASCII. *)
From Verif Require Import Text Rope Chumsky Tokenizer Parser Numbers Index SemTok Diag Rename Cfg Backtrace Server SpecText SpecBytes SpecLex SpecParse SpecIndex SpecDiag SpecBacktrace SpecCfg SpecView SpecRename SpecForeign
  PText PRope PBytes PParse PParseProps PIndex PIndexDoc PIndexText PDiag PDiagDoc PCfg PBacktrace PHints PView PNav PRename PRequest PSumIndex PSumNav.

(** ** Displacement *)
Lemma filter_seq_shift (f : nat -> bool) n : forall a, length (filter f (seq (S a) n)) = length (filter (fun x => f (S x)) (seq a n)).
Proof. induction n as [|n IH]; intros a; [reflexivity|]. cbn [seq filter]. rewrite <- seq_shift. specialize (IH (S a)). destruct (f (S a)); cbn [length]; rewrite seq_shift, IH; reflexivity. Qed.
Lemma filter_none {A} (f : A -> bool) l : (forall x, In x l -> f x = false) -> filter f l = [].
Proof. induction l as [|a l IH]; intros H; [reflexivity|]. cbn. rewrite (H a (or_introl eq_refl)). apply IH. intros; apply H; right; assumption. Qed.
Lemma filter_length_ext {A} (f g : A -> bool) l : (forall x, In x l -> f x = g x) -> filter f l = filter g l.
Proof. apply filter_ext_in. Qed.
Lemma fitting_cons c t b : fitting (c :: t) b = if utf8_len c <=? b then S (fitting t (b - utf8_len c)) else 0.
Proof.
  unfold fitting. cbn [length seq]. destruct (utf8_len c <=? b) eqn:E.
  - cbn [filter]. cbn [firstn utf8_text flat_map]. rewrite app_nil_r, <- utf8_length, E. cbn [length]. f_equal. rewrite filter_seq_shift. f_equal. apply filter_ext. intros n.
    cbn [firstn]. unfold utf8_text. cbn [flat_map]. rewrite app_length, <- utf8_length. apply Nat.leb_le in E. apply eq_true_iff_eq. rewrite !Nat.leb_le. lia.
  - rewrite filter_none; [reflexivity|]. intros n Hn. change (1 :: seq 2 (length t)) with (seq 1 (S (length t))) in Hn. apply in_seq in Hn. destruct n as [|n]; [lia|].
    cbn [firstn]. unfold utf8_text. cbn [flat_map]. rewrite app_length, <- utf8_length. apply Nat.leb_gt in E. apply Nat.leb_gt. lia.
Qed.
Lemma fitting_eq t : forall b, fitting t b = byte_to_char t b.
Proof. induction t as [|c t IH]; intros b; [reflexivity|]. rewrite fitting_cons. cbn [byte_to_char]. rewrite IH. reflexivity. Qed.
Lemma fitting_le t : forall b, fitting t b <= b.
Proof.
  induction t as [|c t IH]; intros b; [unfold fitting; cbn; lia|]. rewrite fitting_cons. destruct (Nat.leb_spec (utf8_len c) b); [|lia]. specialize (IH (b - utf8_len c)). pose proof (utf8_len_pos c). lia.
Qed.
Lemma utf8_foreign c : is_ascii c = false -> 2 <= utf8_len c.
Proof. unfold is_ascii, utf8_len. intros H. rewrite H. destruct (c <? 2048)%N; [lia|]. destruct (c <? 65536)%N; lia. Qed.
Lemma fitting_exact t : forall p, p <= length t -> (fitting t p = p <-> ascii_text (firstn p t) = true).
Proof.
  induction t as [|c t IH]; intros p Hp.
  - cbn in Hp. assert (p = 0) as -> by lia. split; reflexivity.
  - destruct p as [|p]; [rewrite fitting_cons; pose proof (utf8_len_pos c); destruct (Nat.leb_spec (utf8_len c) 0); [lia|]; split; reflexivity|]. cbn [length] in Hp.
    rewrite fitting_cons. cbn [firstn ascii_text forallb]. destruct (is_ascii c) eqn:E; cbn [andb].
    + rewrite (utf8_len_ascii _ E). cbn [Nat.leb Nat.sub]. rewrite Nat.sub_0_r. specialize (IH p ltac:(lia)). unfold ascii_text in IH. rewrite <- IH. split; [intros G; lia|intros ->; reflexivity].
    + pose proof (utf8_foreign _ E). split; [|discriminate]. intros G. exfalso. destruct (Nat.leb_spec (utf8_len c) (S p)); [|discriminate]. pose proof (fitting_le t (S p - utf8_len c)). lia.
Qed.
Lemma fitting_length t b : fitting t b <= length t.
Proof. rewrite fitting_eq. apply byte_to_char_le. Qed.
Lemma fitting_mono t a b : a <= b -> fitting t a <= fitting t b.
Proof. rewrite !fitting_eq. apply byte_to_char_mono. Qed.

(** ** Positions *)
Lemma position_shown src p : bmp_document src -> p <= length src -> offset_to_lsp_pos src p = Some (lsp_position src (fitting src p)).
Proof.
  intros [Hpl Hs] Hp. pose proof (length_le_byte_len src) as Hb. rewrite offset_to_lsp_pos_eq by (assumption || lia).
  pose proof (fitting_length src p) as Hl. rewrite fitting_eq in *. rewrite (lsp_position_eq src _ Hpl Hl). reflexivity.
Qed.
Lemma range_shown_bytes src sp : bmp_document src -> sp_start sp <= sp_end sp -> sp_end sp <= byte_len src -> range_to_lsp src sp = Some (lsp_range src (displaced src sp)).
Proof.
  intros [Hpl Hs] H1 H2. unfold range_to_lsp. rewrite !offset_to_lsp_pos_eq by (assumption || lia). unfold lsp_range, displaced. cbn [sp_start sp_end obind].
  rewrite !lsp_position_eq by (exact Hpl || apply fitting_length). rewrite !fitting_eq. reflexivity.
Qed.
Lemma range_shown src sp : bmp_document src -> sp_start sp <= sp_end sp -> sp_end sp <= length src -> range_to_lsp src sp = Some (lsp_range src (displaced src sp)).
Proof. intros H H1 H2. pose proof (length_le_byte_len src). apply range_shown_bytes; [exact H|exact H1|lia]. Qed.
Lemma bmp_mono src p q : bmp_document src -> p <= q -> q <= length src -> pos_le (lsp_position src p) (lsp_position src q).
Proof.
  intros [Hpl Hs] H1 H2. apply (position_mono src (byte_len (firstn p src)) (byte_len (firstn q src))); [|apply positions_are_lsp; assumption || lia|apply positions_are_lsp; assumption].
  replace p with (Nat.min p q) by lia. rewrite <- firstn_firstn. apply firstn_byte_le.
Qed.
Lemma bmp_inj src p q : bmp_document src -> p <= length src -> q <= length src -> lsp_position src p = lsp_position src q -> p = q.
Proof. intros [Hpl Hs] H1 H2 E. pose proof (cursor_valid src p Hpl Hs H1) as C1. pose proof (cursor_valid src q Hpl Hs H2) as C2. congruence. Qed.
Lemma displacement src sp : bmp_document src -> sp_start sp <= sp_end sp -> sp_end sp <= length src ->
  exists r, range_to_lsp src sp = Some r /\ pos_le (r_start r) (lsp_position src (sp_start sp)) /\ pos_le (r_end r) (lsp_position src (sp_end sp)) /\
    (r = lsp_range src sp <-> in_ascii src sp).
Proof.
  intros H H1 H2. exists (lsp_range src (displaced src sp)). split; [apply range_shown; assumption|]. cbn [lsp_range r_start r_end displaced sp_start sp_end].
  pose proof (fitting_le src (sp_start sp)) as L1. pose proof (fitting_le src (sp_end sp)) as L2.
  split; [apply bmp_mono; assumption || lia|]. split; [apply bmp_mono; assumption|]. unfold in_ascii. rewrite <- (fitting_exact src _ H2). split.
  - intros E. apply (f_equal r_end) in E. cbn [lsp_range r_end displaced sp_end] in E. apply (bmp_inj src) in E; [exact E|exact H|apply fitting_length|exact H2].
  - intros E. unfold lsp_range, displaced. cbn [sp_start sp_end]. rewrite E. assert (fitting src (sp_start sp) = sp_start sp) as ->; [|reflexivity].
    apply fitting_exact; [lia|]. apply fitting_exact in E; [|exact H2]. replace (sp_start sp) with (Nat.min (sp_start sp) (sp_end sp)) by lia. rewrite <- firstn_firstn. apply ascii_firstn. exact E.
Qed.
Lemma displaced_id src sp : sp_start sp <= sp_end sp -> sp_end sp <= length src -> in_ascii src sp -> displaced src sp = sp.
Proof.
  intros H1 H2 E. unfold in_ascii in E. unfold displaced. assert (fitting src (sp_end sp) = sp_end sp) as -> by (apply fitting_exact; assumption).
  assert (fitting src (sp_start sp) = sp_start sp) as ->; [|destruct sp; reflexivity].
  apply fitting_exact; [lia|]. replace (sp_start sp) with (Nat.min (sp_start sp) (sp_end sp)) by lia. rewrite <- firstn_firstn. apply ascii_firstn. exact E.
Qed.

(** ** Navigation and renaming *)
Section Document.
Variables (e : env) (s : server) (uri src : text) (d : doc) (pr : parser_result).
Hypothesis Hix : indexed (e_u e) src pr (doc_index d).
Hypothesis Hrope : doc_rope d = src.
Hypothesis Hget : get_doc s uri = Some d.
Hypothesis Hsrc : bmp_document src.
Notation l := (recorded (pr_stmts pr) (pr_tokens pr)).

Lemma symbol_cases p : p <= length src ->
  (symbol_at d (lsp_position src p) = None /\ forall o, In o l -> ~ covers (o_span o) p) \/
  exists o m ud, symbol_at d (lsp_position src p) = Some o /\ In o l /\ covers (o_span o) p /\
    table_of (doc_index d) (o_kind o) (o_body o) = Some m /\ alookup (o_name o) m = Some ud /\
    forall k, get_use_def_kind ud k = spans_of l k (o_kind o) (o_body o) (o_name o).
Proof.
  intros Hp. unfold symbol_at. rewrite Hrope. destruct Hsrc as (Hpl & Hs). rewrite (cursor_valid src p Hpl Hs Hp). cbn [obind].
  destruct (indexed_ok _ _ _ _ Hix) as (_ & Hi & _). destruct (find_symbol_at_position (doc_index d) p) as [o|] eqn:Ef.
  - right. apply (lookup_some _ _ _ _ _ _ Hix) in Ef as [Ho Hcov]. pose proof (proj1 (listed_recorded _ _ _ Hi) Ho) as Hor. destruct Ho as (m & x & Hm & Hx & Hin).
    exists o, m, x. split; [reflexivity|]. split; [exact Hor|]. split; [|split; [exact Hm|split; [exact Hx|]]].
    + unfold span_contains in Hcov. apply andb_true_iff in Hcov as [C1 C2]. apply Nat.leb_le in C1. apply Nat.ltb_lt in C2. split; assumption.
    + intros k. pose proof (table_ok _ _ Hi _ _ _ Hm) as [_ Ht]. specialize (Ht (o_name o)). rewrite Hx in Ht. destruct k; cbn [get_use_def_kind]; tauto.
  - left. split; [reflexivity|]. intros o Ho [C1 C2]. apply (listed_recorded _ _ _ Hi) in Ho. pose proof (lookup_none _ _ _ _ _ Hix Ef o Ho) as Hn.
    unfold span_contains in Hn. apply andb_false_iff in Hn as [Hn|Hn]; [apply Nat.leb_gt in Hn|apply Nat.ltb_ge in Hn]; lia.
Qed.
Lemma occ_shown x : In x l -> range_to_lsp src (o_span x) = Some (lsp_range src (displaced src (o_span x))).
Proof. intros Hx. destruct (recorded_range e src d _ Hix x Hx). apply range_shown; assumption. Qed.
Lemma shown_ranges ud p : p <= length src -> (ud = Def -> can_resolve (roots s) /\ lines_from_1 (pr_stmts pr)) ->
  exists r, get_use_def_ranges e s uri (lsp_position src p) ud = Val r /\ shown_answers e (roots s) uri src pr p ud r.
Proof.
  intros Hp Hl. unfold get_use_def_ranges. rewrite Hget. cbn [obind]. destruct (symbol_cases p Hp) as [[-> Hno]|(o & m & x & -> & Ho & Hc & Hm & Hx & Hk)].
  - cbn [obind]. exists None. split; [reflexivity|exact Hno].
  - cbn [obind]. rewrite (table_use_defs _ _ _ Hm), Hx. cbn [rbind]. rewrite Hk, Hrope, (occ_shown o Ho). cbn [obind].
    rewrite (filter_map_all _ (fun sp => location_of src uri (displaced src sp))).
    2:{ intros sp Hsp. apply in_spans_of in Hsp as (o' & Ho' & <- & _). rewrite (occ_shown o' Ho'). reflexivity. }
    destruct ud; cbn [ud_kind_is_def rbind].
    + eexists. split; [reflexivity|]. exists o, []. repeat (split; [assumption || reflexivity|]). reflexivity.
    + rewrite (externals_of e src d _ Hix _ _ _ Hm Hx). destruct (Hl eq_refl) as [Hcr Hl']. destruct (external_spec e (roots s) (externals (pr_stmts pr) o) Hcr) as (lss & E & Hlss).
      { intros y Hy. unfold externals in Hy. destruct (o_kind o); try contradiction. eapply Hl'. exact Hy. }
      rewrite E. cbn [rbind]. eexists. split; [reflexivity|]. exists o, (concat lss). repeat (split; [assumption || reflexivity|]). exists lss. split; [reflexivity|exact Hlss].
    + eexists. split; [reflexivity|]. exists o, []. repeat (split; [assumption || reflexivity|]). reflexivity.
Qed.
Lemma front_answers ud p r : symbol_in_ascii src l p -> shown_answers e (roots s) uri src pr p ud r -> answers e (roots s) uri src pr p ud r.
Proof.
  intros Hf H. destruct r as [[origin locs]|]; [|exact H]. destruct H as (o & ls & Ho & Hc & -> & -> & Hx). exists o, ls. split; [exact Ho|]. split; [exact Hc|].
  assert (forall x, In x l -> same_symbol o x -> displaced src (o_span x) = o_span x) as Hd.
  { intros x Hin Hs. destruct (recorded_range e src d _ Hix x Hin). apply displaced_id; [assumption..|]. apply (Hf o x); assumption. }
  split; [rewrite Hd; [reflexivity|exact Ho|repeat split]|]. split; [|exact Hx]. f_equal. apply map_ext_in. intros sp Hsp. apply in_spans_of in Hsp as (x & Hin & <- & E1 & E2 & E3 & E4).
  rewrite Hd; [reflexivity|exact Hin|]. repeat split; congruence.
Qed.
Lemma shown_rename p new edits : p <= length src -> ~ signed new -> rename e s uri (lsp_position src p) new = Val (Reply edits) ->
  exists o final, In o l /\ covers (o_span o) p /\ accepted (e_u e) (o_kind o) new final /\
    forall ed, In ed edits <-> exists x, In x l /\ same_symbol o x /\ ed = mkEdit (lsp_range src (displaced src (o_span x))) final.
Proof.
  intros Hp Hns H. unfold rename in H. rewrite Hget in H. destruct (symbol_cases p Hp) as [[E _]|(o & m & x & E & Ho & Hc & Hm & Hx & Hk)]; rewrite E in H; [discriminate|].
  rewrite unsigned_absolute in H by exact Hns. destruct (absolute_accepted _ _ _ _ _ H) as (final & Hf). exists o, final. split; [exact Ho|]. split; [exact Hc|]. split; [exact Hf|].
  unfold absolute_rename in H. destruct (check_cases (e_u e) (o_kind o) new) as [(f' & Hf' & Ec)|[Hno _]]; [|exfalso; eapply Hno; exact Hf].
  assert (f' = final) as ->. { destruct Hf' as (c & b & H1 & -> & _). destruct Hf as (c' & b' & H2 & -> & _). apply without_sigil_iff in H1, H2. congruence. }
  rewrite Ec in H. cbn [rbind] in H. rewrite (table_use_defs _ _ _ Hm), Hx in H. cbn [rbind] in H. injection H as <-. unfold get_rename_edits. rewrite Hrope.
  rewrite (filter_map_all _ (fun sp => mkEdit (lsp_range src (displaced src sp)) final)).
  - intros ed. rewrite in_map_iff. change (decls x) with (get_use_def_kind x Decl). change (defs x) with (get_use_def_kind x Def). change (uses x) with (get_use_def_kind x Use). rewrite !Hk. split.
    + intros (sp & <- & Hsp). rewrite !in_app_iff in Hsp. destruct Hsp as [Hsp|[Hsp|Hsp]]; apply in_spans_of in Hsp as (y & Hy & <- & E1 & E2 & E3 & E4); exists y; (split; [exact Hy|split; [repeat split; congruence|reflexivity]]).
    + intros (y & Hy & (E1 & E2 & E3) & ->). exists (o_span y). split; [reflexivity|]. rewrite !in_app_iff, !in_spans_of. destruct (o_ud y) eqn:Eu; [left|right; left|right; right]; exists y; repeat split; congruence.
  - intros sp Hsp. change (decls x) with (get_use_def_kind x Decl) in Hsp. change (defs x) with (get_use_def_kind x Def) in Hsp. change (uses x) with (get_use_def_kind x Use) in Hsp. rewrite !Hk in Hsp.
    rewrite !in_app_iff in Hsp. destruct Hsp as [Hsp|[Hsp|Hsp]]; apply in_spans_of in Hsp as (y & Hy & <- & _); rewrite (occ_shown y Hy); reflexivity.
Qed.
End Document.

(** ** Diagnostics *)
Lemma symbol_diagnostics_shown src uri x :
  (forall ud sp, In sp (get_use_def_kind (snd (snd x)) ud) -> range_to_lsp src sp = Some (lsp_range src (displaced src sp))) ->
  diagnostics_of_symbol src uri (snd x) =
  map (fun o => undefined_diagnostic src (displaced_occ src o)) (sym_undefined x) ++ map (fun o => redefinition_diagnostic src uri (displaced_pair src o)) (sym_redefs x).
Proof.
  intros Hr. destruct x as [[k b] [n e]]. cbn [snd fst] in *. unfold diagnostics_of_symbol, sym_undefined, sym_redefs. cbn [snd fst].
  pose proof (Hr Def) as Hd. pose proof (Hr Use) as Hu. cbn [get_use_def_kind] in Hd, Hu.
  destruct (decls e) as [|a l], (defs e) as [|d ds]; cbn [map app]; try reflexivity.
  - rewrite app_nil_r, map_map. apply filter_map_all. intros sp Hsp. rewrite (Hu sp Hsp). reflexivity.
  - rewrite map_map. apply filter_map_all. intros sp Hsp. rewrite (Hd d (or_introl eq_refl)), (Hd sp (or_intror Hsp)). reflexivity.
  - rewrite map_map. apply filter_map_all. intros sp Hsp. rewrite (Hd d (or_introl eq_refl)), (Hd sp (or_intror Hsp)). reflexivity.
Qed.
Lemma index_diagnostics_shown ix l ord src uri : visits_all ord -> index_is ix l -> NoDup l ->
  (forall o, In o l -> range_to_lsp src (o_span o) = Some (lsp_range src (displaced src (o_span o)))) ->
  Permutation (diagnostics_from_index ord src uri ix)
    (map (fun o => undefined_diagnostic src (displaced_occ src o)) (undefined_uses l) ++ map (fun o => redefinition_diagnostic src uri (displaced_pair src o)) (redefinitions l)).
Proof.
  intros Hord Hi Hnd Hr. unfold diagnostics_from_index. rewrite <- all_syms_snd.
  rewrite flat_map_concat_map, map_map, <- flat_map_concat_map.
  rewrite (flat_map_ext_in _ (fun x => map (fun o => undefined_diagnostic src (displaced_occ src o)) (sym_undefined x) ++ map (fun o => redefinition_diagnostic src uri (displaced_pair src o)) (sym_redefs x))).
  2:{ intros [[k b] [n e]] Hx. apply symbol_diagnostics_shown.
      intros ud sp Hsp. cbn [snd] in Hsp. rewrite (sym_lists _ _ _ Hord Hi _ _ _ _ Hx) in Hsp. apply in_spans_of in Hsp as (o & Ho & <- & _). apply Hr. exact Ho. }
  rewrite flat_map_split, <- !map_flat_map. apply Permutation_app; apply Permutation_map; [apply undefined_perm|apply redefs_perm]; assumption.
Qed.
Lemma diagnostics_shown e uri src d diags : bmp_document src -> visits_all (e_ord e) -> analyze e uri src = Val (d, diags) ->
  exists pr, parse_from_str (e_u e) src = Val pr /\
    Permutation diags
      (map (fun x => syntax_diagnostic (e_xord e) src (displaced_error src x)) (filter (within_bytes src) (pr_errors pr)) ++
       map (fun x => missing_diagnostic src (displaced_instr src x)) (filter missing_refs (instructions (pr_stmts pr))) ++
       map (fun o => undefined_diagnostic src (displaced_occ src o)) (undefined_uses (recorded (pr_stmts pr) (pr_tokens pr))) ++
       map (fun o => redefinition_diagnostic src uri (displaced_pair src o)) (redefinitions (recorded (pr_stmts pr) (pr_tokens pr)))).
Proof.
  intros Hp Ho H. destruct (analyze_cases e uri src) as (pr & E & [[_ Hx]|[_ (d' & diags' & Hx & H1 & H2 & Hix)]]); [congruence|].
  assert (d' = d /\ diags' = diags) as [-> ->] by (split; congruence).
  exists pr. split; [exact E|]. pose proof (indexed_ok _ _ _ _ Hix) as (_ & Hi & Hsp & Hsub & Hr).
  unfold analyze in H. rewrite E in H. cbn [rbind] in H. destruct (semantic_tokens_from_tokens (pr_tokens pr)) as [sem|]; [|discriminate]. cbn [rbind] in H.
  destruct Hix as [_ Hc]. destruct (create_index src (pr_tokens pr) (pr_stmts pr)) as [ix|] eqn:Ec; [|discriminate]. cbn [rbind] in H.
  inversion H; subst d diags. cbn [doc_index] in *. clear H Hc Hx. pose proof Hp as (_ & Hs).
  assert (E1 : diagnostics_from_parser (e_xord e) src (pr_errors pr) = map (fun x => syntax_diagnostic (e_xord e) src (displaced_error src x)) (filter (within_bytes src) (pr_errors pr))).
  { unfold diagnostics_from_parser. pose proof (error_spans _ _ _ E) as He. rewrite Forall_forall in He.
    assert (forall x, In x (pr_errors pr) -> sp_start (e_span x) <= sp_end (e_span x)) as Hle. { intros x Hin. destruct (He x Hin) as [G|[G|G]]; [lia|rewrite G; cbn; lia|rewrite G; cbn; lia]. }
    rewrite (filter_map_drop (fun x => negb (within_bytes src x))).
    - rewrite (filter_ext _ (within_bytes src)) by (intros x; apply negb_involutive). apply filter_map_all. intros x Hin. apply filter_In in Hin as [Hin Hne].
      unfold within_bytes in Hne. rewrite <- bytes_length in Hne. apply Nat.leb_le in Hne. rewrite range_shown_bytes by (auto || exact Hp). reflexivity.
    - intros x Hin Hx. unfold within_bytes in Hx. rewrite <- bytes_length in Hx. apply negb_true_iff, Nat.leb_gt in Hx. unfold range_to_lsp.
      rewrite (offset_to_lsp_pos_none src _ Hx). destruct (offset_to_lsp_pos src (sp_start (e_span x))); reflexivity. }
  assert (E2 : diagnostics_from_statements src (pr_stmts pr) = map (fun x => missing_diagnostic src (displaced_instr src x)) (filter missing_refs (instructions (pr_stmts pr)))).
  { unfold diagnostics_from_statements. rewrite filter_map_filter, instructions_eq. apply filter_map_all. intros i Hin. apply filter_In in Hin as [Hin _].
    apply mnemonic_token in Hin. apply (subseq_in _ _ _ Hsub) in Hin. apply (spans_in_each _ _ _ _ Hsp) in Hin. cbn [tident snd] in Hin.
    rewrite range_shown by (assumption || lia). reflexivity. }
  rewrite E1, E2. apply Permutation_app_head, Permutation_app_head. apply index_diagnostics_shown; [exact Ho|exact Hi|eapply recorded_nodup; eassumption|].
  intros o Hin. apply (recorded_token _ _ _ Hsp Hsub) in Hin. apply (spans_in_each _ _ _ _ Hsp) in Hin. cbn [occ_token snd] in Hin. apply range_shown; [exact Hp|lia|lia].
Qed.

(** ** For open documents *)
Lemma shown_places e s uri src d ud p : bmp_document src -> opened e s uri src d -> (ud = Def -> can_resolve (roots s) /\ lines_from_1 (doc_stmts d)) ->
  p <= length src -> exists pr r, parse_from_str (e_u e) src = Val pr /\ pr_stmts pr = doc_stmts d /\
    get_use_def_ranges e s uri (lsp_position src p) ud = Val r /\ shown_answers e (roots s) uri src pr p ud r /\
    (symbol_in_ascii src (recorded (pr_stmts pr) (pr_tokens pr)) p -> answers e (roots s) uri src pr p ud r).
Proof.
  intros Hsrc Ho Hl Hp. apply opened_indexed in Ho as (pr & Hix & Hrope & Hst & Hg). rewrite Hst in *.
  destruct (shown_ranges e s uri src d pr Hix Hrope Hg Hsrc ud p Hp Hl) as (r & E & H). exists pr, r. split; [apply Hix|]. split; [symmetry; exact Hst || reflexivity|]. split; [exact E|]. split; [exact H|].
  intros Hf. eapply front_answers; eassumption.
Qed.
Lemma shown_definition e s uri src d p : bmp_document src -> opened e s uri src d -> can_resolve (roots s) -> lines_from_1 (doc_stmts d) -> p <= length src ->
  exists pr r, parse_from_str (e_u e) src = Val pr /\ pr_stmts pr = doc_stmts d /\
    goto_definition e s uri (lsp_position src p) = Val r /\ shown_answers e (roots s) uri src pr p Def r /\
    (symbol_in_ascii src (recorded (pr_stmts pr) (pr_tokens pr)) p -> answers e (roots s) uri src pr p Def r).
Proof. intros H1 H2 H3 H4 H5. apply (shown_places e s uri src d Def p H1 H2); auto. Qed.
Lemma shown_declaration e s uri src d p : bmp_document src -> opened e s uri src d -> p <= length src ->
  exists pr r, parse_from_str (e_u e) src = Val pr /\ pr_stmts pr = doc_stmts d /\
    goto_declaration e s uri (lsp_position src p) = Val r /\ shown_answers e (roots s) uri src pr p Decl r /\
    (symbol_in_ascii src (recorded (pr_stmts pr) (pr_tokens pr)) p -> answers e (roots s) uri src pr p Decl r).
Proof. intros H1 H2 H5. apply (shown_places e s uri src d Decl p H1 H2); [discriminate|exact H5]. Qed.
Lemma shown_references e s uri src d p : bmp_document src -> opened e s uri src d -> p <= length src ->
  exists pr r, parse_from_str (e_u e) src = Val pr /\ pr_stmts pr = doc_stmts d /\
    references e s uri (lsp_position src p) = Val (option_map snd r) /\ shown_answers e (roots s) uri src pr p Use r /\
    (symbol_in_ascii src (recorded (pr_stmts pr) (pr_tokens pr)) p -> answers e (roots s) uri src pr p Use r).
Proof.
  intros H1 H2 H5. destruct (shown_places e s uri src d Use p H1 H2 ltac:(discriminate) H5) as (pr & r & G1 & G2 & G3 & G4).
  exists pr, r. unfold references. rewrite G3. auto.
Qed.
Lemma shown_edits e s uri src d p new edits : bmp_document src -> opened e s uri src d -> p <= length src -> ~ signed new ->
  rename e s uri (lsp_position src p) new = Val (Reply edits) ->
  exists pr o final, parse_from_str (e_u e) src = Val pr /\ In o (recorded (pr_stmts pr) (pr_tokens pr)) /\ covers (o_span o) p /\ accepted (e_u e) (o_kind o) new final /\
    forall ed, In ed edits <-> exists x, In x (recorded (pr_stmts pr) (pr_tokens pr)) /\ same_symbol o x /\ ed = mkEdit (lsp_range src (displaced src (o_span x))) final.
Proof.
  intros Hsrc Ho Hp Hns H. apply opened_indexed in Ho as (pr & Hix & Hrope & Hst & Hg).
  destruct (shown_rename e s uri src d pr Hix Hrope Hg Hsrc p new edits Hp Hns H) as (o & final & G). exists pr, o, final. split; [apply Hix|exact G].
Qed.
