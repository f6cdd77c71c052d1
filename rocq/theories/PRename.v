(** Renaming: the edits. *)
From Verif Require Import Text Rope Chumsky Tokenizer Parser Numbers Index SemTok Diag Rename Cfg Backtrace Server SpecText SpecLex SpecParse SpecIndex SpecDiag SpecBacktrace SpecNumbers SpecCfg SpecView SpecRename
  PText PRope PBacktrace PNumbers PLexSpec PLexProps PTokens PParse PParseProps PIndex PIndexDoc PIndexText PDiag PDiagDoc PCfg PHints PView PFold PExt PNav.

(** ** New names *)
Lemma sigil_prefix k : kind_prefix k = sigil k.
Proof. destruct k; reflexivity. Qed.
Lemma strip_some p : forall t r, strip_prefix p t = Some r <-> t = p ++ r.
Proof.
  induction p as [|x p IH]; intros t r; cbn [strip_prefix app]; [split; congruence|]. destruct t as [|y t]; [split; discriminate|].
  destruct (N.eqb_spec x y) as [->|H]; [rewrite IH; split; congruence|split; [discriminate|congruence]].
Qed.
Lemma without_sigil_iff k new body : without_sigil k new body <-> strip_kind_prefix k new = body.
Proof.
  unfold without_sigil, strip_kind_prefix. rewrite <- sigil_prefix. destruct (strip_prefix (kind_prefix k) new) as [r|] eqn:E.
  - apply strip_some in E as ->. split.
    + intros [H|[_ H]]; [apply app_inv_head in H; congruence|exfalso; exact (H r eq_refl)].
    + intros <-. left. reflexivity.
  - split.
    + intros [H|[H _]]; [|exact H]. apply strip_some in H. congruence.
    + intros <-. right. split; [reflexivity|]. intros r H. apply strip_some in H. congruence.
Qed.
Lemma name_chars_iff u name : existsb (fun c => negb (is_alphanumeric u c) && negb (c =? ch "_")%N && negb (c =? ch ":")%N) name = false <-> Forall (name_char u) name.
Proof.
  rewrite existsb_false, Forall_forall. split; intros H c Hc; specialize (H c Hc).
  - unfold name_char. destruct (is_alphanumeric u c); [auto|]. cbn [negb andb] in H. destruct (N.eqb_spec c (ch "_")); [auto|]. cbn [negb andb] in H.
    destruct (N.eqb_spec c (ch ":")); [auto|discriminate].
  - destruct H as [H|[-> | ->]]; [rewrite H; reflexivity| |]; destruct (is_alphanumeric u _); reflexivity.
Qed.
Lemma kind_eqb_spec a b : symbol_kind_eqb a b = true <-> a = b.
Proof. destruct a, b; cbn; split; congruence. Qed.
Lemma check_cases u k new :
  (exists final, accepted u k new final /\ check_new_name u k new = Val (Reply final)) \/
  ((forall final, ~ accepted u k new final) /\
   ((exists m, check_new_name u k new = Val (RpcError m)) \/ (check_new_name u k new = Panic /\ without_sigil k new []))).
Proof.
  unfold check_new_name. set (body := strip_kind_prefix k new). assert (Hb : without_sigil k new body) by (apply without_sigil_iff; reflexivity).
  assert (Hu : forall b, without_sigil k new b -> b = body) by (intros b H; apply without_sigil_iff in H; symmetry; exact H).
  clearbody body.
  destruct (existsb _ body) eqn:Ex.
  - right. split; [|left; eauto]. intros final (c & b & H1 & H2 & H3 & _). apply Hu in H1. rewrite H1 in H3. apply name_chars_iff in H3. congruence.
  - apply name_chars_iff in Ex. destruct body as [|c b] eqn:Eb.
    + right. split; [|right; auto]. intros final (c & b & H1 & _). apply Hu in H1. discriminate.
    + destruct (is_numeric u c) eqn:En; cbn [andb].
      * destruct (symbol_kind_eqb k KDbgAnnotation) eqn:Ek; cbn [negb].
        -- left. exists (sigil k ++ c :: b). split; [|reflexivity]. exists c, b. split; [exact Hb|]. split; [reflexivity|]. split; [exact Ex|]. intros _. apply kind_eqb_spec. exact Ek.
        -- right. split; [|left; eauto]. intros final (c' & b' & H1 & _ & _ & H4). apply Hu in H1. inversion H1; subst. apply H4 in En. apply kind_eqb_spec in En. congruence.
      * left. exists (sigil k ++ c :: b). split; [|reflexivity]. exists c, b. split; [exact Hb|]. split; [reflexivity|]. split; [exact Ex|]. intros. congruence.
Qed.

(** ** Sign and number *)
Lemma parse_digits_not x n : parse_digits x = Some n <-> (x <> [] /\ all_digits x /\ n = decimal_value x).
Proof. rewrite parse_digits_spec. split; tauto. Qed.
Lemma in_i64_iff z : in_i64 z = true <-> fits_i64 z.
Proof. unfold in_i64, fits_i64, I64_MIN, I64_MAX. rewrite andb_true_iff, !Z.leb_le. lia. Qed.
Lemma digits_first c r : all_digits (c :: r) -> c <> ch "+" /\ c <> ch "-".
Proof. intros H. assert (48 <= c <= 57)%N as Hc by (apply H; left; reflexivity). split; intros ->; cbn in Hc; lia. Qed.
Lemma parse_i64_iff x z : parse_i64 x = Some z <-> is_i64 x z.
Proof.
  unfold parse_i64. destruct x as [|c r]; [split; [discriminate|]|].
  { intros (ds & H & _ & _ & [[E _]|[[E _]|[E _]]]); congruence. }
  destruct (N.eqb_spec c (ch "+")) as [->|H1]; [|destruct (N.eqb_spec c (ch "-")) as [->|H2]].
  - split.
    + destruct (parse_digits r) as [n|] eqn:E; [|discriminate]. cbn [option_map obind]. destruct (in_i64 (Z.of_N n)) eqn:Ei; [|discriminate]. intros H; injection H as <-.
      apply in_i64_iff in Ei. apply parse_digits_not in E as (E1 & E2 & ->). exists r. auto 10.
    + intros (ds & G1 & G2 & G3 & [[E Ez]|[[E Ez]|[E Ez]]]).
      * subst ds. apply digits_first in G2 as [G2 _]. congruence.
      * injection E as <-. rewrite (proj2 (parse_digits_not r _) (conj G1 (conj G2 eq_refl))). cbn [option_map obind]. rewrite <- Ez, (proj2 (in_i64_iff z) G3). reflexivity.
      * discriminate.
  - split.
    + destruct (parse_digits r) as [n|] eqn:E; [|discriminate]. cbn [option_map obind]. destruct (in_i64 (- Z.of_N n)) eqn:Ei; [|discriminate]. intros H; injection H as <-.
      apply in_i64_iff in Ei. apply parse_digits_not in E as (E1 & E2 & ->). exists r. auto 10.
    + intros (ds & G1 & G2 & G3 & [[E Ez]|[[E Ez]|[E Ez]]]).
      * subst ds. apply digits_first in G2 as [_ G2]. congruence.
      * discriminate.
      * injection E as <-. rewrite (proj2 (parse_digits_not r _) (conj G1 (conj G2 eq_refl))). cbn [option_map obind]. rewrite <- Ez, (proj2 (in_i64_iff z) G3). reflexivity.
  - split.
    + destruct (parse_digits (c :: r)) as [n|] eqn:E; [|discriminate]. cbn [option_map obind]. destruct (in_i64 (Z.of_N n)) eqn:Ei; [|discriminate]. intros H; injection H as <-.
      apply in_i64_iff in Ei. apply parse_digits_not in E as (E1 & E2 & ->). exists (c :: r). auto 10.
    + intros (ds & G1 & G2 & G3 & [[E Ez]|[[E Ez]|[E Ez]]]); [|congruence|congruence].
      subst ds. rewrite (proj2 (parse_digits_not _ _) (conj G1 (conj G2 eq_refl))). cbn [option_map obind]. rewrite <- Ez, (proj2 (in_i64_iff z) G3). reflexivity.
Qed.
Lemma wrapping_abs_N z : fits_i64 z -> render_Z (wrapping_abs z) = render_N (Z.abs_N z) \/ z = (- 9223372036854775808)%Z.
Proof.
  intros H. destruct (Z.eq_dec z (- 9223372036854775808)) as [E|E]; [right; exact E|left]. unfold fits_i64 in H. unfold wrapping_abs, wrap_i64, render_Z.
  rewrite Z.mod_small by lia. replace (Z.abs z + 9223372036854775808 - 9223372036854775808)%Z with (Z.abs z) by lia.
  destruct (Z.ltb_spec (Z.abs z) 0); [lia|]. f_equal. lia.
Qed.
(** ** Numbers of names *)
Lemma has_number_extract u name n : ascii_text name = true -> (has_number name n <-> exists p, extract_number_from_identifier u name = Val (Some (p, Z.of_N n))).
Proof.
  intros Ha. split.
  - intros (p & ds & H & Hn). exists p. rewrite (extract_spec_some u _ _ _ _ Ha H). apply N.leb_le in Hn. rewrite Hn. reflexivity.
  - intros (p & E). destruct (numbered_or_not name) as [(p' & ds & n' & H)|H].
    + rewrite (extract_spec_some u _ _ _ _ Ha H) in E. destruct (N.leb_spec n' max_i64); [|discriminate]. inversion E. apply N2Z.inj in H3. subst. exists p, ds. auto.
    + rewrite (extract_spec_none u _ Ha H) in E. discriminate.
Qed.
Lemma extract_cases u name : ascii_text name = true ->
  (exists p ds n, numbered name p ds n /\ (n <= max_i64)%N /\ extract_number_from_identifier u name = Val (Some (p, Z.of_N n))) \/
  ((forall n, ~ has_number name n) /\ extract_number_from_identifier u name = Val None).
Proof.
  intros Ha. destruct (numbered_or_not name) as [(p & ds & n & H)|H].
  - pose proof (extract_spec_some u _ _ _ _ Ha H) as E. destruct (N.leb_spec n max_i64).
    + left. exists p, ds, n. auto.
    + right. split; [|exact E]. intros m (p' & ds' & H' & Hm). destruct (numbered_unique _ _ _ _ _ _ _ H H') as (_ & _ & ->). lia.
  - right. rewrite (extract_spec_none u _ Ha H). split; [|reflexivity]. intros n Hn. apply (has_number_extract u _ _ Ha) in Hn as (p & E).
    rewrite (extract_spec_none u _ Ha H) in E. discriminate.
Qed.
Lemma has_number_unique name n m : has_number name n -> has_number name m -> n = m.
Proof. intros (p & ds & H & _) (p' & ds' & H' & _). destruct (numbered_unique _ _ _ _ _ _ _ H H') as (_ & _ & ->). reflexivity. Qed.
Lemma number_0 : forall name n, has_number name n -> (0 <= Z.of_N n <= 9223372036854775807)%Z.
Proof. intros name n (_ & _ & _ & H). unfold max_i64 in H. lia. Qed.

(** ** Occurrences that share kind and scope do not overlap *)
Lemma first_seen_pairs l : forall seen, (forall x y, In x seen -> In y (first_seen seen l) -> same_place y x = false) /\
  ForallOrdPairs (fun x y => same_place y x = false) (first_seen seen l).
Proof.
  induction l as [|o l IH]; intros seen; cbn [first_seen]; [split; [intros ? ? _ []|constructor]|].
  destruct (existsb (same_place o) seen) eqn:E; [apply IH|]. destruct (IH (seen ++ [o])) as [H1 H2]. split.
  - intros x y Hx [<-|Hy]; [apply (proj1 (existsb_false _ _) E); exact Hx|]. apply H1; [apply in_or_app; left; exact Hx|exact Hy].
  - constructor; [|exact H2]. apply Forall_forall. intros y Hy. apply H1; [apply in_or_app; right; left; reflexivity|exact Hy].
Qed.
Lemma recorded_place ss toks x y : In x (recorded ss toks) -> In y (recorded ss toks) -> same_place x y = true -> x = y.
Proof.
  intros Hx Hy E. destruct (first_seen_pairs (tree_occs 0 ss ++ flat_map (token_occs ss) toks) []) as [_ H]. 
  destruct (ForallOrdPairs_In H x y Hx Hy) as [<-|[G|G]]; [reflexivity| |congruence].
  exfalso. apply same_place_spec in E as (E1 & E2 & E3 & E4). assert (same_place y x = true) by (apply same_place_spec; auto). congruence.
Qed.
Lemma nodup_pairwise {A} (R : A -> A -> Prop) l : NoDup l -> (forall x y, In x l -> In y l -> x <> y -> R x y) -> ForallOrdPairs R l.
Proof.
  induction l as [|a l IH]; intros Hn H; [constructor|]. inversion Hn as [|? ? N1 N2]; subst. constructor.
  - apply Forall_forall. intros y Hy. apply H; [left; reflexivity|right; exact Hy|]. intros ->. contradiction.
  - apply IH; [exact N2|]. intros. apply H; [right; assumption|right; assumption|assumption].
Qed.
Lemma pairwise_map {A B} (f : A -> B) (R : B -> B -> Prop) l : ForallOrdPairs (fun x y => R (f x) (f y)) l -> ForallOrdPairs R (map f l).
Proof. induction 1 as [|a l H _ IH]; constructor; [apply Forall_map; exact H|exact IH]. Qed.

(** the occurrences of one entry of a symbol table *)
Definition entry_occs (l : list occurrence) (k : symbol_kind) (b : option nat) (n : text) : list occurrence :=
  filter (entry_is Decl k b n) l ++ filter (entry_is Def k b n) l ++ filter (entry_is Use k b n) l.
Lemma in_entry_occs l k b n x : In x (entry_occs l k b n) <-> In x l /\ o_kind x = k /\ o_body x = b /\ o_name x = n.
Proof.
  unfold entry_occs. rewrite !in_app_iff, !filter_In, !entry_is_spec. destruct (o_ud x) eqn:E; intuition congruence.
Qed.
Lemma entry_occs_nodup l k b n : NoDup l -> NoDup (entry_occs l k b n).
Proof.
  intros H. unfold entry_occs. apply nodup_app; [apply NoDup_filter; exact H| |].
  - apply nodup_app; [apply NoDup_filter; exact H|apply NoDup_filter; exact H|]. intros x H1 H2. apply filter_In in H1 as [_ H1]. apply filter_In in H2 as [_ H2].
    apply entry_is_spec in H1 as [H1 _]. apply entry_is_spec in H2 as [H2 _]. congruence.
  - intros x H1 H2. apply filter_In in H1 as [_ H1]. apply entry_is_spec in H1 as [H1 _].
    apply in_app_or in H2 as [H2|H2]; apply filter_In in H2 as [_ H2]; apply entry_is_spec in H2 as [H2 _]; congruence.
Qed.

Section Document.
Variables (e : env) (s : server) (uri src : text) (d : doc) (pr : parser_result).
Hypothesis Hix : indexed (e_u e) src pr (doc_index d).
Hypothesis Hrope : doc_rope d = src.
Hypothesis Hget : get_doc s uri = Some d.
Hypothesis Hsrc : plain_document src.
Notation l := (recorded (pr_stmts pr) (pr_tokens pr)).

Lemma position_lt p q : p < q -> q <= length src -> p_line (lsp_position src p) < p_line (lsp_position src q) \/
  (p_line (lsp_position src p) = p_line (lsp_position src q) /\ p_char (lsp_position src p) < p_char (lsp_position src q)).
Proof.
  intros H1 H2. destruct Hsrc as (Ha & Hpl & Hs). pose proof (position_mono src p q _ _ ltac:(lia) (positions_are_lsp_ascii src p Ha Hpl Hs ltac:(lia)) (positions_are_lsp_ascii src q Ha Hpl Hs H2)) as [G|[G1 G2]]; [left; exact G|].
  right. split; [exact G1|]. destruct (Nat.eq_dec (p_char (lsp_position src p)) (p_char (lsp_position src q))) as [E|E]; [|lia]. exfalso.
  pose proof (cursor_valid src p Hpl Hs ltac:(lia)) as C1. pose proof (cursor_valid src q Hpl Hs H2) as C2.
  destruct (lsp_position src p), (lsp_position src q). cbn in *. subst. assert (Some p = Some q) as G by congruence. injection G. lia.
Qed.
Lemma position_le p q : p <= q -> q <= length src -> pos_le (lsp_position src p) (lsp_position src q).
Proof.
  intros H1 H2. destruct Hsrc as (Ha & Hpl & Hs). exact (position_mono src p q _ _ H1 (positions_are_lsp_ascii src p Ha Hpl Hs ltac:(lia)) (positions_are_lsp_ascii src q Ha Hpl Hs H2)).
Qed.
Lemma occ_bounds x : In x l -> sp_start (o_span x) < sp_end (o_span x) /\ sp_end (o_span x) <= length src.
Proof.
  intros Hx. destruct (indexed_ok _ _ _ _ Hix) as (_ & _ & Hsp & Hsub & _). apply (recorded_token _ _ _ Hsp Hsub) in Hx.
  apply (spans_in_each _ _ _ _ Hsp) in Hx. cbn [occ_token snd] in Hx. lia.
Qed.
Lemma occ_separate x y : In x l -> In y l -> o_kind x = o_kind y -> o_body x = o_body y -> x <> y ->
  separate (lsp_range src (o_span x)) (lsp_range src (o_span y)).
Proof.
  intros Hx Hy Ek Eb Hne. destruct (indexed_ok _ _ _ _ Hix) as (_ & _ & Hsp & Hsub & _).
  pose proof (recorded_token _ _ _ Hsp Hsub _ Hx) as Tx. pose proof (recorded_token _ _ _ Hsp Hsub _ Hy) as Ty.
  destruct (occ_bounds _ Hx) as [X1 X2]. destruct (occ_bounds _ Hy) as [Y1 Y2].
  destruct (spans_in_disjoint _ _ _ _ _ Hsp Tx Ty) as [E|[E|E]].
  - exfalso. apply Hne. apply (recorded_place (pr_stmts pr) (pr_tokens pr)); [exact Hx|exact Hy|]. apply same_place_spec. split; [exact Ek|]. split; [exact Eb|].
    unfold occ_token in E. rewrite <- Ek in E. destruct (o_kind x); inversion E; auto.
  - cbn [occ_token snd] in E. left. apply position_le; cbn; lia.
  - cbn [occ_token snd] in E. right. apply position_le; cbn; lia.
Qed.
Lemma occ_nonempty x : In x l -> nonempty (lsp_range src (o_span x)).
Proof. intros Hx. destruct (occ_bounds _ Hx). apply position_lt; assumption. Qed.
Lemma occ_ascii x : In x l -> ascii_text (o_name x) = true.
Proof.
  intros Hx. destruct (indexed_ok _ _ _ _ Hix) as (_ & Hi & _). apply (listed_recorded _ _ _ Hi) in Hx. destruct (listed_text_errors _ _ _ _ _ Hix Hx) as [g E].
  assert (ascii_text (text_at src (o_span x)) = true) as H.
  { apply ascii_firstn, ascii_skipn, Hsrc. }
  rewrite E, ascii_app in H. apply andb_true_iff in H. tauto.
Qed.

(** a list of occurrences of one scope, each replaced *)
Lemma replaces_list os (new : occurrence -> text -> Prop) (f : occurrence -> text) k b :
  NoDup os -> (forall x, In x os <-> In x l /\ o_kind x = k /\ o_body x = b /\ exists y, new x y) ->
  (forall x y, new x y -> o_kind x = k /\ o_body x = b) -> (forall x y, In x l -> new x y -> y = f x) ->
  replaces src new l (map (fun x => mkEdit (lsp_range src (o_span x)) (f x)) os).
Proof.
  intros Hn Hos Hsc Hf. split; [|split].
  - intros ed. rewrite in_map_iff. split.
    + intros (x & <- & Hx). apply Hos in Hx as (H1 & H2 & H3 & y & Hy). exists x, y. split; [exact H1|]. split; [exact Hy|]. rewrite (Hf _ _ H1 Hy). reflexivity.
    + intros (x & y & H1 & H2 & ->). exists x. split; [rewrite (Hf _ _ H1 H2); reflexivity|]. apply Hos. destruct (Hsc _ _ H2). eauto 6.
  - apply pairwise_map. cbn [te_range]. apply nodup_pairwise; [exact Hn|]. intros x y Hx Hy Hne. apply Hos in Hx as (X1 & X2 & X3 & _). apply Hos in Hy as (Y1 & Y2 & Y3 & _).
    apply occ_separate; congruence.
  - apply Forall_map. apply Forall_forall. intros x Hx. apply Hos in Hx as (X1 & _). apply occ_nonempty. exact X1.
Qed.
Lemma entry_edits k b m n ud y : table_of (doc_index d) k b = Some m -> alookup n m = Some ud ->
  get_rename_edits src ud y = map (fun x => mkEdit (lsp_range src (o_span x)) y) (entry_occs l k b n).
Proof.
  intros Hm Hn. destruct (indexed_ok _ _ _ _ Hix) as (_ & Hi & _). pose proof (table_ok _ _ Hi _ _ _ Hm) as [_ Ht]. specialize (Ht n). rewrite Hn in Ht.
  destruct Ht as (_ & E1 & E2 & E3). unfold get_rename_edits. rewrite E1, E2, E3. unfold spans_of. rewrite <- !map_app. fold (entry_occs l k b n).
  rewrite (filter_map_all _ (fun sp => mkEdit (lsp_range src sp) y)); [rewrite map_map; reflexivity|].
  intros sp Hsp. apply in_map_iff in Hsp as (x & <- & Hx). apply in_entry_occs in Hx as [Hx _]. destruct (occ_bounds _ Hx). rewrite plain_range by (assumption || lia). reflexivity.
Qed.

(** ** Requests *)
Lemma symbol_at_cases p : p <= length src ->
  (symbol_at d (lsp_position src p) = None /\ forall o, In o l -> ~ covers (o_span o) p) \/
  exists o m ud, symbol_at d (lsp_position src p) = Some o /\ In o l /\ covers (o_span o) p /\
    table_of (doc_index d) (o_kind o) (o_body o) = Some m /\ alookup (o_name o) m = Some ud.
Proof.
  intros Hp. unfold symbol_at. rewrite Hrope. destruct Hsrc as (Ha & Hpl & Hs). rewrite (cursor_valid src p Hpl Hs Hp). cbn [obind].
  destruct (indexed_ok _ _ _ _ Hix) as (_ & Hi & _). destruct (find_symbol_at_position (doc_index d) p) as [o|] eqn:Ef.
  - right. apply (lookup_some _ _ _ _ _ _ Hix) in Ef as [Ho Hcov]. pose proof (proj1 (listed_recorded _ _ _ Hi) Ho) as Hor. destruct Ho as (m & x & Hm & Hx & Hin).
    exists o, m, x. split; [reflexivity|]. split; [exact Hor|]. split; [|auto].
    unfold span_contains in Hcov. apply andb_true_iff in Hcov as [C1 C2]. apply Nat.leb_le in C1. apply Nat.ltb_lt in C2. split; assumption.
  - left. split; [reflexivity|]. intros o Ho [C1 C2]. apply (listed_recorded _ _ _ Hi) in Ho. pose proof (lookup_none _ _ _ _ _ Hix Ef o Ho) as Hn.
    unfold span_contains in Hn. apply andb_false_iff in Hn as [Hn|Hn]; [apply Nat.leb_gt in Hn|apply Nat.ltb_ge in Hn]; lia.
Qed.
Lemma absolute_ok o m ud new final : In o l -> table_of (doc_index d) (o_kind o) (o_body o) = Some m -> alookup (o_name o) m = Some ud ->
  accepted (e_u e) (o_kind o) new final ->
  exists edits, absolute_rename e d o new = Val (Reply edits) /\ replaces src (renamed o final) l edits.
Proof.
  intros Ho Hm Hud Hacc. unfold absolute_rename. destruct (check_cases (e_u e) (o_kind o) new) as [(f' & Hf & E)|[Hno _]]; [|exfalso; eapply Hno; exact Hacc].
  assert (f' = final) as ->.
  { destruct Hf as (c & b & H1 & -> & _). destruct Hacc as (c' & b' & H2 & -> & _). apply without_sigil_iff in H1, H2. congruence. }
  rewrite E. cbn [rbind]. rewrite (table_use_defs _ _ _ Hm), Hud. cbn [rbind]. rewrite Hrope. eexists. split; [reflexivity|].
  rewrite (entry_edits _ _ _ _ _ _ Hm Hud). apply (replaces_list (entry_occs l (o_kind o) (o_body o) (o_name o)) (renamed o final) (fun _ => final) (o_kind o) (o_body o)).
  - apply entry_occs_nodup. destruct (indexed_ok _ _ _ _ Hix) as (_ & _ & Hsp & Hsub & _). eapply recorded_nodup; eassumption.
  - intros x. rewrite in_entry_occs. unfold renamed, same_symbol. split.
    + intros (H1 & H2 & H3 & H4). split; [exact H1|]. split; [exact H2|]. split; [exact H3|]. exists final. auto.
    + intros (H1 & H2 & H3 & y & (G1 & G2 & G3) & _). auto.
  - intros x y ((G1 & G2 & G3) & _). auto.
  - intros x y _ (_ & ->). reflexivity.
Qed.

Definition number_of (n : text) : option (text * Z) := match extract_number_from_identifier (e_u e) n with Val x => x | Panic => None end.
Definition selected (start : Z) (n : text) : bool := match number_of n with Some (_, z) => negb (z <? start)%Z | None => false end.
Definition moved_name (shift : Z) (n : text) : text := match number_of n with Some (p, z) => p ++ render_Z (wrapping_abs (z + shift)) | None => [] end.
Definition entry_fits (start shift : Z) (n : text) : Prop := forall p z, number_of n = Some (p, z) -> (start <= z)%Z -> fits_i64 (z + shift).
Lemma shift_entry_eq k b m start shift n ud : table_of (doc_index d) k b = Some m -> alookup n m = Some ud -> ascii_text n = true -> entry_fits start shift n ->
  shift_entry (e_u e) (e_pf e) src start shift (n, ud) =
    Val (map (fun x => mkEdit (lsp_range src (o_span x)) (moved_name shift (o_name x))) (if selected start n then entry_occs l k b n else [])).
Proof.
  intros Hm Hn Ha Hf. unfold shift_entry. cbn [fst snd]. unfold entry_fits, selected, number_of in *.
  destruct (extract_cases (e_u e) n Ha) as [(p & ds & v & H1 & H2 & E)|[_ E]]; rewrite E in *; cbn [rbind]; [|reflexivity].
  destruct (Z.ltb_spec (Z.of_N v) start) as [L|L]; cbn [negb map]; [reflexivity|]. specialize (Hf p _ eq_refl L).
  unfold i64_add, i64_result. rewrite (proj2 (in_i64_iff _) Hf). cbn [rbind]. rewrite (entry_edits _ _ _ _ _ _ Hm Hn). f_equal. apply map_ext_in. intros x Hx.
  apply in_entry_occs in Hx as (_ & _ & _ & Ex). unfold moved_name, number_of. rewrite Ex, E. reflexivity.
Qed.
Lemma shift_entries k b m start shift ents : table_of (doc_index d) k b = Some m ->
  (forall x, In x ents -> alookup (fst x) m = Some (snd x) /\ ascii_text (fst x) = true /\ entry_fits start shift (fst x)) ->
  rflat_map (shift_entry (e_u e) (e_pf e) src start shift) ents =
    Val (map (fun x => mkEdit (lsp_range src (o_span x)) (moved_name shift (o_name x)))
      (flat_map (fun x => if selected start (fst x) then entry_occs l k b (fst x) else []) ents)).
Proof.
  intros Hm. induction ents as [|[n ud] ents IH]; intros H; [reflexivity|]. cbn [rflat_map flat_map]. destruct (H _ (or_introl eq_refl)) as (H1 & H2 & H3).
  rewrite (shift_entry_eq k b m) by assumption. cbn [rbind]. rewrite IH by (intros; apply H; right; assumption). cbn [rbind fst]. rewrite map_app. reflexivity.
Qed.
Lemma entry_has_occ k b m n ud : table_of (doc_index d) k b = Some m -> alookup n m = Some ud -> exists x, In x l /\ o_kind x = k /\ o_body x = b /\ o_name x = n.
Proof.
  intros Hm Hn. destruct (indexed_ok _ _ _ _ Hix) as (_ & Hi & _). pose proof (table_ok _ _ Hi _ _ _ Hm) as [_ Ht]. specialize (Ht n). rewrite Hn in Ht. destruct Ht as [(x & H) _].
  exists x. tauto.
Qed.
Lemma table_keys k b m : table_of (doc_index d) k b = Some m -> NoDup (map fst m).
Proof. intros Hm. destruct (indexed_ok _ _ _ _ Hix) as (_ & Hi & _). apply (table_ok _ _ Hi _ _ _ Hm). Qed.
Lemma table_get k b m ix : table_of ix k b = Some m -> exists fb, body_of_id ix b = Val fb /\ get_by_symbol_kind ix k fb = Val m.
Proof.
  unfold table_of, body_of_id, get_by_symbol_kind. intros H.
  destruct k, b as [id|]; try discriminate; try (injection H as <-; eexists; split; reflexivity);
    (destruct (nth_error (function_bodies ix) id) as [fb|]; [|discriminate]; injection H as <-; eexists; split; reflexivity).
Qed.
Lemma shift_ok o m n0 z : visits_all (e_ord e) -> table_of (doc_index d) (o_kind o) (o_body o) = Some m -> no_overflow l o n0 z ->
  exists edits, get_shift_edits (e_u e) (e_pf e) (e_ord e) src (doc_index d) (o_kind o) (o_body o) (Z.of_N n0) z = Val edits /\ replaces src (moved o n0 z) l edits.
Proof.
  intros Hord Hm [Hz Hov]. unfold get_shift_edits. destruct (table_get _ _ _ _ Hm) as (fb & E1 & E2). rewrite E1. cbn [rbind]. rewrite E2. cbn [rbind].
  pose proof (table_keys _ _ _ Hm) as Hk.
  assert (Hall : forall x, In x (e_ord e m) -> alookup (fst x) m = Some (snd x) /\ ascii_text (fst x) = true /\ entry_fits (Z.of_N n0) z (fst x)).
  { intros [n ud] Hx. eapply Permutation_in in Hx; [|apply Hord]. apply (in_alookup _ _ _ Hk) in Hx. cbn [fst snd]. split; [exact Hx|].
    destruct (entry_has_occ _ _ _ _ _ Hm Hx) as (x & X1 & X2 & X3 & X4). pose proof (occ_ascii _ X1) as Ha. rewrite X4 in Ha. split; [exact Ha|].
    intros p v Ev Hv. unfold number_of in Ev. destruct (extract_cases (e_u e) n Ha) as [(p' & ds & v' & G1 & G2 & E)|[_ E]]; rewrite E in Ev; [|discriminate].
    inversion Ev; subst p' v. assert (fits_i64 (Z.abs (Z.of_N v' + z))) as G; [|unfold fits_i64 in *; lia].
    apply (Hov x v'); [exact X1|split; congruence|rewrite X4; exists p, ds; auto|lia]. }
  rewrite (shift_entries (o_kind o) (o_body o) m) by assumption. eexists. split; [reflexivity|].
  apply (replaces_list _ (moved o n0 z) (fun x => moved_name z (o_name x)) (o_kind o) (o_body o)).
  - assert (NoDup (map fst (e_ord e m))) as Hk'. { eapply Permutation_NoDup; [|exact Hk]. apply Permutation_map, Permutation_sym, Hord. }
    clear Hall. revert Hk'. induction (e_ord e m) as [|[n ud] r IH]; intros Hk'; [constructor|]. cbn [flat_map fst]. cbn [map fst] in Hk'. inversion Hk' as [|? ? K1 K2]; subst.
    apply nodup_app; [|apply IH; exact K2|].
    + destruct (selected _ n); [|constructor]. apply entry_occs_nodup. destruct (indexed_ok _ _ _ _ Hix) as (_ & _ & Hsp & Hsub & _). eapply recorded_nodup; eassumption.
    + intros x H1 H2. destruct (selected _ n); [|contradiction]. apply in_entry_occs in H1 as (_ & _ & _ & H1). apply in_flat_map in H2 as ([n' ud'] & H2 & H3). cbn [fst] in H3.
      destruct (selected _ n'); [|contradiction]. apply in_entry_occs in H3 as (_ & _ & _ & H3). apply K1. apply in_map_iff. exists (n', ud'). cbn. split; [congruence|exact H2].
  - intros x. rewrite in_flat_map. unfold moved. split.
    + intros ([n ud] & Hin & H). destruct (Hall _ Hin) as (A1 & A2 & A3). cbn [fst snd] in *. unfold selected, number_of in H. 
      destruct (extract_cases (e_u e) n A2) as [(p & ds & v & G1 & G2 & E)|[_ E]]; rewrite E in H; [|contradiction].
      destruct (Z.ltb_spec (Z.of_N v) (Z.of_N n0)) as [L|L]; cbn [negb] in H; [contradiction|]. apply in_entry_occs in H as (H1 & H2 & H3 & H4).
      split; [exact H1|]. split; [exact H2|]. split; [exact H3|]. exists (p ++ render_N (Z.abs_N (Z.of_N v + z))). split; [split; assumption|]. rewrite H4. exists p, ds, v, (render_N (Z.abs_N (Z.of_N v + z))).
      split; [exact G1|]. split; [exact G2|]. split; [lia|]. split; [apply render_N_canonical|reflexivity].
    + intros (H1 & H2 & H3 & y & Hsc & p & ds & v & ds' & G1 & G2 & G3 & G4 & G5).
      pose proof (occ_ascii _ H1) as Ha. destruct (indexed_ok _ _ _ _ Hix) as (_ & Hi & _). pose proof (table_ok _ _ Hi _ _ _ Hm) as [_ Ht]. specialize (Ht (o_name x)).
      destruct (alookup (o_name x) m) as [ud|] eqn:El; [|exfalso; apply Ht; exists x; auto].
      exists (o_name x, ud). split; [eapply Permutation_in; [apply Permutation_sym, Hord|]; apply alookup_in; exact El|]. cbn [fst]. unfold selected, number_of.
      rewrite (extract_spec_some (e_u e) _ _ _ _ Ha G1). apply N.leb_le in G2. rewrite G2. destruct (Z.ltb_spec (Z.of_N v) (Z.of_N n0)); [lia|]. cbn [negb]. apply in_entry_occs. auto.
  - intros x y [Hsc _]. exact Hsc.
  - intros x y Hx [Hsc (p & ds & v & ds' & G1 & G2 & G3 & G4 & ->)]. pose proof (occ_ascii _ Hx) as Ha. unfold moved_name, number_of.
    rewrite (extract_spec_some (e_u e) _ _ _ _ Ha G1). pose proof G2 as G2'. apply N.leb_le in G2'. rewrite G2'. f_equal.
    assert (fits_i64 (Z.abs (Z.of_N v + z))) as Hfit by (apply (Hov x v); [exact Hx|exact Hsc|exists p, ds; auto|exact G3]).
    destruct (wrapping_abs_N (Z.of_N v + z)) as [E|E]; [unfold fits_i64 in *; lia| |exfalso; unfold fits_i64 in Hfit; lia]. rewrite E.
    eapply canonical_unique; [exact G4|apply render_N_canonical].
Qed.
Lemma relative_ok o m ud c rest nr n : visits_all (e_ord e) -> In o l -> table_of (doc_index d) (o_kind o) (o_body o) = Some m -> alookup (o_name o) m = Some ud ->
  c = ch "+" \/ c = ch "-" -> is_i64 rest nr -> let z := if (c =? ch "-")%N then (- nr)%Z else nr in
  has_number (o_name o) n -> no_overflow l o n z ->
  exists edits, relative_rename e d o c rest = Val (Reply edits) /\ replaces src (moved o n z) l edits.
Proof.
  intros Hord Ho Hm Hud Hc Hnr z Hn Hov. unfold relative_rename. rewrite (proj2 (parse_i64_iff _ _) Hnr).
  assert (i64_mul (e_pf e) (if (c =? ch "-")%N then (-1)%Z else 1%Z) nr = Val z) as ->.
  { unfold i64_mul, i64_result. replace (_ * nr)%Z with z; [rewrite (proj2 (in_i64_iff _) (proj1 Hov)); reflexivity|]. unfold z. destruct (c =? ch "-")%N; lia. }
  cbn [rbind]. pose proof (occ_ascii _ Ho) as Ha. apply (has_number_extract (e_u e) _ _ Ha) in Hn as [p E]. rewrite E. cbn [rbind]. rewrite Hrope.
  destruct (shift_ok o m n z Hord Hm Hov) as (edits & E' & H). rewrite E'. exists edits. auto.
Qed.
(** what makes a request crash *)
Lemma relative_panic o m ud c rest : visits_all (e_ord e) -> In o l -> table_of (doc_index d) (o_kind o) (o_body o) = Some m -> alookup (o_name o) m = Some ud ->
  c = ch "+" \/ c = ch "-" -> relative_rename e d o c rest = Panic ->
  e_pf e = Debug /\ exists z, asks_shift (c :: rest) z /\ (~ fits_i64 z \/ exists x n, In x l /\ has_number (o_name x) n /\ ~ fits_i64 (Z.of_N n + z)).
Proof.
  intros Hord Ho Hm Hud Hc E. unfold relative_rename in E. destruct (parse_i64 rest) as [nr|] eqn:Ep; [|discriminate]. apply parse_i64_iff in Ep.
  set (z := if (c =? ch "-")%N then (- nr)%Z else nr). assert (asks_shift (c :: rest) z) as Hz.
  { exists rest, nr. split; [exact Ep|]. unfold z. destruct Hc as [-> | ->]; [left|right]; split; reflexivity. }
  replace ((if (c =? ch "-")%N then (-1)%Z else 1%Z)) with ((if (c =? ch "-")%N then (-1)%Z else 1%Z)) in E by reflexivity.
  unfold i64_mul, i64_result in E. replace ((if (c =? ch "-")%N then (-1)%Z else 1%Z) * nr)%Z with z in E by (unfold z; destruct (c =? ch "-")%N; lia).
  destruct (in_i64 z) eqn:Ez.
  2:{ destruct (e_pf e) eqn:Epf; [split; [reflexivity|]; exists z; split; [exact Hz|]; left; intros H; apply in_i64_iff in H; congruence|].
      exfalso. cbn [rbind] in E. pose proof (occ_ascii _ Ho) as Ha. destruct (extract_cases (e_u e) _ Ha) as [(p & ds & v & G1 & G2 & E')|[_ E']]; rewrite E' in E; cbn [rbind] in E; [|discriminate].
      unfold get_shift_edits in E. destruct (table_get _ _ _ _ Hm) as (fb & E1 & E2). rewrite E1 in E. cbn [rbind] in E. rewrite E2 in E. cbn [rbind] in E.
      assert (forall ents, (forall x, In x ents -> ascii_text (fst x) = true) -> rflat_map (shift_entry (e_u e) Release (doc_rope d) (Z.of_N v) (wrap_i64 z)) ents <> Panic) as G.
      { induction ents as [|[n' ud'] ents IH]; intros HH; [discriminate|]. cbn [rflat_map]. unfold shift_entry at 1. cbn [fst snd].
        destruct (extract_cases (e_u e) n' (HH _ (or_introl eq_refl))) as [(p' & ds' & v' & G1' & G2' & E'')|[_ E'']]; rewrite E''; cbn [rbind].
        - specialize (IH (fun x Hx => HH x (or_intror Hx))). destruct (rflat_map _ ents) as [r|]; [|congruence].
          destruct (Z.of_N v' <? Z.of_N v)%Z; cbn [rbind]; [discriminate|]. unfold i64_add, i64_result. destruct (in_i64 (Z.of_N v' + wrap_i64 z)); cbn [rbind]; discriminate.
        - specialize (IH (fun x Hx => HH x (or_intror Hx))). destruct (rflat_map _ ents) as [r|]; cbn [rbind]; [discriminate|congruence]. }
      specialize (G (e_ord e m)). destruct (rflat_map _ (e_ord e m)) as [r|]; [discriminate|]. apply G; [|reflexivity].
      intros [n' ud'] Hx. eapply Permutation_in in Hx; [|apply Hord]. apply (in_alookup _ _ _ (table_keys _ _ _ Hm)) in Hx. destruct (entry_has_occ _ _ _ _ _ Hm Hx) as (y & Y1 & _ & _ & Y4).
      cbn [fst]. rewrite <- Y4. apply occ_ascii. exact Y1. }
  cbn [rbind] in E. pose proof (occ_ascii _ Ho) as Ha. destruct (extract_cases (e_u e) _ Ha) as [(p & ds & v & G1 & G2 & E')|[_ E']]; rewrite E' in E; cbn [rbind] in E; [|discriminate].
  unfold get_shift_edits in E. destruct (table_get _ _ _ _ Hm) as (fb & E1 & E2). rewrite E1 in E. cbn [rbind] in E. rewrite E2 in E. cbn [rbind] in E.
  assert (forall ents, (forall x, In x ents -> In x m) -> rflat_map (shift_entry (e_u e) (e_pf e) (doc_rope d) (Z.of_N v) z) ents = Panic ->
    e_pf e = Debug /\ exists x n, In x l /\ has_number (o_name x) n /\ ~ fits_i64 (Z.of_N n + z)) as G.
  { induction ents as [|[n' ud'] ents IH]; intros HH EE; [discriminate|]. cbn [rflat_map] in EE. unfold shift_entry in EE at 1. cbn [fst snd] in EE.
    pose proof (HH _ (or_introl eq_refl)) as Hx. apply (in_alookup _ _ _ (table_keys _ _ _ Hm)) in Hx. destruct (entry_has_occ _ _ _ _ _ Hm Hx) as (y & Y1 & _ & _ & Y4).
    pose proof (occ_ascii _ Y1) as Ha'. specialize (IH (fun x Hx => HH x (or_intror Hx))).
    rewrite Y4 in Ha'. destruct (extract_cases (e_u e) n' Ha') as [(p' & ds' & v' & G1' & G2' & E'')|[_ E'']]; rewrite E'' in EE; cbn [rbind] in EE.
    - destruct (Z.of_N v' <? Z.of_N v)%Z; [cbn [rbind] in EE; destruct (rflat_map _ ents); [discriminate|apply IH; reflexivity]|].
      unfold i64_add, i64_result in EE. destruct (in_i64 (Z.of_N v' + z)) eqn:Ei.
      + cbn [rbind] in EE. destruct (rflat_map _ ents); [discriminate|apply IH; reflexivity].
      + destruct (e_pf e) eqn:Epf; [|cbn [rbind] in EE; destruct (rflat_map _ ents); [discriminate|apply IH; reflexivity]].
        split; [reflexivity|]. exists y, v'. split; [exact Y1|]. split; [rewrite Y4; exists p', ds'; auto|]. intros H. apply in_i64_iff in H. congruence.
    - destruct (rflat_map _ ents); [discriminate|apply IH; reflexivity]. }
  destruct (rflat_map _ (e_ord e m)) as [r|] eqn:Er; [discriminate|]. apply G in Er as [Er1 Er2]; [|intros x Hx; eapply Permutation_in; [apply Hord|exact Hx]].
  split; [exact Er1|]. exists z. split; [exact Hz|]. right. exact Er2.
Qed.
Lemma symbol_at_listed pos o : symbol_at d pos = Some o -> In o l /\ exists m ud, table_of (doc_index d) (o_kind o) (o_body o) = Some m /\ alookup (o_name o) m = Some ud.
Proof.
  unfold symbol_at. destruct (lsp_pos_to_offset (doc_rope d) pos) as [q|]; [|discriminate]. cbn [obind]. intros E. apply (lookup_some _ _ _ _ _ _ Hix) in E as [Ho _].
  destruct (indexed_ok _ _ _ _ Hix) as (_ & Hi & _). split; [apply (listed_recorded _ _ _ Hi); exact Ho|]. destruct Ho as (m & x & Hm & Hx & _). eauto.
Qed.
End Document.

(** ** Signs *)
Lemma alnum_sign u c : c = ch "+" \/ c = ch "-" -> ~ name_char u c.
Proof. intros [-> | ->] [H|[H|H]]; try discriminate; vm_compute in H; discriminate. Qed.
Lemma accepted_unsigned u k new final : accepted u k new final -> ~ signed new.
Proof.
  intros (c & b & Hw & _ & Hc & _) (r & Hr). assert (exists x, new = x :: r /\ (x = ch "+" \/ x = ch "-")) as (x & -> & Hx) by (destruct Hr as [-> | ->]; eauto).
  inversion Hc as [|? ? Hc1 _]; subst. destruct Hw as [H|[H _]].
  - destruct k; cbn [sigil app] in H; inversion H; subst; try (destruct Hx as [Hx|Hx]; discriminate). eapply alnum_sign; eassumption.
  - inversion H; subst. eapply alnum_sign; eassumption.
Qed.
Lemma unsigned_absolute e d o new : ~ signed new ->
  match new with c :: rest => if (c =? ch "+")%N || (c =? ch "-")%N then relative_rename e d o c rest else absolute_rename e d o new | [] => absolute_rename e d o new end =
  absolute_rename e d o new.
Proof.
  intros Hs. destruct new as [|c r]; [reflexivity|]. destruct (N.eqb_spec c (ch "+")) as [->|H1]; [exfalso; apply Hs; exists r; auto|].
  destruct (N.eqb_spec c (ch "-")) as [->|H2]; [exfalso; apply Hs; exists r; auto|]. reflexivity.
Qed.
Lemma absolute_accepted e d o new edits : absolute_rename e d o new = Val (Reply edits) -> exists final, accepted (e_u e) (o_kind o) new final.
Proof.
  unfold absolute_rename. destruct (check_cases (e_u e) (o_kind o) new) as [(f & Hf & E)|(Hno & [[m E]|[E _]])]; rewrite E; cbn [rbind]; intros H; [eauto|discriminate|discriminate].
Qed.

(** ** All requests *)
Lemma rename_plain e s uri src d p : plain_document src -> opened e s uri src d -> p <= length src ->
  exists pr, parse_from_str (e_u e) src = Val pr /\ pr_stmts pr = doc_stmts d /\
  (((forall o, In o (recorded (pr_stmts pr) (pr_tokens pr)) -> ~ covers (o_span o) p) /\
    forall new, exists m, rename e s uri (lsp_position src p) new = Val (RpcError m)) \/
   exists o, In o (recorded (pr_stmts pr) (pr_tokens pr)) /\ covers (o_span o) p /\ forall new, ~ signed new ->
     (forall final, accepted (e_u e) (o_kind o) new final -> exists edits, rename e s uri (lsp_position src p) new = Val (Reply edits) /\
        replaces src (renamed o final) (recorded (pr_stmts pr) (pr_tokens pr)) edits) /\
     (forall edits, rename e s uri (lsp_position src p) new = Val (Reply edits) -> exists final, accepted (e_u e) (o_kind o) new final)).
Proof.
  intros Hsrc Ho Hp. apply opened_indexed in Ho as (pr & Hix & Hrope & Hst & Hg). exists pr. split; [apply Hix|]. split; [symmetry; exact Hst|].
  unfold rename. rewrite Hg. destruct (symbol_at_cases e src d pr Hix Hrope Hsrc p Hp) as [[E H]|(o & m & ud & E & Ho & Hc & Hm & Hud)]; rewrite E.
  - left. split; [exact H|]. intros new. eauto.
  - right. exists o. split; [exact Ho|]. split; [exact Hc|]. intros new Hns. rewrite unsigned_absolute by exact Hns. split.
    + intros final Hf. eapply absolute_ok; eassumption.
    + intros edits HE. eapply absolute_accepted. exact HE.
Qed.
Lemma accepted_plain e s uri src d p : plain_document src -> opened e s uri src d -> p <= length src ->
  exists pr, parse_from_str (e_u e) src = Val pr /\ pr_stmts pr = doc_stmts d /\
  (((forall o, In o (recorded (pr_stmts pr) (pr_tokens pr)) -> ~ covers (o_span o) p) /\
    forall new, exists m, rename e s uri (lsp_position src p) new = Val (RpcError m)) \/
   exists o, In o (recorded (pr_stmts pr) (pr_tokens pr)) /\ covers (o_span o) p /\
     (forall new final, accepted (e_u e) (o_kind o) new final -> exists edits, rename e s uri (lsp_position src p) new = Val (Reply edits) /\
        replaces src (renamed o final) (recorded (pr_stmts pr) (pr_tokens pr)) edits) /\
     (forall new edits, ~ signed new -> rename e s uri (lsp_position src p) new = Val (Reply edits) -> exists final, accepted (e_u e) (o_kind o) new final)).
Proof.
  intros H1 H2 H3. destruct (rename_plain e s uri src d p H1 H2 H3) as (pr & G1 & G2 & [G|(o & Ho & Hc & G)]); exists pr; split; [exact G1| |exact G1|]; (split; [exact G2|]); [left; exact G|].
  right. exists o. split; [exact Ho|]. split; [exact Hc|]. split.
  - intros new final Hf. apply (proj1 (G new (accepted_unsigned _ _ _ _ Hf)) final Hf).
  - intros new edits Hns HE. exact (proj2 (G new Hns) edits HE).
Qed.
Lemma asks_signed new z : asks_shift new z -> exists c r n, new = c :: r /\ (c = ch "+" \/ c = ch "-") /\ is_i64 r n /\ z = if (c =? ch "-")%N then (- n)%Z else n.
Proof. intros (r & n & Hn & [[-> ->]|[-> ->]]); [exists (ch "+"), r, n|exists (ch "-"), r, n]; auto. Qed.
Lemma relative_reply e src d pr o m ud c rest edits : indexed (e_u e) src pr (doc_index d) -> doc_rope d = src -> plain_document src ->
  In o (recorded (pr_stmts pr) (pr_tokens pr)) -> table_of (doc_index d) (o_kind o) (o_body o) = Some m -> alookup (o_name o) m = Some ud ->
  c = ch "+" \/ c = ch "-" -> relative_rename e d o c rest = Val (Reply edits) -> exists z n, asks_shift (c :: rest) z /\ has_number (o_name o) n.
Proof.
  intros Hix Hrope Hsrc Ho Hm Hud Hc E. unfold relative_rename in E. destruct (parse_i64 rest) as [nr|] eqn:Ep; [|discriminate]. apply parse_i64_iff in Ep.
  assert (exists z, asks_shift (c :: rest) z) as [z Hz]. { destruct Hc as [-> | ->]; [exists nr|exists (- nr)%Z]; exists rest, nr; auto. }
  destruct (i64_mul _ _ _) as [sh|]; [|discriminate]. cbn [rbind] in E. pose proof (occ_ascii e src d pr Hix Hsrc o Ho) as Ha.
  destruct (extract_cases (e_u e) _ Ha) as [(p & ds & v & G1 & G2 & E')|[_ E']]; rewrite E' in E; cbn [rbind] in E; [|discriminate].
  exists z, v. split; [exact Hz|]. exists p, ds. auto.
Qed.
Lemma shift_plain e s uri src d p : plain_document src -> visits_all (e_ord e) -> opened e s uri src d -> p <= length src ->
  exists pr, parse_from_str (e_u e) src = Val pr /\ pr_stmts pr = doc_stmts d /\
  ((forall o, In o (recorded (pr_stmts pr) (pr_tokens pr)) -> ~ covers (o_span o) p) \/
   exists o, In o (recorded (pr_stmts pr) (pr_tokens pr)) /\ covers (o_span o) p /\
     (forall new z n, asks_shift new z -> has_number (o_name o) n -> no_overflow (recorded (pr_stmts pr) (pr_tokens pr)) o n z ->
        exists edits, rename e s uri (lsp_position src p) new = Val (Reply edits) /\
          replaces src (moved o n z) (recorded (pr_stmts pr) (pr_tokens pr)) edits) /\
     (forall new edits, signed new -> rename e s uri (lsp_position src p) new = Val (Reply edits) -> exists z n, asks_shift new z /\ has_number (o_name o) n)).
Proof.
  intros Hsrc Hord Ho Hp. apply opened_indexed in Ho as (pr & Hix & Hrope & Hst & Hg). exists pr. split; [apply Hix|]. split; [symmetry; exact Hst|].
  unfold rename. rewrite Hg. destruct (symbol_at_cases e src d pr Hix Hrope Hsrc p Hp) as [[E H]|(o & m & ud & E & Ho & Hc & Hm & Hud)]; rewrite E; [left; exact H|].
  right. exists o. split; [exact Ho|]. split; [exact Hc|]. split.
  - intros new z n Hz Hn Hov. apply asks_signed in Hz as (c & r & nr & -> & Hcs & Hnr & ->).
    replace ((c =? ch "+")%N || (c =? ch "-")%N) with true by (symmetry; destruct Hcs as [-> | ->]; reflexivity).
    eapply relative_ok; eassumption.
  - intros new edits (r & Hr) HE. assert (exists c, new = c :: r /\ (c = ch "+" \/ c = ch "-")) as (c & -> & Hcs) by (destruct Hr as [-> | ->]; eauto).
    replace ((c =? ch "+")%N || (c =? ch "-")%N) with true in HE by (symmetry; destruct Hcs as [-> | ->]; reflexivity).
    eapply relative_reply; eassumption.
Qed.
Lemma rename_panics e s uri src d pos new : plain_document src -> visits_all (e_ord e) -> opened e s uri src d -> rename e s uri pos new = Panic ->
  (exists k, without_sigil k new []) \/
  (e_pf e = Debug /\ exists pr z, parse_from_str (e_u e) src = Val pr /\ asks_shift new z /\
    (~ fits_i64 z \/ exists x n, In x (recorded (pr_stmts pr) (pr_tokens pr)) /\ has_number (o_name x) n /\ ~ fits_i64 (Z.of_N n + z))).
Proof.
  intros Hsrc Hord Ho HP. apply opened_indexed in Ho as (pr & Hix & Hrope & Hst & Hg). unfold rename in HP. rewrite Hg in HP.
  destruct (symbol_at d pos) as [o|] eqn:E; [|discriminate]. destruct (symbol_at_listed e src d pr Hix pos o E) as (Hol & m & ud & Hm & Hud).
  assert (Habs : absolute_rename e d o new = Panic -> exists k, without_sigil k new []).
  { unfold absolute_rename. destruct (check_cases (e_u e) (o_kind o) new) as [(f & Hf & Ec)|(Hno & [[m' Ec]|[Ec Hw]])]; rewrite Ec; cbn [rbind]; [|discriminate|eauto].
    rewrite (table_use_defs _ _ _ Hm), Hud. discriminate. }
  destruct new as [|c r]; [left; exact (Habs HP)|]. destruct (N.eqb_spec c (ch "+")) as [Ec|H1]; [|destruct (N.eqb_spec c (ch "-")) as [Ec|H2]]; cbn [orb] in HP; [| |left; exact (Habs HP)].
  all: right; assert (c = ch "+" \/ c = ch "-") as Hc by auto;
    destruct (relative_panic e src d pr Hix Hsrc o m ud c r Hord Hol Hm Hud Hc HP) as (Hpf & z & Hz & G); (split; [exact Hpf|]); exists pr, z; (split; [apply Hix|]); auto.
Qed.

(** ** Different names stay different *)
Lemma moves_numbered n0 z a a' : moves n0 z a a' -> exists p ds n ds', numbered a p ds n /\ (n <= max_i64)%N /\ (n0 <= n)%N /\ numbered a' p ds' (Z.abs_N (Z.of_N n + z)) /\
  canonical_decimal (Z.abs_N (Z.of_N n + z)) ds'.
Proof.
  intros (p & ds & n & ds' & H1 & H2 & H3 & H4 & ->). exists p, ds, n, ds'. split; [exact H1|]. split; [exact H2|]. split; [exact H3|]. split; [|exact H4].
  destruct H1 as (_ & _ & _ & _ & H5). destruct H4 as (K1 & K2 & K3 & _). split; [reflexivity|]. auto.
Qed.
Lemma moved_apart n0 z a b c : no_leading_zeros a -> no_leading_zeros b ->
  (forall n, has_number a n -> (n0 <= n)%N -> (0 <= Z.of_N n + z)%Z) -> (forall n, has_number b n -> (n0 <= n)%N -> (0 <= Z.of_N n + z)%Z) ->
  moves n0 z a c -> moves n0 z b c -> a = b.
Proof.
  intros La Lb Pa Pb Ha Hb. apply moves_numbered in Ha as (p & ds & n & ds' & A1 & A2 & A3 & A4 & _). apply moves_numbered in Hb as (q & es & m & es' & B1 & B2 & B3 & B4 & _).
  destruct (numbered_unique _ _ _ _ _ _ _ A4 B4) as (-> & _ & E).
  assert (0 <= Z.of_N n + z)%Z by (apply Pa; [exists q, ds; auto|exact A3]). assert (0 <= Z.of_N m + z)%Z by (apply Pb; [exists q, es; auto|exact B3]).
  assert (n = m) as -> by lia. pose proof (La _ _ _ A1) as Ca. pose proof (Lb _ _ _ B1) as Cb. pose proof (canonical_unique _ _ _ Ca Cb). subst.
  rewrite (proj1 A1), (proj1 B1). reflexivity.
Qed.
Lemma shifted_up_apart n0 z a b c : (0 <= z)%Z -> no_leading_zeros a -> no_leading_zeros b ->
  (forall n, has_number a n -> fits_i64 (Z.of_N n + z)) -> (forall n, has_number b n -> fits_i64 (Z.of_N n + z)) ->
  moves_or_stays n0 z a c -> moves_or_stays n0 z b c -> a = b.
Proof.
  intros Hz La Lb Fa Fb.
  assert (Hmix : forall x y, (forall n, has_number x n -> fits_i64 (Z.of_N n + z)) -> moves n0 z x c -> (forall n, has_number y n -> (n < n0)%N) -> c = y -> False).
  { intros x y Fx Hm Hs ->. apply moves_numbered in Hm as (p & ds & n & ds' & A1 & A2 & A3 & A4 & _).
    assert (fits_i64 (Z.of_N n + z)) as Hf by (apply Fx; exists p, ds; auto). unfold fits_i64 in Hf.
    assert (Z.abs_N (Z.of_N n + z) < n0)%N; [|lia]. apply Hs. exists p, ds'. split; [exact A4|]. unfold max_i64. lia. }
  intros [Ha|[Ha Ea]] [Hb|[Hb Eb]].
  - eapply moved_apart; [exact La|exact Lb| | |exact Ha|exact Hb]; intros; lia.
  - exfalso. eapply (Hmix a b); eassumption.
  - exfalso. eapply (Hmix b a); eassumption.
  - congruence.
Qed.
Lemma others_stay src o n z l edits ed : replaces src (moved o n z) l edits -> In ed edits -> exists x n', In x l /\ in_scope o x /\ has_number (o_name x) n' /\ (n <= n')%N /\ te_range ed = lsp_range src (o_span x).
Proof.
  intros (H & _) Hed. apply H in Hed as (x & y & Hx & [Hs (p & ds & n' & ds' & A1 & A2 & A3 & _)] & ->). exists x, n'. split; [exact Hx|]. split; [exact Hs|]. split; [exists p, ds; auto|]. auto.
Qed.
