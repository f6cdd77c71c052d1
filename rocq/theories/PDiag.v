(** Proofs about src/diagnostics.rs. *)
From Verif Require Import Text Rope Chumsky Tokenizer Parser Numbers Index SemTok Diag Rename Cfg Backtrace Server SpecText SpecLex SpecParse SpecIndex SpecDiag
  PText PRope PSemTok PParseProps PIndex PIndexDoc PIndexText.

(** ** Lists *)
Lemma flat_map_split {A B} (f g : A -> list B) l : Permutation (flat_map (fun a => f a ++ g a) l) (flat_map f l ++ flat_map g l).
Proof.
  induction l as [|a l IH]; cbn; [constructor|]. rewrite IH. rewrite <- !app_assoc. apply Permutation_app_head.
  rewrite !app_assoc. apply Permutation_app_tail. apply Permutation_app_comm.
Qed.
Lemma nodup_flat_map {A B C} (key : A -> C) (kb : B -> C) f l : NoDup (map key l) -> (forall x, In x l -> NoDup (f x)) ->
  (forall x y, In x l -> In y (f x) -> kb y = key x) -> NoDup (flat_map f l).
Proof.
  induction l as [|a l IH]; cbn; intros Hn Hd Hk; [constructor|]. inversion Hn; subst. apply nodup_app.
  - apply Hd. left. reflexivity.
  - apply IH; [assumption|intros; apply Hd; right; assumption|intros; apply Hk; [right|]; assumption].
  - intros y Hy Hin. apply in_flat_map in Hin as (x & Hx & Hin). apply H1.
    rewrite <- (Hk a y (or_introl eq_refl) Hy), (Hk x y (or_intror Hx) Hin). apply in_map. exact Hx.
Qed.
Lemma nodup_map_injective {A B} (f : A -> B) l : (forall a b, In a l -> In b l -> f a = f b -> a = b) -> NoDup l -> NoDup (map f l).
Proof.
  induction l as [|a l IH]; cbn; intros Hi Hn; [constructor|]. inversion Hn; subst. constructor.
  - intros Hin. apply in_map_iff in Hin as (b & E & Hb). apply Hi in E; [subst; contradiction|right; exact Hb|left; reflexivity].
  - apply IH; [intros; apply Hi; auto|assumption].
Qed.
Lemma filter_map_all {A B} (f : A -> option B) (g : A -> B) l : (forall a, In a l -> f a = Some (g a)) -> filter_map f l = map g l.
Proof.
  induction l as [|a l IH]; cbn; intros H; [reflexivity|]. rewrite (H a (or_introl eq_refl)). f_equal. apply IH. intros b Hb. apply H. right. exact Hb.
Qed.
Lemma flat_map_ext_in {A B} (f g : A -> list B) l : (forall a, In a l -> f a = g a) -> flat_map f l = flat_map g l.
Proof. induction l as [|a l IH]; cbn; intros H; [reflexivity|]. rewrite (H a (or_introl eq_refl)), IH; [reflexivity|]. intros; apply H; right; assumption. Qed.
Lemma same_symbolb_spec a b : same_symbolb a b = true <-> same_symbol a b.
Proof.
  unfold same_symbolb, same_symbol. rewrite !andb_true_iff.
  destruct (kind_dec (o_kind a) (o_kind b)), (body_dec (o_body a) (o_body b)), (text_eqb_spec (o_name a) (o_name b)); intuition congruence.
Qed.

(** ** Ranges *)
Lemma plain_range src sp : plain_document src -> sp_start sp <= sp_end sp -> sp_end sp <= length src ->
  range_to_lsp src sp = Some (lsp_range src sp).
Proof.
  intros (Ha & Hp & Hs) H1 H2. unfold range_to_lsp. rewrite !positions_are_lsp_ascii by (assumption || lia). reflexivity.
Qed.

(** ** All symbols of an index with their lists *)
Definition sym := (symbol_kind * option nat * (text * use_def_list))%type.
Definition sym_key (x : sym) : symbol_kind * option nat * text := (fst x, fst (snd x)).
Definition occ_key (o : occurrence) : symbol_kind * option nat * text := (o_kind o, o_body o, o_name o).
Fixpoint body_syms (f : function_body -> list (text * use_def_list)) (k : symbol_kind) (i : nat) (bs : list function_body) : list sym :=
  match bs with
  | [] => []
  | b :: r => map (pair (k, Some i)) (f b) ++ body_syms f k (S i) r
  end.
Definition all_syms (ord : map_order) (ix : hir_index) : list sym :=
  map (pair (KGlobalVar, None)) (ord (global_vars ix)) ++ map (pair (KFunction, None)) (ord (functions ix)) ++
  map (pair (KDbgAnnotation, None)) (ord (dgb_annotations ix)) ++
  body_syms (fun b => ord (labels b)) KLabel 0 (function_bodies ix) ++
  body_syms (fun b => ord (local_vars b)) KLocalVar 0 (function_bodies ix).

Lemma body_syms_snd f k bs : forall i, map snd (body_syms f k i bs) = flat_map f bs.
Proof. induction bs as [|b r IH]; intros i; cbn; [reflexivity|]. rewrite map_app, map_map, IH. cbn. rewrite map_id. reflexivity. Qed.
Lemma all_syms_snd ord ix : map snd (all_syms ord ix) = all_use_defs ord ix.
Proof. unfold all_syms, all_use_defs. rewrite !map_app, !map_map, !body_syms_snd. cbn. rewrite !map_id. reflexivity. Qed.
Lemma body_syms_in f k bs : forall i x, In x (body_syms f k i bs) <->
  exists j b e, nth_error bs j = Some b /\ In e (f b) /\ x = (k, Some (i + j), e).
Proof.
  induction bs as [|b r IH]; intros i x; cbn.
  - split; [contradiction|]. intros ([|j] & b & e & H & _); discriminate.
  - rewrite in_app_iff, in_map_iff, IH. split.
    + intros [(e & <- & He)|(j & b' & e & H1 & H2 & ->)].
      * exists 0, b, e. rewrite Nat.add_0_r. auto.
      * exists (S j), b', e. replace (i + S j) with (S i + j) by lia. auto.
    + intros ([|j] & b' & e & H1 & H2 & ->); cbn in H1.
      * injection H1 as <-. left. exists e. rewrite Nat.add_0_r. auto.
      * right. exists j, b', e. replace (i + S j) with (S i + j) by lia. auto.
Qed.
Lemma all_syms_in ord ix k b e : visits_all ord ->
  In (k, b, e) (all_syms ord ix) <-> exists m, table_of ix k b = Some m /\ In e m.
Proof.
  intros Ho. unfold all_syms. rewrite !in_app_iff, !in_map_iff, !body_syms_in. unfold table_of.
  assert (Hp : forall m x, In x (ord m) <-> In x m) by (intros m x; split; apply Permutation_in; [|apply Permutation_sym]; apply Ho).
  split.
  - intros [(x & E & H)|[(x & E & H)|[(x & E & H)|[(j & fb & x & H1 & H & E)|(j & fb & x & H1 & H & E)]]]];
      (injection E as <- <- <- || injection E as -> -> ->); apply (proj1 (Hp _ _)) in H; cbn [Nat.add]; [| | |rewrite H1|rewrite H1]; eexists; (split; [reflexivity|exact H]).
  - intros (m & E & H). destruct k, b as [id|]; try discriminate.
    + injection E as <-. left. exists e. split; [reflexivity|]. apply Hp. exact H.
    + injection E as <-. right. left. exists e. split; [reflexivity|]. apply Hp. exact H.
    + injection E as <-. right. right. left. exists e. split; [reflexivity|]. apply Hp. exact H.
    + right. right. right. left. destruct (nth_error (function_bodies ix) id) as [fb|] eqn:En; [|discriminate]. injection E as <-.
      exists id, fb, e. split; [exact En|]. split; [apply Hp; exact H|reflexivity].
    + right. right. right. right. destruct (nth_error (function_bodies ix) id) as [fb|] eqn:En; [|discriminate]. injection E as <-.
      exists id, fb, e. split; [exact En|]. split; [apply Hp; exact H|reflexivity].
Qed.
Lemma nodup_ord {X} (m m' : amap X) : Permutation m' m -> NoDup (map fst m) -> NoDup (map fst m').
Proof. intros Hp. apply Permutation_NoDup. apply Permutation_map. apply Permutation_sym. exact Hp. Qed.
Lemma map_key_nodup (k : symbol_kind) (b : option nat) (l : list (text * use_def_list)) : NoDup (map fst l) ->
  NoDup (map sym_key (map (pair (k, b)) l)).
Proof.
  intros H. rewrite map_map. cbn. induction l as [|x l IH]; cbn in *; [constructor|]. inversion H; subst. constructor; [|auto].
  intros Hin. apply in_map_iff in Hin as (y & E & Hy). apply H2. injection E as E. rewrite <- E. apply in_map. exact Hy.
Qed.
Lemma body_syms_nodup f k bs : (forall b, In b bs -> NoDup (map fst (f b))) -> forall i, NoDup (map sym_key (body_syms f k i bs)).
Proof.
  induction bs as [|b r IH]; intros H i; cbn; [constructor|]. rewrite map_app. apply nodup_app.
  - apply map_key_nodup. apply H. left. reflexivity.
  - apply IH. intros; apply H; right; assumption.
  - intros x Hx Hy. apply in_map_iff in Hx as (s & <- & Hs). apply in_map_iff in Hs as (e & <- & He).
    apply in_map_iff in Hy as (s' & E & Hs'). apply body_syms_in in Hs' as (j & b' & e' & _ & _ & ->). injection E as E _. lia.
Qed.
Lemma all_syms_nodup ord ix l : visits_all ord -> index_is ix l -> NoDup (map sym_key (all_syms ord ix)).
Proof.
  intros Ho [I1 I2 I3 I4 I5 I6]. unfold all_syms. rewrite !map_app.
  assert (Hk : forall k b (m : list (text * use_def_list)) x, In x (map sym_key (map (pair (k, b)) m)) -> fst (fst x) = k).
  { intros k b m x Hx. apply in_map_iff in Hx as (s & <- & Hs). apply in_map_iff in Hs as (e & <- & He). reflexivity. }
  assert (Hb : forall f k bs i x, In x (map sym_key (body_syms f k i bs)) -> fst (fst x) = k).
  { intros f k bs i x Hx. apply in_map_iff in Hx as (s & <- & Hs). apply body_syms_in in Hs as (j & b' & e' & _ & _ & ->). reflexivity. }
  assert (Hnd : forall b, In b (function_bodies ix) -> NoDup (map fst (labels b)) /\ NoDup (map fst (local_vars b))).
  { intros b Hin. apply In_nth_error in Hin as (i & Hi). destruct (I5 _ _ Hi) as [[A _] [B _]]. auto. }
  apply nodup_app; [apply map_key_nodup; eapply nodup_ord; [apply Ho|apply I1]| |].
  2:{ intros x Hx Hy. apply Hk in Hx. rewrite !in_app_iff in Hy. destruct Hy as [Hy|[Hy|[Hy|Hy]]]; (apply Hk in Hy || apply Hb in Hy); congruence. }
  apply nodup_app; [apply map_key_nodup; eapply nodup_ord; [apply Ho|apply I2]| |].
  2:{ intros x Hx Hy. apply Hk in Hx. rewrite !in_app_iff in Hy. destruct Hy as [Hy|[Hy|Hy]]; (apply Hk in Hy || apply Hb in Hy); congruence. }
  apply nodup_app; [apply map_key_nodup; eapply nodup_ord; [apply Ho|apply I3]| |].
  2:{ intros x Hx Hy. apply Hk in Hx. rewrite !in_app_iff in Hy. destruct Hy as [Hy|Hy]; apply Hb in Hy; congruence. }
  apply nodup_app; [apply body_syms_nodup; intros b Hin; eapply nodup_ord; [apply Ho|apply (Hnd b Hin)]| |].
  2:{ intros x Hx Hy. apply Hb in Hx, Hy. congruence. }
  apply body_syms_nodup. intros b Hin. eapply nodup_ord; [apply Ho|apply (Hnd b Hin)].
Qed.

(** ** The diagnostics of one symbol *)
Definition sym_undefined (x : sym) : list occurrence :=
  match decls (snd (snd x)), defs (snd (snd x)) with
  | [], [] => map (fun sp => mkOcc sp Use (fst (fst x)) (fst (snd x)) (snd (fst x))) (uses (snd (snd x)))
  | _, _ => []
  end.
Definition sym_redefs (x : sym) : list (occurrence * occurrence) :=
  match defs (snd (snd x)) with
  | d :: ds => map (fun sp => (mkOcc sp Def (fst (fst x)) (fst (snd x)) (snd (fst x)),
                               mkOcc d Def (fst (fst x)) (fst (snd x)) (snd (fst x)))) ds
  | [] => []
  end.
Lemma symbol_diagnostics src uri x :
  (forall ud sp, In sp (get_use_def_kind (snd (snd x)) ud) -> range_to_lsp src sp = Some (lsp_range src sp)) ->
  diagnostics_of_symbol src uri (snd x) =
  map (undefined_diagnostic src) (sym_undefined x) ++ map (redefinition_diagnostic src uri) (sym_redefs x).
Proof.
  intros Hr. destruct x as [[k b] [n e]]. cbn [snd fst] in *. unfold diagnostics_of_symbol, sym_undefined, sym_redefs. cbn [snd fst].
  pose proof (Hr Def) as Hd. pose proof (Hr Use) as Hu. cbn [get_use_def_kind] in Hd, Hu.
  destruct (decls e) as [|a l], (defs e) as [|d ds]; cbn [map app]; try reflexivity.
  - rewrite app_nil_r, map_map. apply filter_map_all. intros sp Hsp. rewrite (Hu sp Hsp). reflexivity.
  - rewrite map_map. apply filter_map_all. intros sp Hsp. rewrite (Hd d (or_introl eq_refl)), (Hd sp (or_intror Hsp)). reflexivity.
  - rewrite map_map. apply filter_map_all. intros sp Hsp. rewrite (Hd d (or_introl eq_refl)), (Hd sp (or_intror Hsp)). reflexivity.
Qed.

Section Document.
Variables (ix : hir_index) (l : list occurrence) (ord : map_order).
Hypothesis Hord : visits_all ord.
Hypothesis Hi : index_is ix l.
Hypothesis Hnd : NoDup l.

Lemma table_ok k b m : table_of ix k b = Some m -> table_is m l k b.
Proof.
  destruct Hi as [I1 I2 I3 I4 I5 I6]. unfold table_of. intros Hm.
  destruct k, b as [id|]; try discriminate; try (injection Hm as <-; assumption);
    (destruct (nth_error (function_bodies ix) id) as [fb|] eqn:E; [|discriminate]; injection Hm as <-; apply (I5 _ _ E)).
Qed.
Lemma sym_lists k b n e : In (k, b, (n, e)) (all_syms ord ix) -> forall ud, get_use_def_kind e ud = spans_of l ud k b n.
Proof.
  intros H ud. apply (all_syms_in _ _ _ _ _ Hord) in H as (m & Hm & H). apply table_ok in Hm as [Hn Ht].
  apply (in_alookup _ _ _ Hn) in H. specialize (Ht n). rewrite H in Ht. destruct ud; cbn; tauto.
Qed.
Lemma sym_of o : In o l -> exists e, In (o_kind o, o_body o, (o_name o, e)) (all_syms ord ix).
Proof.
  intros H. apply (listed_recorded _ _ _ Hi) in H as (m & e & Hm & He & _). exists e. apply (all_syms_in _ _ _ _ _ Hord).
  exists m. split; [exact Hm|]. apply alookup_in. exact He.
Qed.
Lemma spans_of_nodup ud k b n : NoDup (spans_of l ud k b n).
Proof.
  unfold spans_of. apply nodup_map_injective; [|apply NoDup_filter; exact Hnd].
  intros x y Hx Hy E. apply filter_In in Hx as [_ Hx], Hy as [_ Hy]. apply entry_is_spec in Hx, Hy.
  destruct x, y. cbn in *. intuition congruence.
Qed.
Lemma in_span_occ o : In (o_span o) (spans_of l (o_ud o) (o_kind o) (o_body o) (o_name o)) <-> In o l.
Proof.
  rewrite in_spans_of. split.
  - intros (x & Hx & E1 & E2 & E3 & E4 & E5). assert (x = o) as <-; [destruct x, o; cbn in *; congruence|exact Hx].
  - intros H. exists o. auto 10.
Qed.

Lemma undefined_perm : Permutation (flat_map sym_undefined (all_syms ord ix)) (undefined_uses l).
Proof.
  apply NoDup_Permutation.
  - apply (nodup_flat_map sym_key occ_key).
    + eapply all_syms_nodup; eassumption.
    + intros [[k b] [n e]] Hx. unfold sym_undefined. cbn [fst snd].
      destruct (decls e); [|constructor]. destruct (defs e); [|constructor].
      apply nodup_map_injective; [intros ? ? _ _ E; congruence|]. change (uses e) with (get_use_def_kind e Use).
      rewrite (sym_lists _ _ _ _ Hx). apply spans_of_nodup.
    + intros [[k b] [n e]] y Hx Hy. unfold sym_undefined in Hy. cbn [fst snd] in *.
      destruct (decls e); [|contradiction]. destruct (defs e); [|contradiction]. apply in_map_iff in Hy as (sp & <- & _). reflexivity.
  - apply NoDup_filter. exact Hnd.
  - intros o. unfold undefined_uses. rewrite in_flat_map, filter_In, andb_true_iff, negb_true_iff. split.
    + intros ([[k b] [n e]] & Hx & Ho). unfold sym_undefined in Ho. cbn [fst snd] in Ho.
      pose proof (sym_lists _ _ _ _ Hx Decl) as Hdecl. pose proof (sym_lists _ _ _ _ Hx Def) as Hdef. pose proof (sym_lists _ _ _ _ Hx Use) as Huse.
      cbn in Hdecl, Hdef, Huse. destruct (decls e); [|contradiction]. destruct (defs e); [|contradiction].
      apply in_map_iff in Ho as (sp & <- & Hsp). rewrite Huse in Hsp.
      pose proof (proj1 (in_span_occ (mkOcc sp Use k n b)) Hsp) as Hin. split; [exact Hin|]. split; [reflexivity|].
      apply existsb_false. intros x Hxl. apply andb_false_iff. destruct (is_use x) eqn:Eu; [left; reflexivity|right].
      destruct (same_symbolb x _) eqn:Es; [|reflexivity]. exfalso. apply same_symbolb_spec in Es as (E1 & E2 & E3). cbn in E1, E2, E3.
      apply in_span_occ in Hxl. unfold is_use in Eu. rewrite E1, E2, E3 in Hxl. destruct (o_ud x); [rewrite <- Hdecl in Hxl|rewrite <- Hdef in Hxl|discriminate]; contradiction.
    + intros (Hin & Hu & Hno). destruct (sym_of o Hin) as (e & Hx). exists (o_kind o, o_body o, (o_name o, e)). split; [exact Hx|].
      pose proof (sym_lists _ _ _ _ Hx Decl) as Hdecl. pose proof (sym_lists _ _ _ _ Hx Def) as Hdef. pose proof (sym_lists _ _ _ _ Hx Use) as Huse.
      cbn in Hdecl, Hdef, Huse. unfold sym_undefined. cbn [fst snd].
      assert (He : forall ud, ud <> Use -> spans_of l ud (o_kind o) (o_body o) (o_name o) = []).
      { intros ud Hne. destruct (spans_of l ud _ _ _) as [|sp r] eqn:E; [reflexivity|]. exfalso.
        assert (In sp (spans_of l ud (o_kind o) (o_body o) (o_name o))) as Hsp by (rewrite E; left; reflexivity).
        apply in_spans_of in Hsp as (x & Hxl & E1 & E2 & E3 & E4 & E5). rewrite existsb_false in Hno. specialize (Hno x Hxl).
        apply andb_false_iff in Hno as [Hno|Hno].
        - apply negb_false_iff in Hno. unfold is_use in Hno. rewrite E2 in Hno. destruct ud; congruence.
        - assert (same_symbolb x o = true) by (apply same_symbolb_spec; repeat split; assumption). congruence. }
      rewrite Hdecl, Hdef, !He by discriminate. apply in_map_iff. exists (o_span o). unfold is_use in Hu.
      destruct (o_ud o) eqn:Eu; try discriminate. split; [destruct o; cbn in *; congruence|]. rewrite Huse, <- Eu. apply in_span_occ. exact Hin.
Qed.

Lemma find_filter {A} (f : A -> bool) (x : list A) : find f x = hd_error (filter f x).
Proof. induction x as [|a x IH]; cbn; [reflexivity|]. destruct (f a); [reflexivity|exact IH]. Qed.
Lemma find_def o : find (fun x => is_definition x && same_symbolb x o) l =
  option_map (fun sp => mkOcc sp Def (o_kind o) (o_name o) (o_body o)) (hd_error (spans_of l Def (o_kind o) (o_body o) (o_name o))).
Proof.
  rewrite find_filter. unfold spans_of. rewrite (filter_ext _ (entry_is Def (o_kind o) (o_body o) (o_name o))).
  - destruct (filter _ l) as [|x r] eqn:E; [reflexivity|]. cbn. f_equal.
    assert (In x (filter (entry_is Def (o_kind o) (o_body o) (o_name o)) l)) as Hx by (rewrite E; left; reflexivity).
    apply filter_In in Hx as [_ Hx]. apply entry_is_spec in Hx as (E1 & E2 & E3 & E4). destruct x. cbn in *. congruence.
  - intros x. apply eq_true_iff_eq. rewrite entry_is_spec, andb_true_iff, same_symbolb_spec. unfold is_definition, same_symbol.
    destruct (o_ud x); intuition congruence.
Qed.
Lemma span_eqb_spec a b : span_eqb a b = true <-> a = b.
Proof.
  unfold span_eqb. rewrite andb_true_iff, !Nat.eqb_eq. destruct a, b. cbn. split; [intros [-> ->]; reflexivity|]. intros E. injection E. auto.
Qed.
Lemma in_redefinitions o f : In (o, f) (redefinitions l) <->
  In o l /\ o_ud o = Def /\ exists d ds, spans_of l Def (o_kind o) (o_body o) (o_name o) = d :: ds /\
    f = mkOcc d Def (o_kind o) (o_name o) (o_body o) /\ In (o_span o) ds.
Proof.
  unfold redefinitions. rewrite in_flat_map. split.
  - intros (x & Hx & H). rewrite find_def in H.
    pose proof (spans_of_nodup Def (o_kind x) (o_body x) (o_name x)) as Hn.
    pose proof (proj2 (in_span_occ x) Hx) as Hin.
    destruct (spans_of l Def _ _ _) as [|d ds] eqn:E; cbn in H; [contradiction|].
    destruct (is_definition x) eqn:Ed; cbn in H; [|contradiction]. unfold is_definition in Ed. destruct (o_ud x) eqn:Eu; try discriminate.
    destruct (span_eqb d (o_span x)) eqn:Es; cbn in H; [contradiction|]. destruct H as [H|[]]. injection H as <- <-.
    split; [exact Hx|]. split; [exact Eu|]. exists d, ds. split; [exact E|]. split; [reflexivity|].
    rewrite E in Hin. destruct Hin as [Hin|Hin]; [|exact Hin]. apply span_eqb_spec in Hin. congruence.
  - intros (Hin & Eu & d & ds & E & -> & Hds). exists o. split; [exact Hin|]. rewrite find_def, E. cbn.
    unfold is_definition. rewrite Eu. cbn. destruct (span_eqb d (o_span o)) eqn:Es; [|left; reflexivity]. exfalso.
    apply span_eqb_spec in Es. pose proof (spans_of_nodup Def (o_kind o) (o_body o) (o_name o)) as Hn. rewrite E in Hn. inversion Hn; subst. contradiction.
Qed.
Lemma redefinitions_nodup : NoDup (redefinitions l).
Proof.
  unfold redefinitions. apply (nodup_flat_map (fun o => o) fst).
  - rewrite map_id. exact Hnd.
  - intros o _. destruct (find _ l); [|constructor]. destruct (_ && _); [|constructor]. constructor; [auto|constructor].
  - intros o y _ Hy. destruct (find _ l); [|contradiction]. destruct (_ && _); [|contradiction]. destruct Hy as [<-|[]]. reflexivity.
Qed.
Lemma redefs_perm : Permutation (flat_map sym_redefs (all_syms ord ix)) (redefinitions l).
Proof.
  apply NoDup_Permutation.
  - apply (nodup_flat_map sym_key (fun y => occ_key (fst y))).
    + eapply all_syms_nodup; eassumption.
    + intros [[k b] [n e]] Hx. unfold sym_redefs. cbn [fst snd]. pose proof (sym_lists _ _ _ _ Hx Def) as Hd. cbn in Hd.
      pose proof (spans_of_nodup Def k b n) as Hn. rewrite <- Hd in Hn. destruct (defs e) as [|d ds]; [constructor|]. inversion Hn; subst.
      apply nodup_map_injective; [intros ? ? _ _ E; congruence|assumption].
    + intros [[k b] [n e]] y Hx Hy. unfold sym_redefs in Hy. cbn [fst snd] in *. destruct (defs e); [contradiction|].
      apply in_map_iff in Hy as (sp & <- & _). reflexivity.
  - exact redefinitions_nodup.
  - intros [o f]. rewrite in_redefinitions, in_flat_map. split.
    + intros ([[k b] [n e]] & Hx & Ho). unfold sym_redefs in Ho. cbn [fst snd] in Ho.
      pose proof (sym_lists _ _ _ _ Hx Def) as Hdef. cbn in Hdef. destruct (defs e) as [|d ds]; [contradiction|].
      apply in_map_iff in Ho as (sp & E & Hsp). injection E as <- <-. cbn. split; [|split; [reflexivity|]].
      * apply in_span_occ. cbn. rewrite <- Hdef. right. exact Hsp.
      * exists d, ds. auto.
    + intros (Hin & Eu & d & ds & E & -> & Hds). destruct (sym_of o Hin) as (e & Hx). exists (o_kind o, o_body o, (o_name o, e)). split; [exact Hx|].
      pose proof (sym_lists _ _ _ _ Hx Def) as Hdef. cbn in Hdef. unfold sym_redefs. cbn [fst snd]. rewrite Hdef, E. apply in_map_iff.
      exists (o_span o). split; [|exact Hds]. destruct o; cbn in *; congruence.
Qed.

Lemma index_diagnostics src uri : (forall o, In o l -> range_to_lsp src (o_span o) = Some (lsp_range src (o_span o))) ->
  Permutation (diagnostics_from_index ord src uri ix)
    (map (undefined_diagnostic src) (undefined_uses l) ++ map (redefinition_diagnostic src uri) (redefinitions l)).
Proof.
  intros Hr. unfold diagnostics_from_index. rewrite <- all_syms_snd.
  assert (E : flat_map (diagnostics_of_symbol src uri) (map snd (all_syms ord ix)) =
     flat_map (fun x => map (undefined_diagnostic src) (sym_undefined x) ++ map (redefinition_diagnostic src uri) (sym_redefs x)) (all_syms ord ix)).
  { rewrite flat_map_concat_map, map_map, <- flat_map_concat_map. apply flat_map_ext_in. intros [[k b] [n e]] Hx. apply symbol_diagnostics.
    intros ud sp Hsp. cbn [snd] in Hsp. rewrite (sym_lists _ _ _ _ Hx) in Hsp. apply in_spans_of in Hsp as (o & Ho & <- & _). apply Hr. exact Ho. }
  rewrite E, flat_map_split, <- !map_flat_map. apply Permutation_app; apply Permutation_map; [exact undefined_perm|exact redefs_perm].
Qed.
End Document.
