(** The index holds exactly the recorded occurrences. *)
From Verif Require Import Text Chumsky Tokenizer Parser Numbers Index SpecParse SpecIndex.

(** ** Maps *)
Lemma text_eqb_refl x : text_eqb x x = true.
Proof. destruct (text_eqb_spec x x); congruence. Qed.
Lemma text_eqb_sym x y : text_eqb x y = text_eqb y x.
Proof. destruct (text_eqb_spec x y), (text_eqb_spec y x); congruence. Qed.
Lemma alookup_aupdate {X} n k (d : X) f m :
  alookup n (aupdate k d f m) =
  if text_eqb n k then Some (f (match alookup k m with Some x => x | None => d end)) else alookup n m.
Proof.
  induction m as [|[k' x] m IH]; cbn [aupdate alookup].
  - destruct (text_eqb_spec n k); reflexivity.
  - destruct (text_eqb_spec k k') as [<-|Hk]; cbn [alookup].
    + destruct (text_eqb_spec n k); reflexivity.
    + rewrite IH. destruct (text_eqb_spec n k') as [->|Hn]; [|reflexivity].
      destruct (text_eqb_spec k' k); [congruence|reflexivity].
Qed.
Lemma alookup_in {X} k (m : amap X) x : alookup k m = Some x -> In (k, x) m.
Proof.
  induction m as [|[k' y] m IH]; cbn; [discriminate|]. destruct (text_eqb_spec k k') as [->|]; intros H.
  - injection H as ->. auto.
  - auto.
Qed.
Lemma alookup_none {X} k (m : amap X) : alookup k m = None -> ~ In k (map fst m).
Proof.
  induction m as [|[k' y] m IH]; cbn; [auto|]. destruct (text_eqb_spec k k') as [->|]; [discriminate|].
  intros H [E|E]; [congruence|]. exact (IH H E).
Qed.
Lemma in_alookup {X} k (m : amap X) x : NoDup (map fst m) -> In (k, x) m -> alookup k m = Some x.
Proof.
  induction m as [|[k' y] m IH]; cbn; [contradiction|]. intros H. inversion H; subst.
  intros [E|E]; [injection E as -> ->; rewrite text_eqb_refl; reflexivity|].
  destruct (text_eqb_spec k k') as [->|]; [|auto]. exfalso. apply H2. apply (in_map fst) in E. exact E.
Qed.
Lemma keys_aupdate {X} k (d : X) f m : map fst (aupdate k d f m) =
  if existsb (text_eqb k) (map fst m) then map fst m else map fst m ++ [k].
Proof.
  induction m as [|[k' x] m IH]; cbn; [reflexivity|]. destruct (text_eqb k k'); cbn; [reflexivity|]. rewrite IH.
  destruct (existsb (text_eqb k) (map fst m)); reflexivity.
Qed.
Lemma nodup_aupdate {X} k (d : X) f m : NoDup (map fst m) -> NoDup (map fst (aupdate k d f m)).
Proof.
  intros H. rewrite keys_aupdate. destruct (existsb _ _) eqn:E; [exact H|].
  rewrite <- (rev_involutive (map fst m ++ [k])). apply NoDup_rev.
  rewrite rev_app_distr. cbn. constructor; [|apply NoDup_rev; exact H].
  rewrite <- in_rev. intros Hin. assert (existsb (text_eqb k) (map fst m) = true); [|congruence].
  apply existsb_exists. exists k. split; [exact Hin|apply text_eqb_refl].
Qed.

(** ** The record *)
Definition record1 (l : list occurrence) (o : occurrence) : list occurrence :=
  if existsb (same_place o) l then l else l ++ [o].
Definition record_all (os l : list occurrence) : list occurrence := fold_left record1 os l.
Lemma record_first_seen os : forall l, record_all os l = l ++ first_seen l os.
Proof.
  induction os as [|o os IH]; intros l; cbn; [rewrite app_nil_r; reflexivity|].
  unfold record_all in *. rewrite IH. unfold record1. destruct (existsb _ _); [reflexivity|]. rewrite <- app_assoc. reflexivity.
Qed.
Lemma fold_flat {A B C} (f : A -> C -> A) (h : B -> list C) l : forall a,
  fold_left (fun a b => fold_left f (h b) a) l a = fold_left f (flat_map h l) a.
Proof. induction l as [|b l IH]; intros a; cbn; [reflexivity|]. rewrite fold_left_app. apply IH. Qed.
Lemma record_app a b l : record_all (a ++ b) l = record_all b (record_all a l).
Proof. apply fold_left_app. Qed.

Definition rev_of (l : list occurrence) : list (nat * occurrence) :=
  fold_left (fun m o => bt_insert (sp_start (o_span o)) o m) l [].
Lemma rev_of_snoc l o : rev_of (l ++ [o]) = bt_insert (sp_start (o_span o)) o (rev_of l).
Proof. unfold rev_of. rewrite fold_left_app. reflexivity. Qed.

Lemma same_place_spec a b : same_place a b = true <->
  o_kind a = o_kind b /\ o_body a = o_body b /\ o_name a = o_name b /\ o_span a = o_span b.
Proof.
  unfold same_place. rewrite !andb_true_iff.
  destruct (kind_dec (o_kind a) (o_kind b)), (body_dec (o_body a) (o_body b)), (text_eqb_spec (o_name a) (o_name b)),
    (span_eqb_spec (o_span a) (o_span b)); intuition congruence.
Qed.
Lemma entry_is_spec ud k b n o : entry_is ud k b n o = true <->
  o_ud o = ud /\ o_kind o = k /\ o_body o = b /\ o_name o = n.
Proof.
  unfold entry_is. rewrite !andb_true_iff.
  destruct (kind_dec (o_kind o) k), (body_dec (o_body o) b), (text_eqb_spec (o_name o) n), (o_ud o), ud; intuition congruence.
Qed.
Lemma spans_of_snoc l o ud k b n : spans_of (l ++ [o]) ud k b n =
  spans_of l ud k b n ++ (if entry_is ud k b n o then [o_span o] else []).
Proof. unfold spans_of. rewrite filter_app, map_app. cbn. destruct (entry_is ud k b n o); reflexivity. Qed.
Lemma in_spans_of sp l ud k b n : In sp (spans_of l ud k b n) <->
  exists o, In o l /\ o_span o = sp /\ o_ud o = ud /\ o_kind o = k /\ o_body o = b /\ o_name o = n.
Proof.
  unfold spans_of. rewrite in_map_iff. split.
  - intros (o & H1 & H2). apply filter_In in H2 as [H2 H3]. apply entry_is_spec in H3. exists o. tauto.
  - intros (o & H1 & H2 & H3). exists o. split; [exact H2|]. apply filter_In. rewrite entry_is_spec. tauto.
Qed.
Lemma spans_mem_spec sp l : spans_mem sp l = true <-> In sp l.
Proof.
  unfold spans_mem. rewrite existsb_exists. split.
  - intros (x & H & E). destruct (span_eqb_spec sp x); [subst; exact H|discriminate].
  - intros H. exists sp. split; [exact H|]. destruct (span_eqb_spec sp sp); congruence.
Qed.
Lemma symbol_snoc l o k b n : symbol_in (l ++ [o]) k b n <->
  symbol_in l k b n \/ (o_kind o = k /\ o_body o = b /\ o_name o = n).
Proof.
  unfold symbol_in. split.
  - intros (x & H & E). apply in_app_iff in H as [H|[<-|[]]]; [left; exists x; tauto|right; exact E].
  - intros [(x & H & E)|E]; [exists x|exists o]; rewrite in_app_iff; cbn; tauto.
Qed.

Definition ext_of (m : amap use_def_list) (n : text) : list external_def :=
  match alookup n m with Some e => external_defs e | None => [] end.

Lemma table_empty l k b : (forall n, ~ symbol_in l k b n) -> table_is [] l k b.
Proof. intros H. split; [constructor|]. intros n. cbn. apply H. Qed.

Lemma entry_false ud k b n o : (o_kind o <> k \/ o_body o <> b \/ o_name o <> n) -> entry_is ud k b n o = false.
Proof. intros H. destruct (entry_is ud k b n o) eqn:E; [|reflexivity]. apply entry_is_spec in E. tauto. Qed.

Lemma table_other m l k b o : (o_kind o <> k \/ o_body o <> b) -> table_is m l k b -> table_is m (record1 l o) k b.
Proof.
  intros Hne [H1 H2]. unfold record1. destruct (existsb _ _); [split; assumption|]. split; [exact H1|].
  intros n. specialize (H2 n). destruct (alookup n m) as [e|].
  - rewrite !spans_of_snoc, !entry_false by tauto. rewrite !app_nil_r, symbol_snoc. tauto.
  - rewrite symbol_snoc. tauto.
Qed.

Lemma add_internal_ok m l k b ud sp n : table_is m l k b ->
  exists m', add_internal m (rev_of l) b k ud sp n = (m', rev_of (record1 l (mkOcc sp ud k n b))) /\
    table_is m' (record1 l (mkOcc sp ud k n b)) k b /\ (forall f, ext_of m' f = ext_of m f).
Proof.
  intros [Hd Ht]. set (o := mkOcc sp ud k n b).
  set (e := match alookup n m with Some e => e | None => ud_empty end).
  assert (decls e = spans_of l Decl k b n /\ defs e = spans_of l Def k b n /\ uses e = spans_of l Use k b n) as He.
  { unfold e. specialize (Ht n). destruct (alookup n m); [tauto|].
    assert (forall ud', [] = spans_of l ud' k b n) as Hs; [|repeat split; apply Hs].
    intros ud'. destruct (spans_of l ud' k b n) as [|sp0 q] eqn:E; [reflexivity|]. exfalso. apply Ht.
    assert (In sp0 (spans_of l ud' k b n)) as Hin by (rewrite E; left; reflexivity).
    apply in_spans_of in Hin as (x & Hx & _ & _ & Hk). exists x. tauto. }
  assert (ud_has e sp = existsb (same_place o) l) as Hhas.
  { destruct He as (E1 & E2 & E3). unfold ud_has. rewrite E1, E2, E3. apply eq_true_iff_eq.
    rewrite !orb_true_iff, !spans_mem_spec, !in_spans_of, existsb_exists. split.
    - intros [[(x & H)|(x & H)]|(x & H)]; exists x; rewrite same_place_spec; cbn; intuition congruence.
    - intros (x & Hx & H). apply same_place_spec in H. cbn in H.
      destruct (o_ud x) eqn:E; [left; left|left; right|right]; exists x; intuition congruence. }
  unfold add_internal. fold e. rewrite Hhas. unfold record1.
  destruct (existsb (same_place o) l) eqn:Ex.
  - eexists. split; [reflexivity|].
    assert (exists x, alookup n m = Some x) as (x & Hx).
    { specialize (Ht n). destruct (alookup n m) as [x|]; [eauto|]. exfalso. apply Ht.
      apply existsb_exists in Ex as (y & Hy & H). apply same_place_spec in H. cbn in H. exists y. intuition congruence. }
    assert (forall f, alookup f (aupdate n ud_empty (fun e => e) m) = alookup f m) as Hsame.
    { intros f. rewrite alookup_aupdate, Hx. destruct (text_eqb_spec f n); congruence. }
    split; [|intros f; unfold ext_of; rewrite Hsame; reflexivity].
    split; [apply nodup_aupdate; exact Hd|]. intros f. rewrite Hsame. apply Ht.
  - eexists. split; [rewrite rev_of_snoc; reflexivity|]. split.
    + split; [apply nodup_aupdate; exact Hd|]. intros f. rewrite alookup_aupdate. fold e.
      destruct (text_eqb_spec f n) as [->|Hf].
      * rewrite symbol_snoc, !spans_of_snoc. cbn [o_kind o_body o_name o]. split; [right; tauto|].
        assert (forall ud', entry_is ud' k b n o = match ud', ud with Decl, Decl | Def, Def | Use, Use => true | _, _ => false end) as Hee.
        { intros ud'. destruct (entry_is ud' k b n o) eqn:E.
          - apply entry_is_spec in E. destruct E as (<- & _). cbn. destruct ud; reflexivity.
          - destruct ud', ud; try reflexivity; exfalso; match goal with H : entry_is ?a _ _ _ _ = false |- _ =>
              assert (entry_is a k b n o = true) by (apply entry_is_spec; cbn; tauto); congruence end. }
        rewrite !Hee. destruct He as (E1 & E2 & E3). destruct ud; cbn [ud_push decls defs uses o_span];
          rewrite ?E1, ?E2, ?E3, ?app_nil_r; repeat split; reflexivity.
      * specialize (Ht f). destruct (alookup f m) as [x|].
        -- rewrite symbol_snoc, !spans_of_snoc, !(entry_false _ _ _ _ o) by (cbn; right; right; congruence). rewrite !app_nil_r. cbn. tauto.
        -- rewrite symbol_snoc. cbn. intuition congruence.
    + intros f. unfold ext_of. rewrite alookup_aupdate. fold e. destruct (text_eqb_spec f n) as [->|Hf]; [|reflexivity].
      unfold e. destruct (alookup n m), ud; reflexivity.
Qed.

(** ** The index *)
Definition scope_ok (n : nat) (o : occurrence) : Prop :=
  match o_kind o, o_body o with
  | (KGlobalVar | KFunction | KDbgAnnotation), None => True
  | (KLabel | KLocalVar), Some id => id < n
  | _, _ => False
  end.
Record index_is (ix : hir_index) (l : list occurrence) : Prop := {
  ii_glob : table_is (global_vars ix) l KGlobalVar None;
  ii_fun : table_is (functions ix) l KFunction None;
  ii_dbg : table_is (dgb_annotations ix) l KDbgAnnotation None;
  ii_rev : reverse_idx ix = rev_of l;
  ii_body : forall id fb, nth_error (function_bodies ix) id = Some fb ->
     table_is (labels fb) l KLabel (Some id) /\ table_is (local_vars fb) l KLocalVar (Some id);
  ii_scope : forall o, In o l -> scope_ok (length (function_bodies ix)) o;
}.
Definition shape (fb : function_body) : spanned * span * list basic_block * amap (list spanned) :=
  (fb_name fb, complete_range fb, basic_blocks fb, incoming fb).
Definition shapes (ix : hir_index) := map shape (function_bodies ix).
Definition same_ext (ix ix' : hir_index) : Prop := forall f, ext_of (functions ix') f = ext_of (functions ix) f.

Lemma record1_in l o x : In x (record1 l o) -> In x l \/ x = o.
Proof. unfold record1. destruct (existsb _ _); [auto|]. rewrite in_app_iff. cbn. intuition. Qed.

Definition global_kind (k : symbol_kind) : Prop := match k with KLabel | KLocalVar => False | _ => True end.
Lemma add_global_ok ix l k ud sp n : index_is ix l -> global_kind k ->
  exists ix', add_global ix k ud sp n = Val ix' /\ index_is ix' (record1 l (mkOcc sp ud k n None)) /\
    function_bodies ix' = function_bodies ix /\ dgb_annotation_values ix' = dgb_annotation_values ix /\ same_ext ix ix'.
Proof.
  intros [H1 H2 H3 H4 H5 H6] Hk. unfold add_global. rewrite H4.
  assert (forall id fb, nth_error (function_bodies ix) id = Some fb ->
     table_is (labels fb) (record1 l (mkOcc sp ud k n None)) KLabel (Some id) /\
     table_is (local_vars fb) (record1 l (mkOcc sp ud k n None)) KLocalVar (Some id)) as Hb.
  { intros id fb Hf. destruct (H5 id fb Hf). split; (apply table_other; [cbn; right; discriminate|assumption]). }
  assert (forall o, In o (record1 l (mkOcc sp ud k n None)) -> scope_ok (length (function_bodies ix)) o) as Hsc.
  { intros o Ho. apply record1_in in Ho as [Ho| ->]; [auto|]. cbn. destruct k; auto. }
  destruct k; try contradiction.
  - destruct (add_internal_ok (global_vars ix) l KGlobalVar None ud sp n H1) as (m' & -> & Ht & He).
    eexists. split; [reflexivity|]. split; [|repeat split].
    constructor; cbn [global_vars functions dgb_annotations reverse_idx function_bodies]; try assumption; try reflexivity;
      (apply table_other; [cbn; left; discriminate|assumption]).
  - destruct (add_internal_ok (functions ix) l KFunction None ud sp n H2) as (m' & -> & Ht & He).
    eexists. split; [reflexivity|]. split; [|repeat split; exact He].
    constructor; cbn [global_vars functions dgb_annotations reverse_idx function_bodies]; try assumption; try reflexivity;
      (apply table_other; [cbn; left; discriminate|assumption]).
  - destruct (add_internal_ok (dgb_annotations ix) l KDbgAnnotation None ud sp n H3) as (m' & -> & Ht & He).
    eexists. split; [reflexivity|]. split; [|repeat split].
    constructor; cbn [global_vars functions dgb_annotations reverse_idx function_bodies]; try assumption; try reflexivity;
      (apply table_other; [cbn; left; discriminate|assumption]).
Qed.

Lemma list_update_some {X} (f : X -> X) : forall l i x, nth_error l i = Some x ->
  exists l', list_update i f l = Some l' /\ length l' = length l /\
    forall j, nth_error l' j = if i =? j then option_map f (nth_error l j) else nth_error l j.
Proof.
  induction l as [|y l IH]; intros [|i] x H; cbn in *; try discriminate.
  - eexists. split; [reflexivity|]. split; [reflexivity|]. intros [|j]; reflexivity.
  - destruct (IH _ _ H) as (l' & -> & Hl & Hn). eexists. split; [reflexivity|]. cbn. split; [congruence|].
    intros [|j]; [reflexivity|]. cbn. apply Hn.
Qed.
Lemma list_update_map {X Y} (g : X -> Y) (f : X -> X) (h : Y -> Y) : (forall x, g (f x) = h (g x)) ->
  forall l i l', list_update i f l = Some l' -> list_update i h (map g l) = Some (map g l').
Proof.
  intros Hg. induction l as [|y l IH]; intros [|i] l' H; cbn in *; try discriminate.
  - injection H as <-. cbn. rewrite Hg. reflexivity.
  - destruct (list_update i f l) as [q|] eqn:E; [|discriminate]. injection H as <-. rewrite (IH _ _ E). reflexivity.
Qed.
Lemma list_update_id {X} : forall (l : list X) i l', list_update i (fun x => x) l = Some l' -> l' = l.
Proof.
  induction l as [|y l IH]; intros [|i] l' H; cbn in *; try discriminate; [congruence|].
  destruct (list_update i (fun x => x) l) as [q|] eqn:E; [|discriminate]. injection H as <-. f_equal. eauto.
Qed.

Lemma add_local_ok ix l id k ud sp n : index_is ix l -> k = KLabel \/ k = KLocalVar -> id < length (function_bodies ix) ->
  exists ix', add_func_local ix id k ud sp n = Val ix' /\ index_is ix' (record1 l (mkOcc sp ud k n (Some id))) /\
    shapes ix' = shapes ix /\ functions ix' = functions ix /\ dgb_annotation_values ix' = dgb_annotation_values ix.
Proof.
  intros [H1 H2 H3 H4 H5 H6] Hk Hid. unfold add_func_local. rewrite H4.
  destruct (nth_error (function_bodies ix) id) as [b|] eqn:Eb; [|apply nth_error_None in Eb; lia].
  destruct (H5 id b Eb) as [Hl Hv].
  assert (forall m k0, table_is m l k0 None -> table_is m (record1 l (mkOcc sp ud k n (Some id))) k0 None) as Hg.
  { intros m k0 Hm. apply table_other; [right; discriminate|exact Hm]. }
  assert (forall m k0 j, table_is m l k0 (Some j) -> k0 <> k \/ j <> id ->
     table_is m (record1 l (mkOcc sp ud k n (Some id))) k0 (Some j)) as Hloc.
  { intros m k0 j Hm Hne. apply table_other; [|exact Hm]. cbn. destruct Hne; [left; congruence|right; congruence]. }
  destruct Hk as [-> | ->].
  - destruct (add_internal_ok (labels b) l KLabel (Some id) ud sp n Hl) as (m' & -> & Ht & _).
    set (upd := fun b0 => mkFB (fb_name b0) (complete_range b0) m' (local_vars b0) (basic_blocks b0) (incoming b0)).
    destruct (list_update_some upd _ _ _ Eb) as (bs & E & Hlen & Hn). rewrite E.
    eexists. split; [reflexivity|]. split; [|repeat split].
    + constructor; cbn [global_vars functions dgb_annotations reverse_idx function_bodies]; auto.
      * intros j fb. rewrite Hn. destruct (Nat.eqb_spec id j) as [<-|Hj].
        -- rewrite Eb. cbn [option_map]. intros Hf; injection Hf as <-. cbn. split; [exact Ht|]. apply Hloc; [exact Hv|left; discriminate].
        -- intros Hf. destruct (H5 j fb Hf). split; (apply Hloc; [assumption|right; congruence]).
      * intros o Ho. rewrite Hlen. apply record1_in in Ho as [Ho| ->]; [apply H6; exact Ho|exact Hid].
    + unfold shapes. cbn. apply (list_update_map shape upd (fun x => x)) in E; [|reflexivity].
      apply list_update_id in E. exact E.
  - destruct (add_internal_ok (local_vars b) l KLocalVar (Some id) ud sp n Hv) as (m' & -> & Ht & _).
    set (upd := fun b0 => mkFB (fb_name b0) (complete_range b0) (labels b0) m' (basic_blocks b0) (incoming b0)).
    destruct (list_update_some upd _ _ _ Eb) as (bs & E & Hlen & Hn). rewrite E.
    eexists. split; [reflexivity|]. split; [|repeat split].
    + constructor; cbn [global_vars functions dgb_annotations reverse_idx function_bodies]; auto.
      * intros j fb. rewrite Hn. destruct (Nat.eqb_spec id j) as [<-|Hj].
        -- rewrite Eb. cbn [option_map]. intros Hf; injection Hf as <-. cbn. split; [|exact Ht]. apply Hloc; [exact Hl|left; discriminate].
        -- intros Hf. destruct (H5 j fb Hf). split; (apply Hloc; [assumption|right; congruence]).
      * intros o Ho. rewrite Hlen. apply record1_in in Ho as [Ho| ->]; [apply H6; exact Ho|exact Hid].
    + unfold shapes. cbn. apply (list_update_map shape upd (fun x => x)) in E; [|reflexivity].
      apply list_update_id in E. exact E.
Qed.

(** ** Loops *)
Lemma rfold_ok {A B C} (f : A -> B -> res A) (g : C -> B -> C) (P : C -> A -> Prop) :
  (forall c a b, P c a -> exists a', f a b = Val a' /\ P (g c b) a') ->
  forall l c a, P c a -> exists a', rfold f l a = Val a' /\ P (fold_left g l c) a'.
Proof.
  intros Hs. induction l as [|b l IH]; intros c a Ha; cbn; [eauto|].
  destruct (Hs c a b Ha) as (a' & -> & Ha'). cbn. apply IH. exact Ha'.
Qed.

Definition inc_add (inc : amap (list spanned)) (e : text * spanned) : amap (list spanned) :=
  aupdate (fst e) [] (fun l => if existsb (spanned_eqb (snd e)) l then l else l ++ [snd e]) inc.
Definition instr_edges (label : option spanned) (i : instruction) : list (text * spanned) :=
  match label with
  | Some l => if is_branching i then map (fun r => (fst r, l)) (i_refs i) else []
  | None => []
  end.
Definition block_edges (b : basic_block) : list (text * spanned) := flat_map (instr_edges (bb_label b)) (bb_instrs b).

(** the state while a function body is indexed *)
Section Body.
Variables (pre : list (spanned * span * list basic_block * amap (list spanned))) (nm : spanned) (rg : span) (bbs : list basic_block)
  (F : amap use_def_list) (V : amap text).
Definition bstate (c : list occurrence * amap (list spanned)) (ix : hir_index) : Prop :=
  index_is ix (fst c) /\ shapes ix = pre ++ [(nm, rg, bbs, snd c)] /\ functions ix = F /\ dgb_annotation_values ix = V.
Let id := length pre.
Lemma bstate_id c ix : bstate c ix -> id < length (function_bodies ix).
Proof.
  intros (_ & H & _). rewrite <- (map_length shape). fold (shapes ix). rewrite H, app_length. cbn. unfold id. lia.
Qed.
Lemma bs_add c ix k ud sp n : bstate c ix -> k = KLabel \/ k = KLocalVar ->
  exists ix', add_func_local ix id k ud sp n = Val ix' /\ bstate (record1 (fst c) (mkOcc sp ud k n (Some id)), snd c) ix'.
Proof.
  intros H Hk. pose proof (bstate_id c ix H) as Hid. destruct H as (H1 & H2 & H3 & H4).
  destruct (add_local_ok ix (fst c) id k ud sp n H1 Hk Hid) as (ix' & E & G1 & G2 & G3 & G4).
  exists ix'. split; [exact E|]. split; [exact G1|]. cbn. repeat split; congruence.
Qed.
Lemma bs_incoming c ix t l : bstate c ix ->
  exists ix', add_incoming ix id t l = Val ix' /\ bstate (fst c, inc_add (snd c) (t, l)) ix'.
Proof.
  intros H. pose proof (bstate_id c ix H) as Hid. destruct H as ([I1 I2 I3 I4 I5 I6] & H2 & H3 & H4). unfold add_incoming.
  set (upd := fun b => mkFB _ _ _ _ _ _).
  destruct (nth_error (function_bodies ix) id) as [b|] eqn:Eb; [|apply nth_error_None in Eb; lia].
  destruct (list_update_some upd _ _ _ Eb) as (bs & E & Hlen & Hn). rewrite E.
  eexists. split; [reflexivity|]. split.
  2:{ split; [|split; assumption].
    unfold shapes in *. cbn. apply (list_update_map shape upd (fun '(a, r, b, i) => (a, r, b, inc_add i (t, l)))) in E; [|reflexivity].
    rewrite H2 in E. unfold id in E. clear - E. revert E. generalize (map shape bs). induction pre as [|x p IH]; intros q E; cbn in *.
    + congruence.
    + destruct (list_update _ _ _) as [q'|] eqn:E'; [|discriminate]. injection E as <-. rewrite (IH _ eq_refl). reflexivity. }
  constructor; cbn [fst snd functions dgb_annotation_values]; try assumption.
  - cbn. intros j fb. rewrite Hn. destruct (Nat.eqb_spec id j) as [<-|Hj]; [|apply I5].
    rewrite Eb. cbn. intros Hf; injection Hf as <-. cbn. apply I5. exact Eb.
  - cbn. rewrite Hlen. exact I6.
Qed.

Definition occ_step (f : list occurrence) (g : list (text * spanned)) (c : list occurrence * amap (list spanned)) :=
  (record_all f (fst c), fold_left inc_add g (snd c)).
Lemma bs_ref label i c ix r : bstate c ix ->
  exists ix', index_bb_ref id label (is_branching i) ix r = Val ix' /\
    bstate (occ_step [occ Use KLabel (Some id) r]
       (match label with Some l => if is_branching i then [(fst r, l)] else [] | None => [] end) c) ix'.
Proof.
  intros H. unfold index_bb_ref. destruct (bs_add c ix KLabel Use (snd r) (fst r) H (or_introl eq_refl)) as (ix1 & E & H1).
  unfold add_func_local_spanned. rewrite E. cbn [rbind]. destruct label as [l|]; [|exists ix1; split; [reflexivity|exact H1]].
  destruct (is_branching i); [|exists ix1; split; [reflexivity|exact H1]].
  destruct (bs_incoming _ _ (fst r) l H1) as (ix2 & E2 & H2). exists ix2. split; [exact E2|exact H2].
Qed.
Lemma step_app f1 g1 f2 g2 c : occ_step f2 g2 (occ_step f1 g1 c) = occ_step (f1 ++ f2) (g1 ++ g2) c.
Proof. unfold occ_step. cbn. rewrite record_app, fold_left_app. reflexivity. Qed.
Lemma step_fold {B} (f : B -> list occurrence) (g : B -> list (text * spanned)) l : forall c,
  fold_left (fun c b => occ_step (f b) (g b) c) l c = occ_step (flat_map f l) (flat_map g l) c.
Proof.
  induction l as [|b l IH]; intros c; cbn; [destruct c; reflexivity|]. rewrite IH, step_app. reflexivity.
Qed.
Lemma bs_instr label c ix i : bstate c ix ->
  exists ix', index_instr id label ix i = Val ix' /\ bstate (occ_step (instr_occs id i) (instr_edges label i) c) ix'.
Proof.
  intros H. unfold index_instr.
  assert (exists ix1, match i_target i with Some t => add_func_local_spanned ix id KLocalVar Def t | None => Val ix end = Val ix1 /\
     bstate (occ_step (target_occs id (i_target i)) [] c) ix1) as (ix1 & -> & H1).
  { destruct (i_target i) as [t|]; [|exists ix; split; [reflexivity|destruct c; exact H]].
    destruct (bs_add c ix KLocalVar Def (snd t) (fst t) H (or_intror eq_refl)) as (ix1 & E & H1). exists ix1. split; [exact E|exact H1]. }
  cbn [rbind].
  set (h := fun r : spanned => match label with Some l => if is_branching i then [(fst r, l)] else [] | None => [] end).
  destruct (rfold_ok (index_bb_ref id label (is_branching i)) (fun c r => occ_step [occ Use KLabel (Some id) r] (h r) c) bstate
    (fun c a b Hc => bs_ref label i c a b Hc) (i_refs i) _ _ H1) as (ix2 & E2 & H2).
  exists ix2. split; [exact E2|]. rewrite step_fold, step_app in H2.
  replace (instr_occs id i) with (target_occs id (i_target i) ++ flat_map (fun r => [occ Use KLabel (Some id) r]) (i_refs i))
    by (unfold instr_occs; f_equal; clear; induction (i_refs i); cbn; congruence).
  replace (instr_edges label i) with (flat_map h (i_refs i)); [exact H2|].
  unfold instr_edges, h. clear. destruct label as [l|]; [|induction (i_refs i); [reflexivity|assumption]].
  destruct (is_branching i); induction (i_refs i); cbn; congruence.
Qed.
Lemma bs_block c ix b : bstate c ix ->
  exists ix', index_bb id ix b = Val ix' /\ bstate (occ_step (block_occs id b) (block_edges b) c) ix'.
Proof.
  intros H. unfold index_bb.
  assert (exists ix1, match bb_label b with Some t => add_func_local_spanned ix id KLabel Def t | None => Val ix end = Val ix1 /\
     bstate (occ_step (label_occs id (bb_label b)) [] c) ix1) as (ix1 & -> & H1).
  { destruct (bb_label b) as [t|]; [|exists ix; split; [reflexivity|destruct c; exact H]].
    destruct (bs_add c ix KLabel Def (snd t) (fst t) H (or_introl eq_refl)) as (ix1 & E & H1). exists ix1. split; [exact E|exact H1]. }
  cbn [rbind].
  destruct (rfold_ok (index_instr id (bb_label b)) (fun c i => occ_step (instr_occs id i) (instr_edges (bb_label b) i) c) bstate
    (fun c a i Hc => bs_instr (bb_label b) c a i Hc) (bb_instrs b) _ _ H1) as (ix2 & E2 & H2).
  exists ix2. split; [exact E2|]. rewrite step_fold, step_app in H2. exact H2.
Qed.
Lemma bs_params c ix (l : list func_arg) : bstate c ix ->
  exists ix', rfold (fun ix a => add_func_local_spanned ix id KLocalVar Def (fa_name a)) l ix = Val ix' /\
    bstate (occ_step (map (fun a => occ Def KLocalVar (Some id) (fa_name a)) l) [] c) ix'.
Proof.
  intros H.
  destruct (rfold_ok (fun ix a => add_func_local_spanned ix id KLocalVar Def (fa_name a))
     (fun c a => occ_step [occ Def KLocalVar (Some id) (fa_name a)] [] c) bstate) with (l := l) (c := c) (a := ix) as (ix' & E & H').
  - intros c0 a b Hc. destruct (bs_add c0 a KLocalVar Def (snd (fa_name b)) (fst (fa_name b)) Hc (or_intror eq_refl)) as (ix1 & E & H1).
    exists ix1. split; [exact E|exact H1].
  - exact H.
  - exists ix'. split; [exact E|]. rewrite (step_fold (fun a => [occ Def KLocalVar (Some id) (fa_name a)]) (fun _ => [])) in H'.
    replace (flat_map (fun _ : func_arg => []) l) with (@nil (text * spanned)) in H' by (clear; induction l; [reflexivity|assumption]).
    replace (map (fun a => occ Def KLocalVar (Some id) (fa_name a)) l) with (flat_map (fun a => [occ Def KLocalVar (Some id) (fa_name a)]) l)
      by (clear; induction l; cbn; congruence). exact H'.
Qed.
Lemma bs_blocks c ix l : bstate c ix ->
  exists ix', rfold (index_bb id) l ix = Val ix' /\
    bstate (occ_step (flat_map (block_occs id) l) (flat_map block_edges l) c) ix'.
Proof.
  intros H.
  destruct (rfold_ok (index_bb id) (fun c b => occ_step (block_occs id b) (block_edges b) c) bstate
    (fun c a b Hc => bs_block c a b Hc) l _ _ H) as (ix2 & E2 & H2).
  exists ix2. split; [exact E2|]. rewrite step_fold in H2. exact H2.
Qed.
End Body.

Definition body_shape (s : statement) : list (spanned * span * list basic_block * amap (list spanned)) :=
  match s with
  | SFuncDef kw sig body =>
      [(fs_name sig, mkSpan (sp_start kw) (sp_end (fb_close body)), fb_blocks body,
        fold_left inc_add (flat_map block_edges (fb_blocks body)) [])]
  | _ => []
  end.

Lemma index_func_def_ok ix l kw sig body : index_is ix l ->
  exists ix', index_func_def ix kw sig body = Val ix' /\
    index_is ix' (record_all (stmt_occs (length (function_bodies ix)) (SFuncDef kw sig body)) l) /\
    shapes ix' = shapes ix ++ body_shape (SFuncDef kw sig body) /\
    dgb_annotation_values ix' = dgb_annotation_values ix /\ same_ext ix ix'.
Proof.
  intros H. unfold index_func_def, add_global_spanned.
  destruct (add_global_ok ix l KFunction Def (snd (fs_name sig)) (fst (fs_name sig)) H I) as (ix1 & -> & H1 & Hb & Hv & He).
  cbn [rbind]. set (b := mkFB _ _ _ _ _ _).
  set (ix2 := mkIndex (global_vars ix1) (functions ix1) (dgb_annotations ix1) (reverse_idx ix1) (function_bodies ix1 ++ [b]) (dgb_annotation_values ix1)).
  set (l1 := record1 l (mkOcc (snd (fs_name sig)) Def KFunction (fst (fs_name sig)) None)) in *.
  assert (bstate (shapes ix) (fs_name sig) (mkSpan (sp_start kw) (sp_end (fb_close body))) (fb_blocks body)
     (functions ix1) (dgb_annotation_values ix1) (l1, []) ix2) as H2.
  { split; [|split; [|split; reflexivity]].
    - destruct H1 as [I1 I2 I3 I4 I5 I6]. constructor; cbn [global_vars functions dgb_annotations reverse_idx function_bodies ix2 fst]; auto.
      + intros j fb Hf. destruct (Nat.lt_ge_cases j (length (function_bodies ix1))) as [Hj|Hj].
        * rewrite nth_error_app1 in Hf by exact Hj. apply I5. exact Hf.
        * rewrite nth_error_app2 in Hf by exact Hj. destruct (j - length (function_bodies ix1)) as [|d] eqn:Ed; [|destruct d; discriminate].
          cbn in Hf. injection Hf as <-. assert (j = length (function_bodies ix1)) as -> by lia.
          split; apply table_empty; intros n (o & Ho & Hk & Hbo & _); specialize (I6 o Ho); unfold scope_ok in I6;
            rewrite Hk, Hbo in I6; lia.
      + intros o Ho. specialize (I6 o Ho). unfold scope_ok in *. rewrite app_length. cbn. destruct (o_kind o), (o_body o); try contradiction; try exact I; lia.
    - unfold shapes, ix2. cbn. rewrite map_app, Hb. reflexivity. }
  assert (length (function_bodies ix2) - 1 = length (shapes ix)) as ->.
  { unfold ix2. cbn. rewrite app_length, Hb. unfold shapes. rewrite map_length. cbn. lia. }
  destruct (bs_params _ _ _ _ _ _ _ _ (fs_args sig) H2) as (ix3 & -> & H3). cbn [rbind].
  destruct (bs_blocks _ _ _ _ _ _ _ _ (fb_blocks body) H3) as (ix4 & -> & H4).
  exists ix4. split; [reflexivity|]. rewrite step_app in H4. destruct H4 as (J1 & J2 & J3 & J4). cbn [fst snd occ_step] in *.
  assert (length (function_bodies ix) = length (shapes ix)) as -> by (unfold shapes; rewrite map_length; reflexivity).
  split; [exact J1|]. split; [exact J2|]. split; [congruence|]. intros f. rewrite J3. apply He.
Qed.

(** ** The first pass *)
Lemma symbol_record os : forall l k b n, symbol_in (record_all os l) k b n <-> symbol_in l k b n \/ symbol_in os k b n.
Proof.
  induction os as [|o os IH]; intros l k b n; cbn.
  - split; [auto|]. intros [H|(x & [] & _)]; exact H.
  - unfold record_all in *. rewrite IH. unfold record1. destruct (existsb (same_place o) l) eqn:E.
    + split; [intros [H|(x & H & E')]; [left; exact H|right; exists x; cbn; tauto]|].
      intros [H|(x & [<-|H] & E')]; [left; exact H| |right; exists x; tauto]. left.
      apply existsb_exists in E as (y & Hy & E). apply same_place_spec in E. exists y. intuition congruence.
    + rewrite symbol_snoc. split.
      * intros [[H|H]|(x & H & E')]; [left; exact H|right; exists o; cbn; tauto|right; exists x; cbn; tauto].
      * intros [H|(x & [<-|H] & E')]; [tauto|tauto|right; exists x; tauto].
Qed.

Lemma tree_occs_app a : forall id b, tree_occs id (a ++ b) = tree_occs id a ++ tree_occs (id + list_sum (map is_def a)) b.
Proof.
  induction a as [|s a IH]; intros id b; cbn; [rewrite Nat.add_0_r; reflexivity|].
  rewrite IH, app_assoc, Nat.add_assoc. reflexivity.
Qed.
Lemma shapes_count ss : length (flat_map body_shape ss) = list_sum (map is_def ss).
Proof. induction ss as [|s ss IH]; cbn; [reflexivity|]. rewrite app_length, IH. destruct s; reflexivity. Qed.
Lemma ext_defs_snoc ss f : forall pre s, ext_defs pre (ss ++ [s]) f = ext_defs pre ss f ++ stmt_ext (pre ++ ss) s f.
Proof.
  induction ss as [|x ss IH]; intros pre s; cbn; [rewrite !app_nil_r; reflexivity|].
  rewrite IH, <- !app_assoc. reflexivity.
Qed.
Lemma function_symbols n : forall ss id, symbol_in (tree_occs id ss) KFunction None n <-> is_function ss n = true.
Proof.
  assert (forall s id, symbol_in (stmt_occs id s) KFunction None n <-> declares n s = true) as Hs.
  { intros s id. unfold symbol_in. destruct s; cbn [stmt_occs declares].
    - split; [|discriminate]. intros (o & [<-|[]] & H); cbn in H. intuition discriminate.
    - split.
      + intros (o & [<-|[]] & H). cbn in H. destruct (text_eqb_spec (fst (fs_name sig)) n); intuition congruence.
      + intros H. destruct (text_eqb_spec (fst (fs_name sig)) n) as [<-|]; [|discriminate]. eexists. split; [left; reflexivity|]. repeat split.
    - split.
      + intros (o & [<-|H] & E). { cbn in E. destruct (text_eqb_spec (fst (fs_name sig)) n); intuition congruence. }
        exfalso. apply in_app_iff in H as [H|H].
        * unfold param_occs in H. apply in_map_iff in H as (a & <- & _). cbn in E. intuition discriminate.
        * apply in_flat_map in H as (b & _ & H). unfold block_occs in H. apply in_app_iff in H as [H|H].
          -- destruct (bb_label b); cbn in H; [destruct H as [<-|[]]; cbn in E; intuition discriminate|contradiction].
          -- apply in_flat_map in H as (i & _ & H). unfold instr_occs in H. apply in_app_iff in H as [H|H].
             ++ destruct (i_target i); cbn in H; [destruct H as [<-|[]]; cbn in E; intuition discriminate|contradiction].
             ++ apply in_map_iff in H as (r & <- & _). cbn in E. intuition discriminate.
      + intros H. destruct (text_eqb_spec (fst (fs_name sig)) n) as [<-|]; [|discriminate]. eexists. split; [left; reflexivity|]. repeat split.
    - split; [intros (o & [] & _)|discriminate].
    - split; [|discriminate]. intros (o & [<-|[]] & H); cbn in H. intuition discriminate. }
  induction ss as [|s ss IH]; intros id; cbn [tree_occs is_function existsb].
  - split; [intros (o & [] & _)|discriminate].
  - rewrite orb_true_iff, <- (Hs s id). fold (is_function ss n). rewrite <- (IH (id + is_def s)). unfold symbol_in. split.
    + intros (o & Ho & E). apply in_app_iff in Ho as [Ho|Ho]; [left|right]; exists o; tauto.
    + intros [(o & Ho & E)|(o & Ho & E)]; exists o; rewrite in_app_iff; tauto.
Qed.
Lemma decl_for_snoc pre s d : decl_for (pre ++ [s]) d =
  match s with
  | SFuncDecl sig _ (Some x) => if text_eqb d (fst x) then Some (fst (fs_name sig)) else decl_for pre d
  | _ => decl_for pre d
  end.
Proof. unfold decl_for. rewrite fold_left_app. reflexivity. Qed.
Lemma decl_for_function ss d f : decl_for ss d = Some f -> is_function ss f = true.
Proof.
  induction ss as [|s ss IH] using rev_ind; [discriminate|]. rewrite decl_for_snoc. unfold is_function in *. rewrite existsb_app, orb_true_iff.
  cbn [existsb]. destruct s; auto. destruct dbgref as [x|]; auto. destruct (text_eqb d (fst x)); auto. intros H; injection H as <-.
  right. cbn [declares]. rewrite text_eqb_refl. reflexivity.
Qed.

Lemma rfold_pre {A B} (f : A -> B -> res A) (P : list B -> A -> Prop) (bad : B -> Prop) :
  (forall pre a b, P pre a -> (bad b /\ f a b = Panic) \/ (~ bad b /\ exists a', f a b = Val a' /\ P (pre ++ [b]) a')) ->
  forall l pre a, P pre a -> (Exists bad l /\ rfold f l a = Panic) \/
    (Forall (fun b => ~ bad b) l /\ exists a', rfold f l a = Val a' /\ P (pre ++ l) a').
Proof.
  intros Hs. induction l as [|b l IH]; intros pre a Ha; cbn.
  - right. split; [constructor|]. exists a. rewrite app_nil_r. auto.
  - destruct (Hs pre a b Ha) as [[Hb ->]|[Hb (a' & -> & Ha')]]; [left; split; [left; exact Hb|reflexivity]|]. cbn [rbind].
    destruct (IH _ _ Ha') as [[H1 H2]|[H1 (a2 & H2 & H3)]]; [left; split; [right; exact H1|exact H2]|].
    right. split; [constructor; assumption|]. exists a2. rewrite <- app_assoc in H3. auto.
Qed.

Record pass1 (src : text) (pre : list statement) (st : idx_state) : Prop := {
  p1_index : index_is (fst st) (record_all (tree_occs 0 pre) []);
  p1_shapes : shapes (fst st) = flat_map body_shape pre;
  p1_ext : forall f, ext_of (functions (fst st)) f = ext_defs [] pre f;
  p1_unres : forall d, alookup d (snd st) = decl_for pre d;
  p1_vals : forall n, alookup n (dgb_annotation_values (fst st)) = ann_value src pre n;
}.
Lemma record_snoc_stmt pre s : record_all (tree_occs 0 (pre ++ [s])) [] =
  record_all (stmt_occs (length (flat_map body_shape pre)) s) (record_all (tree_occs 0 pre) []).
Proof. rewrite tree_occs_app, record_app. cbn [tree_occs]. rewrite app_nil_r, shapes_count. reflexivity. Qed.
Lemma ann_value_snoc src pre s n : value_range s = None -> ann_value src (pre ++ [s]) n = ann_value src pre n.
Proof. intros H. unfold ann_value. rewrite fold_left_app. cbn. rewrite H. reflexivity. Qed.
Lemma olast_last {A} (l : list A) x : l <> [] -> olast l = Some (last l x).
Proof.
  intros H. rewrite (app_removelast_last x H) at 1. unfold olast. rewrite rev_app_distr. reflexivity.
Qed.
Lemma table_ext m l k b n e : table_is m l k b -> alookup n m <> None ->
  table_is (aupdate n ud_empty (ud_push_ext e) m) l k b.
Proof.
  intros [H1 H2] Hn. split; [apply nodup_aupdate; exact H1|]. intros f. rewrite alookup_aupdate.
  destruct (text_eqb_spec f n) as [->|]; [|apply H2]. specialize (H2 n). destruct (alookup n m); [exact H2|congruence].
Qed.

Lemma stmt_ok src pre st s : pass1 src pre st ->
  (bad_slice src s /\ index_stmt src st s = Panic) \/
  (~ bad_slice src s /\ exists st', index_stmt src st s = Val st' /\ pass1 src (pre ++ [s]) st').
Proof.
  intros [H1 H2 H3 H4 H5]. destruct st as [ix un]. cbn [fst snd] in *.
  destruct s as [nm toks|sig toks d|kw sig body|nm deps|nm def]; cbn [index_stmt fst snd].
  - right. split; [exact (fun x => x)|].
    destruct (add_global_ok _ _ KGlobalVar Def (snd nm) (fst nm) H1 I) as (ix' & E & G1 & G2 & G3 & G4).
    unfold add_global_spanned. rewrite E. eexists. split; [reflexivity|].
    constructor; cbn [fst snd].
    + rewrite record_snoc_stmt. exact G1.
    + unfold shapes. rewrite G2, flat_map_app. cbn. rewrite app_nil_r. exact H2.
    + intros f. rewrite G4, ext_defs_snoc, H3. cbn. rewrite app_nil_r. reflexivity.
    + intros x. rewrite H4, decl_for_snoc. reflexivity.
    + intros n. rewrite ann_value_snoc by reflexivity. rewrite G3. apply H5.
  - right. split; [exact (fun x => x)|]. unfold index_func_decl.
    destruct (add_global_ok _ _ KFunction Decl (snd (fs_name sig)) (fst (fs_name sig)) H1 I) as (ix' & E & G1 & G2 & G3 & G4).
    cbn [fst snd]. unfold add_global_spanned. rewrite E. eexists. split; [reflexivity|].
    constructor; cbn [fst snd].
    + rewrite record_snoc_stmt. exact G1.
    + unfold shapes. rewrite G2, flat_map_app. cbn. rewrite app_nil_r. exact H2.
    + intros f. rewrite G4, ext_defs_snoc, H3. cbn. rewrite app_nil_r. reflexivity.
    + intros x. rewrite decl_for_snoc. destruct d as [d|]; [|apply H4]. unfold ainsert. rewrite alookup_aupdate.
      destruct (text_eqb_spec x (fst d)); [reflexivity|apply H4].
    + intros n. rewrite ann_value_snoc by reflexivity. rewrite G3. apply H5.
  - right. split; [exact (fun x => x)|].
    destruct (index_func_def_ok _ _ kw sig body H1) as (ix' & E & G1 & G2 & G3 & G4). rewrite E. eexists. split; [reflexivity|].
    assert (length (function_bodies ix) = length (flat_map body_shape pre)) as El by (rewrite <- H2; unfold shapes; rewrite map_length; reflexivity).
    constructor; cbn [fst snd].
    + rewrite record_snoc_stmt, <- El. exact G1.
    + rewrite G2, H2, flat_map_app. cbn [flat_map]. rewrite app_nil_r. reflexivity.
    + intros f. rewrite G4, ext_defs_snoc, H3. cbn. rewrite app_nil_r. reflexivity.
    + intros x. rewrite H4, decl_for_snoc. reflexivity.
    + intros n. rewrite ann_value_snoc by reflexivity. rewrite G3. apply H5.
  - right. split; [exact (fun x => x)|]. eexists. split; [reflexivity|].
    constructor; cbn [fst snd].
    + rewrite record_snoc_stmt. exact H1.
    + rewrite flat_map_app. cbn. rewrite app_nil_r. exact H2.
    + intros f. rewrite ext_defs_snoc, H3. cbn. rewrite app_nil_r. reflexivity.
    + intros x. rewrite H4, decl_for_snoc. reflexivity.
    + intros n. rewrite ann_value_snoc by reflexivity. apply H5.
  - destruct (add_global_ok _ _ KDbgAnnotation Def (snd nm) (fst nm) H1 I) as (ix1 & E & G1 & G2 & G3 & G4).
    unfold index_dbg_annotation, add_global_spanned. cbn [fst snd]. rewrite E. cbn [rbind].
    set (l1 := record1 _ _) in G1.
    assert (record_all (tree_occs 0 (pre ++ [SDbgAnnotation nm def])) [] = l1) as El1 by (rewrite record_snoc_stmt; reflexivity).
    (* the value *)
    assert ((bad_slice src (SDbgAnnotation nm def) /\ index_dbg_value src ix1 nm def = Panic) \/
      (~ bad_slice src (SDbgAnnotation nm def) /\ exists ix2, index_dbg_value src ix1 nm def = Val ix2 /\ index_is ix2 l1 /\
        function_bodies ix2 = function_bodies ix1 /\ functions ix2 = functions ix1 /\
        forall n, alookup n (dgb_annotation_values ix2) = ann_value src (pre ++ [SDbgAnnotation nm def]) n)) as Hv.
    { unfold index_dbg_value, bad_slice. destruct def as [|[t a] r].
      - right. cbn. split; [auto|]. exists ix1. repeat (split; [first [reflexivity|exact G1]|]).
        intros n. rewrite ann_value_snoc by reflexivity. rewrite G3. apply H5.
      - rewrite (olast_last _ (t, a)) by discriminate. cbn [value_range]. unfold stoken in *. destruct (last ((t, a) :: r) (t, a)) as [t2 a2] eqn:El. cbn [snd].
        destruct (byte_slice src (sp_start a) (sp_end a2)) as [v|] eqn:Es; [|left; auto].
        right. split; [discriminate|]. cbn [rbind]. eexists. split; [reflexivity|].
        split; [destruct G1 as [I1 I2 I3 I4 I5 I6]; constructor; assumption|]. split; [reflexivity|]. split; [reflexivity|].
        cbn [dgb_annotation_values]. intros n. unfold ainsert. rewrite alookup_aupdate, G3, H5. unfold ann_value. rewrite fold_left_app. cbn [fold_left value_range].
        rewrite El. cbn [snd]. rewrite Es. reflexivity. }
    destruct Hv as [[Hb ->]|[Hb (ix2 & -> & I2 & B2 & F2 & V2)]]; [left; auto|]. right. split; [exact Hb|]. cbn [rbind].
    assert (exists ix3, index_dbg_external (ix2, un) nm def = Val ix3 /\ index_is ix3 l1 /\ function_bodies ix3 = function_bodies ix2 /\
       dgb_annotation_values ix3 = dgb_annotation_values ix2 /\
       forall f, ext_of (functions ix3) f = ext_defs [] (pre ++ [SDbgAnnotation nm def]) f) as (ix3 & -> & I3 & B3 & V3 & F3).
    { unfold index_dbg_external. cbn [fst snd]. rewrite H4.
      assert (forall f, ext_of (functions ix2) f = ext_defs [] pre f) as Hbase by (intros f; rewrite F2, G4, H3; reflexivity).
      assert ((forall f, stmt_ext pre (SDbgAnnotation nm def) f = []) ->
        exists ix3, Val ix2 = Val ix3 /\ index_is ix3 l1 /\ function_bodies ix3 = function_bodies ix2 /\
         dgb_annotation_values ix3 = dgb_annotation_values ix2 /\
         forall f, ext_of (functions ix3) f = ext_defs [] (pre ++ [SDbgAnnotation nm def]) f) as Hnone.
      { intros Hn. exists ix2. repeat (split; [first [reflexivity|exact I2]|]). intros f. rewrite ext_defs_snoc. cbn [app]. rewrite Hn, app_nil_r. apply Hbase. }
      destruct (decl_for pre (fst nm)) as [g|] eqn:Eg.
      - destruct def as [|[t a] [|y r]]; [apply Hnone; reflexivity| |destruct t; apply Hnone; reflexivity].
        destruct t as [| | |s| | | | | | | | | |]; try (apply Hnone; reflexivity).
        destruct (parse_file_line s) as [[p ln]|] eqn:Ep.
        2:{ apply Hnone. intros f. cbn [stmt_ext]. rewrite Eg, Ep. reflexivity. }
        assert (alookup g (functions ix2) <> None) as Hg.
        { apply decl_for_function in Eg. apply (function_symbols g pre 0) in Eg. intros Ha.
          destruct I2 as [_ It _ _ _ _]. destruct It as [_ It]. specialize (It g). rewrite Ha in It. apply It.
          rewrite <- El1. apply symbol_record. right. rewrite tree_occs_app. destruct Eg as (o & Ho & Eo). exists o. rewrite in_app_iff. tauto. }
        destruct (alookup g (functions ix2)) as [eg|] eqn:Ea; [|congruence].
        eexists. split; [reflexivity|]. split.
        { destruct I2 as [J1 J2 J3 J4 J5 J6]. constructor; try assumption. cbn [functions]. apply table_ext; [assumption|congruence]. }
        split; [reflexivity|]. split; [reflexivity|]. intros f. cbn [functions]. rewrite ext_defs_snoc. cbn [app stmt_ext]. rewrite Eg, Ep.
        unfold ext_of. rewrite alookup_aupdate, Ea. specialize (Hbase f). unfold ext_of in Hbase.
        destruct (text_eqb_spec f g) as [->|]; [|rewrite app_nil_r; exact Hbase]. rewrite Ea in Hbase. cbn. rewrite Hbase. reflexivity.
      - apply Hnone. intros f. cbn [stmt_ext]. destruct def as [|[[] a] [|y r]]; try reflexivity. rewrite Eg. reflexivity. }
    cbn [rbind]. eexists. split; [reflexivity|]. constructor; cbn [fst snd].
    + rewrite El1. exact I3.
    + unfold shapes. rewrite B3, B2, G2, flat_map_app. cbn. rewrite app_nil_r. exact H2.
    + exact F3.
    + intros x. rewrite H4, decl_for_snoc. reflexivity.
    + intros n. rewrite V3. apply V2.
Qed.

Lemma first_pass src ss :
  (Exists (bad_slice src) ss /\ rfold (index_stmt src) ss (index_empty, []) = Panic) \/
  (Forall (fun s => ~ bad_slice src s) ss /\ exists st, rfold (index_stmt src) ss (index_empty, []) = Val st /\ pass1 src ss st).
Proof.
  apply (rfold_pre (index_stmt src) (pass1 src) (bad_slice src) (stmt_ok src) ss []). constructor; cbn; try reflexivity.
  constructor; cbn; try (apply table_empty; intros n (o & [] & _)); try reflexivity.
  - intros [|id] fb H; discriminate.
  - intros o [].
Qed.

(** ** The second pass *)
Lemma containing_position l p : containing l p = position (fun s => span_contains s p) l.
Proof. induction l as [|s l IH]; cbn; [reflexivity|]. unfold span_contains at 1. destruct (_ && _); [reflexivity|]. rewrite IH. reflexivity. Qed.
Lemma position_map {A B} (g : A -> B) f (l : list A) : position (fun a => f (g a)) l = position f (map g l).
Proof. induction l as [|a l IH]; cbn; [reflexivity|]. destruct (f (g a)); [reflexivity|]. rewrite IH. reflexivity. Qed.
Lemma in_order_start n l s : ranges_in_order n l -> In s l -> n <= sp_start s.
Proof.
  revert n. induction l as [|x l IH]; intros n H; [contradiction|]. inversion H; subst. intros [<-|Hin]; [assumption|].
  specialize (IH _ H5 Hin). lia.
Qed.
Lemma containing_unique l p : forall n id s, ranges_in_order n l -> nth_error l id = Some s -> span_contains s p = true ->
  containing l p = Some id.
Proof.
  induction l as [|x l IH]; intros n [|id] s H Hn Hs; cbn in Hn; try discriminate; inversion H; subst; cbn [containing].
  - injection Hn as ->. unfold span_contains in Hs. rewrite Hs. reflexivity.
  - assert (sp_end x <= sp_start s) as Hle by (eapply in_order_start; [eassumption|eapply nth_error_In; eassumption]).
    unfold span_contains in Hs. apply andb_true_iff in Hs as [Hs1 Hs2]. apply Nat.leb_le in Hs1. apply Nat.ltb_lt in Hs2.
    assert ((p <? sp_end x) = false) as -> by (apply Nat.ltb_ge; lia). rewrite andb_false_r.
    rewrite (IH _ id s H5 Hn); [reflexivity|]. unfold span_contains. apply andb_true_iff. split; [apply Nat.leb_le|apply Nat.ltb_lt]; assumption.
Qed.
Lemma containing_some l p id : containing l p = Some id -> exists s, nth_error l id = Some s /\ span_contains s p = true.
Proof.
  revert id. induction l as [|x l IH]; intros id H; cbn in H; [discriminate|]. destruct (_ && _) eqn:E.
  - injection H as <-. exists x. auto.
  - destruct (containing l p) as [j|]; [|discriminate]. injection H as <-. apply IH. reflexivity.
Qed.
Definition sh_range (x : spanned * span * list basic_block * amap (list spanned)) : span := snd (fst (fst x)).
Lemma shapes_ranges ix : map complete_range (function_bodies ix) = map sh_range (shapes ix).
Proof. unfold shapes. rewrite map_map. reflexivity. Qed.
Lemma body_shape_range ss : map sh_range (flat_map body_shape ss) = flat_map func_ranges ss.
Proof. induction ss as [|s ss IH]; cbn; [reflexivity|]. rewrite map_app, IH. destruct s; reflexivity. Qed.

Record pass2 (src : text) (ss : list statement) (pre : list stoken) (st : hir_index * option nat) : Prop := {
  p2_index : index_is (fst st) (record_all (flat_map (token_occs ss) pre) (record_all (tree_occs 0 ss) []));
  p2_shapes : shapes (fst st) = flat_map body_shape ss;
  p2_ext : forall f, ext_of (functions (fst st)) f = ext_defs [] ss f;
  p2_vals : forall n, alookup n (dgb_annotation_values (fst st)) = ann_value src ss n;
  p2_cur : forall id, snd st = Some id -> id < length (function_bodies (fst st));
}.
Lemma token_ok src ss (Hr : ranges_in_order 0 (flat_map func_ranges ss)) pre st t : pass2 src ss pre st ->
  exists st', index_token st t = Val st' /\ pass2 src ss (pre ++ [t]) st'.
Proof.
  intros [H1 H2 H3 H4 H5]. destruct st as [ix cur]. cbn [fst snd] in *.
  assert (Hnop : token_occs ss t = [] -> forall cur', (forall id, cur' = Some id -> id < length (function_bodies ix)) ->
     pass2 src ss (pre ++ [t]) (ix, cur')).
  { intros E cur' Hc. constructor; cbn [fst snd]; auto. rewrite flat_map_app. cbn. rewrite E, app_nil_r. exact H1. }
  assert (Hone : forall o ix', token_occs ss t = [o] -> index_is ix' (record1 (record_all (flat_map (token_occs ss) pre) (record_all (tree_occs 0 ss) [])) o) ->
     index_is ix' (record_all (flat_map (token_occs ss) (pre ++ [t])) (record_all (tree_occs 0 ss) []))).
  { intros o ix' E H. rewrite flat_map_app, record_app. cbn [flat_map]. rewrite E. exact H. }
  destruct t as [t sp]. unfold index_token. cbn [fst snd].
  destruct t as [| | | |t|t|t| | | | | | |]; try (exists (ix, cur); split; [reflexivity|apply Hnop; [reflexivity|exact H5]]).
  - (* local name *)
    assert (length (function_bodies ix) = length (flat_map func_ranges ss)) as Hlen.
    { rewrite <- body_shape_range, <- H2, map_length. unfold shapes. rewrite map_length. reflexivity. }
    assert (Hrng : map complete_range (function_bodies ix) = flat_map func_ranges ss) by (rewrite shapes_ranges, H2; apply body_shape_range).
    assert (next_body ix cur (sp_start sp) = Val (containing (flat_map func_ranges ss) (sp_start sp))) as ->.
    { assert (find_body ix (sp_start sp) = containing (flat_map func_ranges ss) (sp_start sp)) as Hf.
      { unfold find_body. rewrite containing_position, <- Hrng, <- position_map. reflexivity. }
      unfold next_body. destruct cur as [id|]; [|rewrite Hf; reflexivity].
      destruct (nth_error (function_bodies ix) id) as [b|] eqn:Eb; [|apply nth_error_None in Eb; specialize (H5 id eq_refl); lia].
      destruct (span_contains (complete_range b) (sp_start sp)) eqn:Ec; [|rewrite Hf; reflexivity].
      rewrite (containing_unique _ _ 0 id (complete_range b) Hr); [reflexivity| |exact Ec].
      rewrite <- Hrng. apply map_nth_error. exact Eb. }
    cbn [rbind]. destruct (containing (flat_map func_ranges ss) (sp_start sp)) as [id|] eqn:Ec.
    + assert (id < length (function_bodies ix)) as Hid.
      { rewrite Hlen. apply containing_some in Ec as (s & Hs & _). apply nth_error_Some. congruence. }
      destruct (add_local_ok ix _ id KLocalVar Use sp t H1 (or_intror eq_refl) Hid) as (ix' & -> & G1 & G2 & G3 & G4).
      eexists. split; [reflexivity|]. constructor; cbn [fst snd].
      * eapply Hone; [unfold token_occs; cbn [fst snd]; rewrite Ec; reflexivity|exact G1].
      * rewrite G2. exact H2.
      * intros f. rewrite G3. apply H3.
      * intros n. rewrite G4. apply H4.
      * intros j E. injection E as <-. assert (length (shapes ix') = length (shapes ix)) as El by (rewrite G2; reflexivity).
        unfold shapes in El. rewrite !map_length in El. lia.
    + eexists. split; [reflexivity|]. apply Hnop; [unfold token_occs; cbn [fst snd]; rewrite Ec; reflexivity|discriminate].
  - (* global name *)
    assert (match alookup t (functions ix) with Some _ => add_global ix KFunction Use sp t | None => add_global ix KGlobalVar Use sp t end
        = add_global ix (if is_function ss t then KFunction else KGlobalVar) Use sp t) as ->.
    { assert (symbol_in (record_all (flat_map (token_occs ss) pre) (record_all (tree_occs 0 ss) [])) KFunction None t <-> is_function ss t = true) as Hiff.
      { rewrite !symbol_record, (function_symbols t ss 0). split; [|auto].
        intros [[(o & [] & _)|H]|(o & Ho & Ek & _ & En)]; [exact H|]. apply in_flat_map in Ho as ([t' sp'] & _ & Ho).
        unfold token_occs in Ho. cbn in Ho. destruct t'; try contradiction.
        + destruct (containing _ _); [|contradiction]. destruct Ho as [<-|[]]. discriminate Ek.
        + destruct Ho as [<-|[]]. cbn in Ek, En. subst. destruct (is_function ss t); congruence.
        + destruct Ho as [<-|[]]. discriminate Ek. }
      destruct H1 as [_ [_ It] _ _ _ _]. specialize (It t). destruct (alookup t (functions ix)).
      - destruct It as [It _]. apply Hiff in It. rewrite It. reflexivity.
      - destruct (is_function ss t); [|reflexivity]. exfalso. apply It, Hiff. reflexivity. }
    destruct (add_global_ok ix _ (if is_function ss t then KFunction else KGlobalVar) Use sp t H1) as (ix' & -> & G1 & G2 & G3 & G4).
    { destruct (is_function ss t); exact I. }
    eexists. split; [reflexivity|]. constructor; cbn [fst snd].
    + eapply Hone; [reflexivity|exact G1].
    + unfold shapes. rewrite G2. exact H2.
    + intros f. rewrite G4. apply H3.
    + intros n. rewrite G3. apply H4.
    + rewrite G2. exact H5.
  - (* debug reference *)
    destruct (add_global_ok ix _ KDbgAnnotation Use sp t H1 I) as (ix' & -> & G1 & G2 & G3 & G4).
    eexists. split; [reflexivity|]. constructor; cbn [fst snd].
    + eapply Hone; [reflexivity|exact G1].
    + unfold shapes. rewrite G2. exact H2.
    + intros f. rewrite G4. apply H3.
    + intros n. rewrite G3. apply H4.
    + rewrite G2. exact H5.
Qed.

Lemma rfold_total {A B} (f : A -> B -> res A) (P : list B -> A -> Prop) :
  (forall pre a b, P pre a -> exists a', f a b = Val a' /\ P (pre ++ [b]) a') ->
  forall l pre a, P pre a -> exists a', rfold f l a = Val a' /\ P (pre ++ l) a'.
Proof.
  intros Hs. induction l as [|b l IH]; intros pre a Ha; cbn; [exists a; rewrite app_nil_r; auto|].
  destruct (Hs pre a b Ha) as (a' & -> & Ha'). cbn [rbind]. destruct (IH _ _ Ha') as (a2 & H2 & H3).
  exists a2. rewrite <- app_assoc in H3. auto.
Qed.

(** ** Incoming branches *)
Lemma once_app a : forall seen b, once seen (a ++ b) = once seen a ++ once (seen ++ once seen a) b.
Proof.
  induction a as [|x a IH]; intros seen b; cbn; [rewrite app_nil_r; reflexivity|].
  destruct (existsb _ _); [apply IH|]. rewrite IH. cbn. rewrite <- app_assoc. reflexivity.
Qed.
Lemma inc_lookup t edges : 
  match alookup t (fold_left inc_add edges []) with Some l => l | None => [] end =
  once [] (flat_map (fun e => if text_eqb t (fst e) then [snd e] else []) edges).
Proof.
  induction edges as [|e edges IH] using rev_ind; [reflexivity|].
  rewrite fold_left_app, flat_map_app, once_app. cbn [fold_left flat_map app]. rewrite <- IH, app_nil_r.
  unfold inc_add at 1. rewrite alookup_aupdate. destruct (text_eqb_spec t (fst e)) as [->|]; [|cbn; rewrite app_nil_r; reflexivity].
  cbn [once]. destruct (existsb _ _); [rewrite app_nil_r|]; reflexivity.
Qed.
Lemma flat_map_flat_map {A B C} (f : A -> list B) (g : B -> list C) l : flat_map g (flat_map f l) = flat_map (fun a => flat_map g (f a)) l.
Proof. induction l as [|a l IH]; cbn; [reflexivity|]. rewrite flat_map_app, IH. reflexivity. Qed.
Lemma branches_edges t b : flat_map (fun e => if text_eqb t (fst e) then [snd e] else []) (block_edges b) = branches_to t b.
Proof.
  unfold block_edges, branches_to. rewrite flat_map_flat_map. destruct (bb_label b) as [l|].
  - apply flat_map_ext. intros i. unfold instr_edges. destruct (is_branching i); [|reflexivity].
    induction (i_refs i) as [|r rs IH]; cbn; [reflexivity|]. rewrite IH. reflexivity.
  - induction (bb_instrs b); [reflexivity|assumption].
Qed.
Lemma inc_nonempty t edges : alookup t (fold_left inc_add edges []) <> Some [].
Proof.
  induction edges as [|e edges IH] using rev_ind; [discriminate|].
  rewrite fold_left_app. cbn [fold_left]. unfold inc_add at 1. rewrite alookup_aupdate. destruct (text_eqb_spec t (fst e)) as [<-|]; [|exact IH].
  intros H. injection H as H. destruct (alookup t (fold_left inc_add edges [])) as [[|x l]|]; [exact (IH eq_refl)| |discriminate H].
  destruct (existsb (spanned_eqb (snd e)) (x :: l)); discriminate H.
Qed.
Lemma incoming_lookup t blocks : 
  alookup t (fold_left inc_add (flat_map block_edges blocks) []) = match incoming_labels blocks t with [] => None | l => Some l end.
Proof.
  set (inc := fold_left inc_add _ _). assert (match alookup t inc with Some l => l | None => [] end = incoming_labels blocks t) as <-.
  2: { pose proof (inc_nonempty t (flat_map block_edges blocks)) as Hn. fold inc in Hn. destruct (alookup t inc) as [[|]|]; congruence. }
  unfold inc. rewrite inc_lookup, flat_map_flat_map. unfold incoming_labels. f_equal. apply flat_map_ext. intros b. apply branches_edges.
Qed.

(** ** The index *)
Theorem create_index_ok src toks ss : ranges_in_order 0 (flat_map func_ranges ss) ->
  (Exists (bad_slice src) ss /\ create_index src toks ss = Panic) \/
  (Forall (fun s => ~ bad_slice src s) ss /\
   exists ix, create_index src toks ss = Val ix /\ index_of src ss toks ix /\ index_is ix (recorded ss toks)).
Proof.
  intros Hr. unfold create_index. destruct (first_pass src ss) as [[H1 ->]|[H1 (st & -> & [P1 P2 P3 P4 P5])]]; [left; auto|].
  right. split; [exact H1|]. cbn [rbind].
  destruct (rfold_total index_token (pass2 src ss) (token_ok src ss Hr) toks [] (fst st, None)) as ([ix cur] & -> & [Q1 Q2 Q3 Q4 _]).
  { constructor; cbn [fst snd flat_map]; auto. discriminate. }
  cbn [rbind]. exists ix. split; [reflexivity|]. cbn [fst snd app] in *.
  assert (recorded ss toks = record_all (flat_map (token_occs ss) toks) (record_all (tree_occs 0 ss) [])) as Hrec.
  { rewrite <- record_app, record_first_seen. reflexivity. }
  rewrite <- Hrec in Q1. split; [|exact Q1]. destruct Q1 as [I1 I2 I3 I4 I5 I6].
  assert (Hsh : forall id fb, nth_error (function_bodies ix) id = Some fb -> In (shape fb) (flat_map body_shape ss)).
  { intros id fb H. rewrite <- Q2. apply in_map. eapply nth_error_In. exact H. }
  constructor; auto.
  - transitivity (map (fun x => fst (fst (fst x))) (shapes ix)); [unfold shapes; rewrite map_map; reflexivity|].
    rewrite Q2. clear. induction ss as [|s ss IH]; cbn; [reflexivity|]. rewrite map_app, IH. destruct s; reflexivity.
  - rewrite shapes_ranges, Q2. apply body_shape_range.
  - transitivity (map (fun x => snd (fst x)) (shapes ix)); [unfold shapes; rewrite map_map; reflexivity|].
    rewrite Q2. clear. induction ss as [|s ss IH]; cbn; [reflexivity|]. rewrite map_app, IH. destruct s; reflexivity.
  - intros id fb H target. apply Hsh in H. apply in_flat_map in H as (s & _ & H). destruct s; try contradiction.
    destruct H as [H|[]]. unfold shape in H. injection H as _ _ H1' H2'. rewrite <- H2', <- H1'. apply incoming_lookup.
Qed.
