(** A document with labels, for the examples of PropertiesPatch.v and PropertiesRebind.v. *)
From Verif Require Import Text Rope Chumsky Tokenizer Parser Numbers Index SemTok Diag Rename Cfg Backtrace Server SpecText SpecLex SpecParse SpecIndex SpecDiag SpecBacktrace SpecNumbers SpecCfg SpecView SpecRename SpecPatch SpecSimilar SpecRebind
  ExamplesIndex ExamplesCfg ExamplesView ExamplesRename ExamplesPatch.

Definition doc12 : text := str "define void @g(int1 %x) {
  br int1 %x,a_1,b_2
a_1: # comment
  br b_2
b_2:
  phi [a_1, %x]
}
".
Definition d12 : doc := doc_of env8 doc12.
Definition s12 : server := mkServer [root8] false [(str "f", d12)].
Definition occs12 : list occurrence := SpecIndex.recorded (pr_stmts (pr_of doc12)) (pr_tokens (pr_of doc12)).
Definition o12 : occurrence := mkOcc (mkSpan 47 50) Def KLabel (str "a_1") (Some 0).
Lemma opened12 : plain_document doc12 /\ visits_all (e_ord env8) /\ opened env8 s12 (str "f") doc12 d12.
Proof.
  split; [split; [|split]; vm_compute; reflexivity|]. split; [apply opened10|].
  split; [reflexivity|]. exists (match analyze env8 (str "f") doc12 with Val (_, ds) => ds | Panic => [] end). vm_compute. reflexivity.
Qed.
(** doc12 with a_1 renamed to loop, and with the numbers moved by 3 *)
Definition doc12_renamed : text := str "define void @g(int1 %x) {
  br int1 %x,loop,b_2
loop: # comment
  br b_2
b_2:
  phi [loop, %x]
}
".
Definition doc12_moved : text := str "define void @g(int1 %x) {
  br int1 %x,a_4,b_5
a_4: # comment
  br b_5
b_5:
  phi [a_4, %x]
}
".
Lemma patched12 : patched doc12 (edits_of (rename env8 s12 (str "f") (lsp_position doc12 48) (str "loop"))) = doc12_renamed /\
  patched doc12 (edits_of (rename env8 s12 (str "f") (lsp_position doc12 48) (str "+3"))) = doc12_moved.
Proof. split; vm_compute; reflexivity. Qed.
Lemma clean12 : tokenize (e_u env8) doc12 = Val (Some (pr_tokens (pr_of doc12)), []).
Proof. vm_compute. reflexivity. Qed.
Lemma accepted12 : accepted (e_u env8) KLabel (str "loop") (str "loop") /\ (forall b, str "loop" <> b ++ [ch ":"]) /\ free_word (str "loop") /\ plain_word (o_name o12) /\ plain_word (str "loop").
Proof.
  assert (forall w c b, str w = b ++ [ch ":"] -> last (str w) c = ch ":") as L by (intros w c b ->; apply last_last).
  split.
  - exists (ch "l"), (str "oop"). split; [left; reflexivity|]. split; [reflexivity|].
    split; [|vm_compute; discriminate]. repeat (apply Forall_cons; [vm_compute; auto|]). apply Forall_nil.
  - split; [intros b E; apply (L _ 0%N) in E; discriminate E|]. split.
    + split; [discriminate|]. intros t H. unfold reserved in H. cbn [In] in H. repeat (destruct H as [H|H]; [discriminate H|]). exact H.
    + assert (forall w, In w [str "a_1"; str "loop"] -> plain_word w) as G; [|split; apply G; cbn; auto].
      intros w Hw. split.
      * destruct Hw as [<-|[<-|[]]]; unfold special_words; cbn [map In]; intros H; repeat (destruct H as [H|H]; [discriminate H|]); exact H.
      * intros (q & E). change (str "br") with ([ch "b"] ++ [ch "r"]) in E. rewrite app_assoc in E. apply (f_equal (fun l => last l 0%N)) in E. rewrite last_last in E. destruct Hw as [<-|[<-|[]]]; discriminate E.
Qed.
Lemma o12_at : In o12 occs12 /\ covers (o_span o12) 48 /\ o_kind o12 = KLabel.
Proof. split; [vm_compute; tauto|]. split; [split; vm_compute; lia|reflexivity]. Qed.
Lemma label_names12 x : In x occs12 -> in_scope o12 x -> o_name x = str "a_1" \/ o_name x = str "b_2".
Proof.
  intros Hx [Hk _]. assert (forallb (fun x => match o_kind x with KLabel => text_eqb (o_name x) (str "a_1") || text_eqb (o_name x) (str "b_2") | _ => true end) occs12 = true) as G by (vm_compute; reflexivity).
  rewrite forallb_forall in G. specialize (G x Hx). rewrite Hk in G. cbn [o12 o_kind] in G. apply orb_true_iff in G as [G|G]; apply text_eqb_eq in G; auto.
Qed.
(** the number of a label with three characters *)
Lemma three a d p ds n : (a = ch "a" \/ a = ch "b") -> (49 <= d <= 50)%N -> numbered [a; ch "_"; d] p ds n -> p = [a; ch "_"] /\ ds = [d] /\ (n <= 2)%N /\ canonical_decimal n ds.
Proof.
  intros Ha Hd (E & Hne & Hall & Hv & _). destruct p as [|x [|y p]].
  - exfalso. cbn [app] in E. subst ds. specialize (Hall a (or_introl eq_refl)). destruct Ha as [->| ->]; cbn in Hall; lia.
  - exfalso. injection E as _ <-. specialize (Hall (ch "_") (or_introl eq_refl)). cbn in Hall. lia.
  - injection E as <- <- E. destruct p as [|z p].
    + cbn [app] in E. subst ds. split; [reflexivity|]. split; [reflexivity|]. unfold decimal_value in Hv. cbn in Hv. split; [lia|]. split; [discriminate|]. split; [exact Hall|]. split; [exact Hv|]. right. exists d, []. split; [reflexivity|]. cbn. lia.
    + exfalso. apply Hne. injection E as _ E. symmetry in E. apply app_eq_nil in E. tauto.
Qed.
Lemma three_name x p ds n : In x occs12 -> in_scope o12 x -> numbered (o_name x) p ds n -> (p = str "a_" \/ p = str "b_") /\ (n <= 2)%N /\ canonical_decimal n ds.
Proof.
  intros Hx Hs Hn. destruct (label_names12 x Hx Hs) as [E|E]; rewrite E in Hn.
  - destruct (three (ch "a") 49%N p ds n (or_introl eq_refl) ltac:(lia) Hn) as (-> & _ & H). auto.
  - destruct (three (ch "b") 50%N p ds n (or_intror eq_refl) ltac:(lia) Hn) as (-> & _ & H). auto.
Qed.
Lemma shift12 : has_number (o_name o12) 1 /\ asks_shift (str "+3") 3 /\ no_overflow occs12 o12 1 3 /\ (forall x y, In x occs12 -> moved o12 1 3 x y -> free_word y) /\
  ~ global (o_kind o12) /\ forall x, In x occs12 -> in_scope o12 x -> no_leading_zeros (o_name x) /\ forall m, has_number (o_name x) m -> fits_i64 (Z.of_N m + 3).
Proof.
  split.
  { exists (str "a_"), (str "1"). split; [|discriminate]. apply (num_digit 49%N ltac:(lia) (str "a_")). right. exists (str "a"), (ch "_"). split; [reflexivity|cbn; lia]. }
  split; [apply o10_ok|]. split.
  { split; [unfold fits_i64; lia|]. intros x n Hx Hs (p & ds & Hn & _) _. destruct (three_name x p ds n Hx Hs Hn) as (_ & H & _). unfold fits_i64. lia. }
  split.
  { intros x y Hx [Hs (p & ds & n & ds' & Hn & _ & _ & _ & ->)]. destruct (three_name x p ds n Hx Hs Hn) as ([-> | ->] & _); (split; [discriminate|]); intros t H; unfold reserved in H; cbn [In] in H;
      repeat (destruct H as [H|H]; [discriminate H|]); exact H. }
  split; [intros [H|H]; discriminate H|]. intros x Hx Hs. split.
  - intros p ds n Hn. destruct (three_name x p ds n Hx Hs Hn) as (_ & _ & H). exact H.
  - intros m (p & ds & Hn & _). destruct (three_name x p ds m Hx Hs Hn) as (_ & H & _). unfold fits_i64. lia.
Qed.
Lemma unused12 : unused occs12 o12 (str "loop").
Proof.
  intros x Hx _ _. assert (forallb (fun x => negb (text_eqb (o_name x) (str "loop"))) occs12 = true) as G by (vm_compute; reflexivity).
  rewrite forallb_forall in G. specialize (G x Hx). apply negb_true_iff in G. apply text_eqb_neq. exact G.
Qed.

(** ** Labels that become keywords *)
Lemma keyword_label : exists e s uri src d p new edits, plain_document src /\ opened e s uri src d /\ p <= length src /\
  (exists o, In o (recorded (doc_stmts d) (pr_tokens (pr_of src))) /\ covers (o_span o) p /\ o_kind o = KLabel /\ accepted (e_u e) KLabel new new) /\
  rename e s uri (lsp_position src p) new = Val (Reply edits) /\ pr_errors (pr_of src) = [] /\ pr_errors (pr_of (patched src edits)) <> [].
Proof.
  exists env8, s12, (str "f"), doc12, d12, 48, (str "ptr"), (edits_of (rename env8 s12 (str "f") (lsp_position doc12 48) (str "ptr"))).
  split; [apply opened12|]. split; [apply opened12|]. split; [vm_compute; lia|]. split.
  { exists o12. split; [vm_compute; tauto|]. split; [apply o12_at|]. split; [reflexivity|]. exists (ch "p"), (str "tr"). split; [left; reflexivity|]. split; [reflexivity|].
    split; [|vm_compute; discriminate]. repeat (apply Forall_cons; [vm_compute; auto|]). apply Forall_nil. }
  split; [vm_compute; reflexivity|]. split; [vm_compute; reflexivity|]. vm_compute. discriminate.
Qed.
Definition doc13 : text := str "define void @g() {
  br int7
int7:
  ret
}
".
Definition d13 : doc := doc_of env8 doc13.
Definition s13 : server := mkServer [root8] false [(str "f", d13)].
Lemma opened13 : plain_document doc13 /\ opened env8 s13 (str "f") doc13 d13.
Proof.
  split; [split; [|split]; vm_compute; reflexivity|].
  split; [reflexivity|]. exists (match analyze env8 (str "f") doc13 with Val (_, ds) => ds | Panic => [] end). vm_compute. reflexivity.
Qed.
Lemma keyword_shift : exists e s uri src d p edits, plain_document src /\ opened e s uri src d /\ p <= length src /\
  rename e s uri (lsp_position src p) (str "+1") = Val (Reply edits) /\ pr_errors (pr_of src) = [] /\ pr_errors (pr_of (patched src edits)) <> [].
Proof.
  exists env8, s13, (str "f"), doc13, d13, 25, (edits_of (rename env8 s13 (str "f") (lsp_position doc13 25) (str "+1"))).
  split; [apply opened13|]. split; [apply opened13|]. split; [vm_compute; lia|]. split; [vm_compute; reflexivity|]. split; [vm_compute; reflexivity|]. vm_compute. discriminate.
Qed.
