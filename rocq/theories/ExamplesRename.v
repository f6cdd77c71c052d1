(** Documents for the examples of PropertiesRename.v. *)
From Verif Require Import Text Rope Chumsky Tokenizer Parser Numbers Index SemTok Diag Rename Cfg Backtrace Server SpecText SpecLex SpecIndex SpecDiag SpecBacktrace SpecNumbers SpecCfg SpecView SpecRename
  PNumbers ExamplesIndex ExamplesCfg ExamplesView.

Definition doc10 : text := str "define void @g(int1 %1, int1 %2) {
  int1 %5 = add %1, %2
  int1 %x = add %5, @v
  int1 %y = add %4, @v
}
@v = 5".
Definition d10 : doc := doc_of env8 doc10.
Definition s10 : server := mkServer [root8] false [(str "f", d10)].
Lemma opened10 : plain_document doc10 /\ visits_all (e_ord env8) /\ opened env8 s10 (str "f") doc10 d10.
Proof.
  split; [split; [|split]; vm_compute; reflexivity|]. split; [intros m; apply Permutation_sym, Permutation_rev|].
  split; [reflexivity|]. exists (match analyze env8 (str "f") doc10 with Val (_, ds) => ds | Panic => [] end). vm_compute. reflexivity.
Qed.
(** place [n] of the line *)
Definition at10 (l n : nat) : position_ := mkPos l n.
Definition occs10 : list occurrence := SpecIndex.recorded (pr_stmts (pr_of doc10)) (pr_tokens (pr_of doc10)).
(** the first occurrence of %2 (in the parameter list) *)
Definition o10 : occurrence := mkOcc (mkSpan 29 31) Def KLocalVar (str "%2") (Some 0).
Lemma num_digit c : (48 <= c <= 57)%N -> forall p, (p = [] \/ exists q x, p = q ++ [x] /\ ~ (48 <= x <= 57)%N) -> numbered (p ++ [c]) p [c] (decimal_value [c]).
Proof.
  intros H p Hp. split; [reflexivity|]. split; [discriminate|]. split; [intros x [<-|[]]; exact H|]. split; [reflexivity|exact Hp].
Qed.
Lemma o10_ok : In o10 occs10 /\ covers (o_span o10) 30 /\ has_number (o_name o10) 2 /\ asks_shift (str "+3") 3 /\ no_overflow occs10 o10 2 3.
Proof.
  assert (Hn : forall x n, In x occs10 -> has_number (o_name x) n -> (n <= 5)%N).
  { intros x n Hx (p & ds & Hnum & Hle). assert (ascii_text (o_name x) = true) as Ha.
    { assert (forallb (fun x => ascii_text (o_name x)) occs10 = true) as G by (vm_compute; reflexivity). rewrite forallb_forall in G. apply G. exact Hx. }
    pose proof (extract_spec_some u0 _ _ _ _ Ha Hnum) as E. apply N.leb_le in Hle. rewrite Hle in E.
    assert (forallb (fun x => match extract_number_from_identifier u0 (o_name x) with Val (Some (_, z)) => (z <=? 5)%Z | _ => true end) occs10 = true) as G by (vm_compute; reflexivity).
    rewrite forallb_forall in G. specialize (G x Hx). rewrite E in G. apply Z.leb_le in G. lia. }
  split; [vm_compute; tauto|]. split; [split; vm_compute; lia|]. split.
  { exists (str "%"), (str "2"). split; [|discriminate]. apply (num_digit 50%N ltac:(lia) (str "%")). right. exists [], 37%N. split; [reflexivity|lia]. }
  split.
  { exists (str "3"), 3%Z. split; [|left; split; reflexivity]. exists (str "3"). split; [discriminate|]. split; [intros c [<-|[]]; cbn; lia|]. split; [lia|]. left. split; reflexivity. }
  split; [unfold fits_i64; lia|]. intros x n Hx _ Hnum _. apply Hn in Hnum; [|exact Hx]. unfold fits_i64. lia.
Qed.
Lemma num12 : numbered (str "%12") (str "%") (str "12") 12.
Proof.
  split; [reflexivity|]. split; [discriminate|]. split; [intros c [<-|[<-|[]]]; cbn; lia|]. split; [reflexivity|]. right. exists [], 37%N. split; [reflexivity|lia].
Qed.
Lemma num2 : numbered (str "%2") (str "%") (str "2") 2.
Proof. apply (num_digit 50%N ltac:(lia) (str "%")). right. exists [], 37%N. split; [reflexivity|lia]. Qed.
Lemma canon15 : canonical_decimal 15 (str "15").
Proof. split; [discriminate|]. split; [intros c [<-|[<-|[]]]; cbn; lia|]. split; [reflexivity|]. right. exists (ch "1"), (str "5"). split; [reflexivity|discriminate]. Qed.
Lemma canon9 : canonical_decimal 9 (str "9").
Proof. split; [discriminate|]. split; [intros c [<-|[]]; cbn; lia|]. split; [reflexivity|]. right. exists (ch "9"), []. split; [reflexivity|discriminate]. Qed.
Lemma up10 : no_leading_zeros (str "%2") /\ no_leading_zeros (str "%12") /\ (forall n, has_number (str "%2") n -> fits_i64 (Z.of_N n + 3)) /\
  moves_or_stays 3 3 (str "%2") (str "%2") /\ moves_or_stays 3 3 (str "%12") (str "%15").
Proof.
  assert (forall n, has_number (str "%2") n -> n = 2%N) as H2. { intros n (p & ds & H & _). apply (numbered_unique _ _ _ _ _ _ _ H num2). }
  split. { intros p ds n H. destruct (numbered_unique _ _ _ _ _ _ _ H num2) as (_ & -> & ->). split; [discriminate|]. split; [apply num2|]. split; [reflexivity|]. right. exists (ch "2"), []. split; [reflexivity|discriminate]. }
  split. { intros p ds n H. destruct (numbered_unique _ _ _ _ _ _ _ H num12) as (_ & -> & ->). split; [discriminate|]. split; [apply num12|]. split; [reflexivity|]. right. exists (ch "1"), (str "2"). split; [reflexivity|discriminate]. }
  split. { intros n Hn. rewrite (H2 n Hn). unfold fits_i64. lia. }
  split. { right. split; [|reflexivity]. intros n Hn. rewrite (H2 n Hn). lia. }
  left. exists (str "%"), (str "12"), 12%N, (str "15"). split; [exact num12|]. split; [discriminate|]. split; [lia|]. split; [exact canon15|reflexivity].
Qed.
Lemma down10 : moves 5 (-3) (str "%12") (str "%9") /\ forall n, has_number (str "%12") n -> (5 <= n)%N -> (0 <= Z.of_N n + -3)%Z.
Proof.
  split; [exists (str "%"), (str "12"), 12%N, (str "9"); split; [exact num12|]; split; [discriminate|]; split; [lia|]; split; [exact canon9|reflexivity]|]. intros. lia.
Qed.

(** ** What goes wrong *)
(** %5 moved down by one meets %4 *)
Lemma shift_down_meets : exists e s uri src d p edits, plain_document src /\ visits_all (e_ord e) /\ opened e s uri src d /\ p <= length src /\
  rename e s uri (lsp_position src p) (str "-1") = Val (Reply edits) /\
  (exists a, In a edits /\ te_text a = str "%4") /\
  exists o, In o (SpecIndex.recorded (pr_stmts (pr_of src)) (pr_tokens (pr_of src))) /\ o_name o = str "%4" /\
    forall a, In a edits -> te_range a <> lsp_range src (o_span o).
Proof.
  exists env8, s10, (str "f"), doc10, d10, 43.
  exists [mkEdit (mkRange (mkPos 1 7) (mkPos 1 9)) (str "%4"); mkEdit (mkRange (mkPos 2 16) (mkPos 2 18)) (str "%4")].
  split; [apply opened10|]. split; [apply opened10|]. split; [apply opened10|]. split; [vm_compute; lia|]. split; [vm_compute; reflexivity|].
  split; [eexists; split; [left; reflexivity|reflexivity]|]. exists (mkOcc (mkSpan 97 99) Use KLocalVar (str "%4") (Some 0)). split; [vm_compute; tauto|]. split; [reflexivity|].
  intros a [<-|[<-|[]]]; vm_compute; discriminate.
Qed.
Lemma empty_name_panics : exists e s uri src d p, plain_document src /\ visits_all (e_ord e) /\ opened e s uri src d /\ p <= length src /\
  rename e s uri (lsp_position src p) [] = Panic /\ rename e s uri (lsp_position src p) (str "%") = Panic.
Proof.
  exists env8, s10, (str "f"), doc10, d10, 43.
  split; [apply opened10|]. split; [apply opened10|]. split; [apply opened10|]. split; [vm_compute; lia|]. split; vm_compute; reflexivity.
Qed.
(** the largest shift on %5; and minus the smallest number *)
Lemma overflow_panics : exists e s uri src d p, plain_document src /\ visits_all (e_ord e) /\ opened e s uri src d /\ p <= length src /\
  rename e s uri (lsp_position src p) (str "+9223372036854775807") = Panic /\ rename e s uri (lsp_position src p) (str "--9223372036854775808") = Panic.
Proof.
  exists env8, s10, (str "f"), doc10, d10, 43.
  split; [apply opened10|]. split; [apply opened10|]. split; [apply opened10|]. split; [vm_compute; lia|]. split; vm_compute; reflexivity.
Qed.
