(** Documents whose parts are moved. *)
From Verif Require Import Text Rope Chumsky Tokenizer Parser Numbers Index SemTok Diag Rename Cfg Backtrace Server SpecText SpecLex SpecParse SpecIndex SpecDiag SpecBacktrace SpecCfg SpecView SpecSemTok SpecSum SpecSumView SpecMove
  PDiag ExamplesIndex ExamplesCfg ExamplesView ExamplesSum ExamplesSumView.

(** [@g] and [!2] are in the second part, [@v] in the third *)
Definition one91 : text := str "define void @f() {
a:
  call @g, @v, @none
  br a !2
}
".
Definition two91 : text := str "define void @g(int8 %x) {
b:
  int8 %x = add %x, 1
  br b !2
}
!2 = {}
".
Definition three91 : text := str "# below
@v = 5

".
Definition parts91 : list piece := [piece_of one91; piece_of two91; piece_of three91].
Definition moved91 : list piece := [piece_of three91; piece_of two91; piece_of one91].
Definition apartb (p q : piece) : bool :=
  forallb (fun x => forallb (fun y => negb (is_definition x && is_definition y && (if body_dec (o_body x) None then true else false) && same_symbolb x y)) (tree_occs 0 (pr_stmts (pc_result q)))) (tree_occs 0 (pr_stmts (pc_result p))).
Lemma apartb_ok p q : apartb p q = true -> defines_apart p q.
Proof.
  intros H x y Hx Hy X1 Y1 X2 Y2 Hs. unfold apartb in H. rewrite forallb_forall in H. specialize (H x Hx). rewrite forallb_forall in H. specialize (H y Hy).
  unfold is_definition in H. rewrite X1, Y1, X2 in H. cbn [andb] in H. destruct (body_dec None None) as [_|C]; [|congruence]. destruct Hs as (S1 & S2 & S3).
  unfold same_symbolb in H. rewrite S1, S3, X2, Y2, text_eqb_refl in H. destruct (kind_dec _ _); [|congruence]. destruct (body_dec None None) as [_|C]; [|congruence]. discriminate.
Qed.
Ltac piece91 t := split; [right; exists (removelast t); vm_compute; reflexivity|]; split; vm_compute; reflexivity.
Lemma good91 : Forall (good_piece (e_u env13)) parts91.
Proof. constructor; [piece91 one91|]. constructor; [piece91 two91|]. constructor; [piece91 three91|constructor]. Qed.
Lemma apart91 : all_apart parts91.
Proof.
  constructor; [constructor; [apply apartb_ok; vm_compute; reflexivity|constructor; [apply apartb_ok; vm_compute; reflexivity|constructor]]|].
  constructor; [constructor; [apply apartb_ok; vm_compute; reflexivity|constructor]|]. constructor; constructor.
Qed.
Lemma plain91 : plain_document (whole parts91).
Proof. split; [|split]; vm_compute; reflexivity. Qed.
Lemma perm91 : Permutation parts91 moved91.
Proof. apply (Permutation_rev parts91). Qed.
Lemma opened91 : opened env13 (sv13 (whole parts91)) (str "f") (whole parts91) (doc_of env13 (whole parts91)) /\ opened env13 (sv13 (whole moved91)) (str "f") (whole moved91) (doc_of env13 (whole moved91)).
Proof. split; (split; [reflexivity|]); [exists (diags13 (whole parts91))|exists (diags13 (whole moved91))]; vm_compute; reflexivity. Qed.
Definition said (l : list diagnostic) : list (nat * text) := map (fun x => (p_line (r_start (d_range x)), d_message x)) l.
Definition places (l : list folding) : list (nat * nat) := map (fun x => (fo_start x, fo_end x)) l.
Definition undef91 (n : text) : text := str "Use of undefined symbol `" ++ n ++ str "`".
Definition again91 (n : text) : text := str "Symbol `" ++ n ++ str "` already defined previously".
Lemma said91 : said (diags13 one91) = [(2, undef91 (str "@none")); (2, undef91 (str "@v")); (2, undef91 (str "@g")); (3, undef91 (str "!2"))] /\
  said (diags13 (whole parts91)) = [(2, undef91 (str "@none")); (7, again91 (str "%x"))] /\ said (diags13 (whole moved91)) = [(11, undef91 (str "@none")); (5, again91 (str "%x"))].
Proof. split; [|split]; vm_compute; reflexivity. Qed.
Lemma folds91 : places (folds13 (whole parts91)) = [(0, 4); (5, 9); (1, 3); (6, 8)] /\ places (folds13 (whole moved91)) = [(3, 7); (9, 13); (4, 6); (10, 12)].
Proof. split; vm_compute; reflexivity. Qed.
(** the hint at [br a !2] is not shown for the first part alone *)
Lemma hints91 : map ih_pos (hints13 one91) = [mkPos 1 2; mkPos 4 1] /\ map ih_pos (hints13 (whole parts91)) = [mkPos 1 2; mkPos 6 2; mkPos 3 9; mkPos 8 9; mkPos 4 1; mkPos 9 1] /\
  map ih_pos (hints13 (whole moved91)) = [mkPos 4 2; mkPos 10 2; mkPos 6 9; mkPos 12 9; mkPos 7 1; mkPos 13 1].
Proof. split; [|split]; vm_compute; reflexivity. Qed.
(** ** Names defined in two parts *)
Definition clash91 : list piece := [piece_of top_; piece_of clash_].
Lemma good_clash91 : Forall (good_piece (e_u env13)) clash91.
Proof. constructor; [piece91 top_|]. constructor; [piece91 clash_|constructor]. Qed.
Lemma plain_clash91 : plain_document (whole clash91).
Proof. split; [|split]; vm_compute; reflexivity. Qed.
Lemma clash_not_moved : ~ exists f, forall qs, Permutation clash91 qs -> exists d l, analyze env13 (str "f") (whole qs) = Val (d, l) /\ Permutation l (stacked lower_diagnostic f 0 qs).
Proof.
  intros (f & H). destruct (H clash91 (Permutation_refl _)) as (d1 & l1 & E1 & P1). destruct (H [piece_of clash_; piece_of top_] (perm_swap _ _ _)) as (d2 & l2 & E2 & P2). clear H.
  assert (l1 = diags13 (whole clash91)) as -> by (unfold diags13; rewrite E1; reflexivity). assert (l2 = diags13 (whole [piece_of clash_; piece_of top_])) as -> by (unfold diags13; rewrite E2; reflexivity). clear E1 E2.
  pose (ln := fun x : diagnostic => p_line (r_start (d_range x))).
  assert (A1 : map ln (diags13 (whole clash91)) = [5; 8]) by (vm_compute; reflexivity). assert (A2 : map ln (diags13 (whole [piece_of clash_; piece_of top_])) = [4; 8]) by (vm_compute; reflexivity).
  apply (Permutation_map ln) in P1, P2. rewrite A1 in P1. rewrite A2 in P2. clear A1 A2. cbn [stacked clash91] in P1, P2. rewrite app_nil_r, map_app in P1, P2.
  assert (L1 : lsp_line_ends (pc_text (piece_of top_)) = 5) by (vm_compute; reflexivity). assert (L2 : lsp_line_ends (pc_text (piece_of clash_)) = 4) by (vm_compute; reflexivity). rewrite L1 in P1. rewrite L2 in P2.
  assert (M : forall n l, map ln (map (lower_diagnostic n) l) = map (fun k => n + k) (map ln l)) by (intros n l; rewrite !map_map; apply map_ext; reflexivity).
  rewrite !M in P1, P2. clear M. set (a := map ln (f (piece_of top_))) in *. set (b := map ln (f (piece_of clash_))) in *. clearbody a b.
  assert (a = []) as ->.
  { destruct a as [|x a]; [reflexivity|]. exfalso. assert (In x [5; 8]) as X by (apply (Permutation_in _ (Permutation_sym P1)); left; reflexivity). assert (In (4 + x) [4; 8]) as Y by (apply (Permutation_in _ (Permutation_sym P2)); apply in_app_iff; right; left; reflexivity). cbn in X, Y. lia. }
  assert (b = []) as ->.
  { destruct b as [|x b]; [reflexivity|]. exfalso. assert (In x [4; 8]) as X by (apply (Permutation_in _ (Permutation_sym P2)); left; reflexivity). assert (In (5 + x) [5; 8]) as Y by (apply (Permutation_in _ (Permutation_sym P1)); left; reflexivity). cbn in X, Y. lia. }
  apply Permutation_sym, Permutation_nil in P1. discriminate.
Qed.
