(** What the editor shows after a rename. *)
From Verif Require Import Text Rope Chumsky Tokenizer Parser Numbers Index SemTok Diag Rename Cfg Backtrace Server SpecText SpecLex SpecParse SpecIndex SpecDiag SpecBacktrace SpecNumbers SpecCfg SpecView SpecRename SpecPatch SpecSimilar SpecRebind SpecSteps SpecAfter
  PText PRope PLexSpec PLexProps PParse PParseProps PNumbers PHints PNav PIndex PIndexDoc PIndexText PDiag PRename PRelex PRetree PRebind PUndo PSteps PDiagDoc PKeep.

(** ** Walking over a text piece by piece *)
Definition starts_lf (t : text) : bool := match t with c :: _ => (c =? LF)%N | [] => false end.
Lemma eol_heads c r r' : starts_lf r = starts_lf r' -> lsp_eol c r = lsp_eol c r'.
Proof. unfold starts_lf, lsp_eol. destruct r as [|a r], r' as [|b r']; intros H; (reflexivity || (rewrite <- H; reflexivity) || (rewrite H; reflexivity)). Qed.
Lemma scan_app x : forall r p l c, lsp_scan (x ++ r) (length x + p) l c = lsp_scan r p (p_line (lsp_scan (x ++ r) (length x) l c)) (p_char (lsp_scan (x ++ r) (length x) l c)).
Proof.
  induction x as [|a x IH]; intros r p l c; [cbn [app length Nat.add]; destruct r; reflexivity|].
  cbn [app length Nat.add lsp_scan]. destruct (lsp_eol a (x ++ r)); apply IH.
Qed.
(** the same piece in two texts: later lines start afresh, in the same line the distance is kept *)
Lemma scan_twice x : forall r r' l c c', starts_lf r = starts_lf r' ->
  let q := lsp_scan (x ++ r) (length x) l c in let q' := lsp_scan (x ++ r') (length x) l c' in
  p_line q = p_line q' /\ ((l < p_line q /\ p_char q = p_char q') \/ (p_line q = l /\ exists k, p_char q = c + k /\ p_char q' = c' + k)).
Proof.
  induction x as [|a x IH]; intros r r' l c c' H; cbn [app length lsp_scan].
  - destruct r, r'; cbn [lsp_scan p_line p_char]; (split; [reflexivity|right; split; [reflexivity|exists 0; lia]]).
  - rewrite (eol_heads a (x ++ r) (x ++ r')) by (destruct x; [exact H|reflexivity]). destruct (lsp_eol a (x ++ r')).
    + destruct (IH r r' (S l) 0 0 H) as [E [[E1 E2]|[E1 (k & E2 & E3)]]]; (split; [exact E|left]); (split; [|lia]); cbn zeta in *; lia.
    + destruct (IH r r' l (c + utf16_len a) (c' + utf16_len a) H) as [E [E1|[E1 (k & E2 & E3)]]]; (split; [exact E|]); [left; exact E1|right]. split; [exact E1|]. exists (utf16_len a + k). lia.
Qed.
(** a piece within a line *)
Definition one_line (w : text) : Prop := ~ In LF w /\ ~ In CR w.
Lemma scan_one_line w : one_line w -> lsp_plain w = true -> forall r l c, lsp_scan (w ++ r) (length w) l c = mkPos l (c + length w).
Proof.
  induction w as [|a w IH]; intros [H1 H2] P r l c; cbn [app length lsp_scan]; [rewrite Nat.add_0_r; destruct r; reflexivity|].
  unfold lsp_plain in P. cbn [forallb] in P. apply andb_true_iff in P as [Pa P].
  assert (lsp_eol a (w ++ r) = false) as ->.
  { unfold lsp_eol. destruct (N.eqb_spec a LF) as [->|_]; [destruct H1; left; reflexivity|]. destruct (N.eqb_spec a CR) as [->|_]; [destruct H2; left; reflexivity|]. reflexivity. }
  assert (utf16_len a = 1) as ->.
  { unfold lsp_plain_char in Pa. apply andb_true_iff in Pa as [_ Pa]. unfold utf16_len. rewrite Pa. reflexivity. }
  rewrite IH; [f_equal; lia| |exact P]. split; intros G; [apply H1|apply H2]; right; exact G.
Qed.

(** ** Places after edits within lines *)
Section Carry.
Variables (u : uclass) (src src' : text) (edits : list text_edit).
Hypothesis Hsrc : plain_document src.
Hypothesis Hsrc' : plain_document src'.
Hypothesis Hsep : ForallOrdPairs (fun a b => separate (te_range a) (te_range b)) edits.
Hypothesis Hnon : Forall (fun a => nonempty (te_range a)) edits.
Notation pos := (lsp_position src).
Notation pos' := (lsp_position src').
Definition spanned_by (ed : text_edit) (s : span) : Prop := te_range ed = lsp_range src s /\ sp_start s < sp_end s /\ sp_end s <= length src.

Lemma front_iff p ed s : p <= length src -> spanned_by ed s -> (in_front (pos p) ed = true <-> p_line (pos (sp_end s)) = p_line (pos p) /\ sp_end s <= p).
Proof.
  intros Hp (E & H1 & H2). unfold in_front. rewrite E. cbn [lsp_range r_end]. rewrite andb_true_iff, Nat.eqb_eq, Nat.leb_le. split; intros [G1 G2]; (split; [exact G1|]).
  - destruct (le_lt_dec (sp_end s) p) as [G|G]; [exact G|]. destruct (position_before src Hsrc p (sp_end s) G H2) as [L|[L1 L2]]; lia.
  - destruct (position_le src Hsrc (sp_end s) p G2 Hp) as [L|[L1 L2]]; lia.
Qed.
Lemma front_false p ed s : p <= length src -> spanned_by ed s -> ~ (p_line (pos (sp_end s)) = p_line (pos p) /\ sp_end s <= p) -> in_front (pos p) ed = false.
Proof. intros Hp Hs H. destruct (in_front (pos p) ed) eqn:E; [|reflexivity]. destruct H. apply (front_iff p ed s Hp Hs), E. Qed.
Lemma line_le p q : p <= q -> q <= length src -> p_line (pos p) <= p_line (pos q).
Proof. intros H1 H2. destruct (position_le src Hsrc p q H1 H2) as [L|[L _]]; lia. Qed.

Definition inv (i j : nat) : Prop :=
  p_line (pos' j) = p_line (pos i) /\ p_char (pos' j) + taken_away (filter (in_front (pos i)) edits) = p_char (pos i) + put_in (filter (in_front (pos i)) edits).
Lemma inv_carried i j : inv i j -> pos' j = carried edits (pos i).
Proof. intros [H1 H2]. unfold carried. destruct (pos' j) as [l c]. cbn [p_line p_char] in *. f_equal; lia. Qed.

Lemma pos_app (s pre x r : text) : s = pre ++ x ++ r ->
  lsp_position s (length pre + length x) = lsp_scan (x ++ r) (length x) (p_line (lsp_position s (length pre))) (p_char (lsp_position s (length pre))).
Proof. intros ->. unfold lsp_position. apply scan_app. Qed.
Lemma filter_ext_in' {A} (f g : A -> bool) l : (forall a, In a l -> f a = g a) -> filter f l = filter g l.
Proof. intros H. apply filter_ext_in. exact H. Qed.

Lemma inv_move pre x r pre' r' : src = pre ++ x ++ r -> src' = pre' ++ x ++ r' -> starts_lf r = starts_lf r' ->
  (forall ed, In ed edits -> exists s, spanned_by ed s /\ (sp_end s <= length pre \/ length pre + length x < sp_end s)) ->
  inv (length pre) (length pre') -> inv (length pre + length x) (length pre' + length x).
Proof.
  intros E E' Hlf Hed [H1 H2].
  assert (length pre + length x <= length src) as Hlen by (rewrite E, !app_length; lia).
  pose proof (pos_app _ _ _ _ E) as Q. pose proof (pos_app _ _ _ _ E') as Q'. rewrite H1 in Q'.
  destruct (scan_twice x r r' (p_line (pos (length pre))) (p_char (pos (length pre))) (p_char (pos' (length pre'))) Hlf) as [G G0]. cbn zeta in G, G0. rewrite <- Q, <- Q' in G, G0.
  split; [symmetry; exact G|]. destruct G0 as [[L1 L2]|[L1 (k & L2 & L3)]].
  - assert (filter (in_front (pos (length pre + length x))) edits = []) as ->; [|cbn; lia].
    assert (forall ed, In ed edits -> in_front (pos (length pre + length x)) ed = false) as F.
    { intros ed Hi. destruct (Hed _ Hi) as (s & Hs & Ho). apply (front_false _ _ s Hlen Hs). intros [G1 G2].
      destruct Ho as [Ho|Ho]; [|lia]. pose proof (line_le (sp_end s) (length pre) Ho ltac:(lia)). lia. }
    clear - F. induction edits as [|a l IH]; [reflexivity|]. cbn [filter]. rewrite F by (left; reflexivity). apply IH. intros ed H. apply F. right. exact H.
  - assert (filter (in_front (pos (length pre + length x))) edits = filter (in_front (pos (length pre))) edits) as ->; [|lia].
    apply filter_ext_in'. intros ed Hi. destruct (Hed _ Hi) as (s & Hs & Ho). apply Bool.eq_iff_eq_true.
    rewrite (front_iff _ _ s Hlen Hs), (front_iff (length pre) _ s ltac:(lia) Hs), L1. split; intros [K1 K2]; (split; [exact K1|lia]).
Qed.

Lemma put_in_app a b : put_in (a ++ b) = put_in a + put_in b.
Proof. unfold put_in, total. induction a as [|x a IH]; [reflexivity|]. cbn. cbn in IH. lia. Qed.
Lemma taken_away_app a b : taken_away (a ++ b) = taken_away a + taken_away b.
Proof. unfold taken_away, total. induction a as [|x a IH]; [reflexivity|]. cbn [app map fold_right]. rewrite IH. lia. Qed.

Lemma others ed l1 l2 : edits = l1 ++ ed :: l2 -> forall x, In x l1 \/ In x l2 -> separate (te_range ed) (te_range x).
Proof.
  intros E x Hx. pose proof Hsep as S. rewrite E in S. clear - S Hx. induction l1 as [|a l1 IH].
  - destruct Hx as [[]|Hx]. cbn [app] in S. inversion S as [|? ? F _]; subst. rewrite Forall_forall in F. exact (F _ Hx).
  - cbn [app] in S. inversion S as [|? ? F S']; subst. destruct Hx as [[->|Hx]|Hx]; [|exact (IH (or_introl Hx) S')|exact (IH (or_intror Hx) S')].
    rewrite Forall_forall in F. destruct (F ed ltac:(apply in_or_app; right; left; reflexivity)) as [G|G]; [right|left]; exact G.
Qed.

Lemma inv_edit pre w r pre' w' r' ed : src = pre ++ w ++ r -> src' = pre' ++ w' ++ r' -> w <> [] -> one_line w -> one_line w' -> In ed edits ->
  te_range ed = lsp_range src (mkSpan (length pre) (length pre + length w)) -> te_text ed = w' ->
  (forall x, In x edits -> exists s, spanned_by x s /\ (sp_end s <= length pre \/ length pre + length w <= sp_end s)) ->
  inv (length pre) (length pre') -> inv (length pre + length w) (length pre' + length w').
Proof.
  intros E E' Hw Ow Ow' Hin Er Et Hed [H1 H2].
  assert (length w <> 0) as Lw by (destruct w; [contradiction|discriminate]).
  assert (length pre + length w <= length src) as Hlen by (rewrite E, !app_length; lia).
  assert (lsp_plain w = true) as Pw.
  { destruct Hsrc as (_ & P & _). unfold lsp_plain in *. rewrite E, !forallb_app in P. apply andb_true_iff in P as [_ P]. apply andb_true_iff in P as [P _]. exact P. }
  assert (lsp_plain w' = true) as Pw'.
  { destruct Hsrc' as (_ & P & _). unfold lsp_plain in *. rewrite E', !forallb_app in P. apply andb_true_iff in P as [_ P]. apply andb_true_iff in P as [P _]. exact P. }
  pose proof (pos_app _ _ _ _ E) as Q. rewrite (scan_one_line w Ow Pw) in Q. pose proof (pos_app _ _ _ _ E') as Q'. rewrite (scan_one_line w' Ow' Pw'), H1 in Q'.
  split; [rewrite Q, Q'; reflexivity|].
  destruct (in_split _ _ Hin) as (l1 & l2 & El).
  assert (forall x, In x l1 \/ In x l2 -> in_front (pos (length pre + length w)) x = in_front (pos (length pre)) x) as K.
  { intros x Hx. destruct (Hed x) as (s & Hs & Ho); [rewrite El; apply in_or_app; destruct Hx; [left|right; right]; assumption|].
    apply Bool.eq_iff_eq_true. rewrite (front_iff _ _ s Hlen Hs), (front_iff (length pre) _ s ltac:(lia) Hs). rewrite Q at 1. cbn [p_line].
    split; intros [K1 K2]; (split; [exact K1|]); [|lia]. destruct Ho as [Ho|Ho]; [exact Ho|]. exfalso.
    assert (sp_end s = length pre + length w) as Es by lia. destruct Hs as (Rs & S1 & S2).
    pose proof (others ed l1 l2 El x Hx) as [G|G]; rewrite Er, Rs in G; cbn [lsp_range r_start r_end sp_start sp_end] in G; rewrite Es in *.
    - destruct (position_before src Hsrc (sp_start s) (length pre + length w) ltac:(lia) Hlen) as [P|[P P0]]; unfold pos_le in G; lia.
    - destruct (position_before src Hsrc (length pre) (length pre + length w) ltac:(lia) Hlen) as [P|[P P0]]; unfold pos_le in G; lia. }
  assert (in_front (pos (length pre + length w)) ed = true) as F1.
  { apply (front_iff _ _ (mkSpan (length pre) (length pre + length w)) Hlen); [|cbn [sp_end]; split; [reflexivity|lia]]. split; [exact Er|]. cbn [sp_start sp_end]. lia. }
  assert (in_front (pos (length pre)) ed = false) as F0.
  { apply (front_false (length pre) _ (mkSpan (length pre) (length pre + length w)) ltac:(lia)); [|cbn [sp_end]; lia]. split; [exact Er|]. cbn [sp_start sp_end]. lia. }
  assert (filter (in_front (pos (length pre + length w))) l1 = filter (in_front (pos (length pre))) l1) as K1 by (apply filter_ext_in'; auto).
  assert (filter (in_front (pos (length pre + length w))) l2 = filter (in_front (pos (length pre))) l2) as K2 by (apply filter_ext_in'; auto).
  rewrite El in *. rewrite filter_app in H2 |- *. cbn [filter] in H2 |- *. rewrite F1, K1, K2. rewrite F0 in H2.
  change (ed :: ?z) with ([ed] ++ z). rewrite !put_in_app, !taken_away_app in *.
  assert (put_in [ed] = length w') as -> by (unfold put_in; cbn; rewrite Et; lia).
  assert (taken_away [ed] = length w) as ->.
  { unfold taken_away. cbn [map total fold_right]. rewrite Er. cbn [lsp_range r_start r_end sp_start sp_end]. rewrite Q. cbn [p_char]. lia. }
  rewrite Q, Q'. cbn [p_char]. lia.
Qed.

Lemma regapped_heads i j t t' toks toks' : regapped u src edits i j t t' toks toks' ->
  (forall a w ed, In a toks -> lexeme u (fst a) w -> In ed edits -> te_range ed = lsp_range src (snd a) -> one_line w /\ one_line (te_text ed) /\ te_text ed <> []) ->
  starts_lf t = starts_lf t'.
Proof.
  intros [ |i0 j0 bl a a' w w' r r' k k' [Hl [[-> Hu]|(ed & Hi & E & Et)]] _] Ho; [reflexivity|..].
  - destruct bl as [|c bl]; [|reflexivity]. pose proof (lexeme_nonempty _ _ _ Hl) as Hne. destruct w; [contradiction|reflexivity].
  - destruct bl as [|c bl]; [|reflexivity]. pose proof (lexeme_nonempty _ _ _ Hl) as Hne. cbn [fst snd] in *. destruct (Ho _ _ _ (or_introl eq_refl) Hl Hi E) as ([O1 _] & [O2 _] & O3). rewrite Et in *.
    destruct w as [|c w]; [contradiction|]. destruct w' as [|c' w']; [contradiction|]. cbn [app starts_lf].
    destruct (N.eqb_spec c LF) as [->|_]; [destruct O1; left; reflexivity|]. destruct (N.eqb_spec c' LF) as [->|_]; [destruct O2; left; reflexivity|reflexivity].
Qed.

Definition follows (a b : stoken) : Prop := pos' (sp_start (snd b)) = carried edits (pos (sp_start (snd a))) /\ pos' (sp_end (snd b)) = carried edits (pos (sp_end (snd a))).
Lemma regapped_places i j t t' toks toks' : regapped u src edits i j t t' toks toks' ->
  forall pre pre', src = pre ++ t -> src' = pre' ++ t' -> length pre = i -> length pre' = j -> inv i j -> spans_in i (length src) toks ->
  (forall ed, In ed edits -> exists s, spanned_by ed s /\ (sp_end s <= i \/ In s (map snd toks))) ->
  (forall a w ed, In a toks -> lexeme u (fst a) w -> In ed edits -> te_range ed = lsp_range src (snd a) -> one_line w /\ one_line (te_text ed) /\ te_text ed <> []) ->
  Forall2 follows toks toks'.
Proof.
  induction 1 as [i j bl|i j bl a a' w w' r r' toks toks' Hs Hr IH]; intros pre pre' E E' <- <- Hinv Hsp Hed Hone; [constructor|].
  cbn [spans_in sp_start sp_end] in Hsp. destruct Hsp as (_ & Hlt & Hsp).
  pose proof (regapped_heads _ _ _ _ _ _ Hr (fun a w ed Ha => Hone a w ed (or_intror Ha))) as Hlf.
  assert (starts_lf (w ++ r) = starts_lf (w' ++ r')) as Hlf0.
  { pose proof (rg_token u src edits (length pre + length bl) (length pre' + length bl) [] a a' w w' r r' toks toks') as G. cbn [length app] in G. rewrite !Nat.add_0_r in G.
    eapply regapped_heads; [exact (G Hs Hr)|exact Hone]. }
  (* over the blanks *)
  assert (inv (length (pre ++ bl)) (length (pre' ++ bl))) as I1.
  { rewrite !app_length. eapply (inv_move pre bl (w ++ r) pre' (w' ++ r')); [exact E|exact E'|exact Hlf0| |exact Hinv].
    intros ed Hi. destruct (Hed _ Hi) as (s & Hs1 & Ho). exists s. split; [exact Hs1|]. destruct Ho as [Ho|Ho]; [left; exact Ho|right]. destruct Ho as [<-|Ho]; cbn [snd sp_end] in *; [lia|].
    apply in_map_iff in Ho as (t & <- & Ht). pose proof (spans_in_each _ _ _ _ Hsp Ht). lia. }
  assert (src = (pre ++ bl) ++ w ++ r) as E1 by (rewrite <- app_assoc; exact E). assert (src' = (pre' ++ bl) ++ w' ++ r') as E1' by (rewrite <- app_assoc; exact E').
  assert (w <> []) as Hw by (destruct w; [cbn in Hlt; lia|discriminate]).
  (* over the token *)
  assert (inv (length (pre ++ bl) + length w) (length (pre' ++ bl) + length w')) as I2.
  { destruct Hs as [Hl [[-> Hu]|(ed & Hi & Er & Et)]].
    - eapply (inv_move (pre ++ bl) w r (pre' ++ bl) r'); [exact E1|exact E1'|exact Hlf| |exact I1].
      intros ed Hi. destruct (Hed _ Hi) as (s & Hs1 & Ho). exists s. split; [exact Hs1|]. rewrite app_length. destruct Ho as [Ho|Ho]; [left; lia|right]. destruct Ho as [<-|Ho]; cbn [snd sp_end] in *.
      + exfalso. destruct Hs1 as (R1 & R2 & R3). pose proof (edit_at_span src edits Hsrc Hsep ed _ (length pre + length bl) Hi R1 ltac:(cbn [sp_start sp_end] in *; lia) R3) as F.
        unfold untouched in Hu. cbn [sp_start sp_end] in *. rewrite Hu in F by lia. discriminate.
      + apply in_map_iff in Ho as (t & <- & Ht). pose proof (spans_in_each _ _ _ _ Hsp Ht). lia.
    - cbn [fst snd] in *. destruct (Hone _ _ _ (or_introl eq_refl) Hl Hi Er) as (O1 & O2 & O3). rewrite Et in *.
      eapply (inv_edit (pre ++ bl) w r (pre' ++ bl) w' r' ed); [exact E1|exact E1'|exact Hw|exact O1|exact O2|exact Hi|rewrite app_length; exact Er|exact Et| |exact I1].
      intros x Hx. destruct (Hed _ Hx) as (s & Hs1 & Ho). exists s. split; [exact Hs1|]. rewrite app_length. destruct Ho as [Ho|Ho]; [left; lia|right]. destruct Ho as [<-|Ho]; cbn [snd sp_end] in *; [lia|].
      apply in_map_iff in Ho as (t & <- & Ht). pose proof (spans_in_each _ _ _ _ Hsp Ht). lia. }
  constructor.
  - split; cbn [snd sp_start sp_end]; rewrite <- !app_length; [apply inv_carried, I1|]. rewrite !app_length in *. apply inv_carried, I2.
  - apply (IH ((pre ++ bl) ++ w) ((pre' ++ bl) ++ w')).
    + rewrite <- app_assoc. exact E1.
    + rewrite <- app_assoc. exact E1'.
    + rewrite !app_length. reflexivity.
    + rewrite !app_length. reflexivity.
    + rewrite !app_length in I2. exact I2.
    + exact Hsp.
    + intros ed Hi. destruct (Hed _ Hi) as (s & Hs1 & Ho). exists s. split; [exact Hs1|]. destruct Ho as [Ho|[<-|Ho]]; [left; lia|left; cbn [snd sp_end]; lia|right; exact Ho].
    + intros b v ed Hb. apply Hone. right. exact Hb.
Qed.
End Carry.

(** ** The new document *)
Definition no_more_than (a b : option text) : Prop := match a, b with Some _, Some _ | None, None => True | _, _ => False end.
Definition alike_error (T : stoken -> stoken -> Prop) (src src' : text) (a b : simple text) : Prop :=
  (ranges T (e_span a) (e_span b) \/ (e_span a = ends src /\ e_span b = ends src')) /\ e_reason a = e_reason b /\ e_expected a = e_expected b /\ no_more_than (e_found a) (e_found b).
Lemma parsed_alike u src src' pr pr' : parse_from_str u src = Val pr -> tokenize u src = Val (Some (pr_tokens pr), []) -> parse_from_str u src' = Val pr' -> tokenize u src' = Val (Some (pr_tokens pr'), []) ->
  Forall2 (fun a b => similar (fst a) (fst b)) (pr_tokens pr) (pr_tokens pr') ->
  Forall2 (same_stmt (counterparts (pr_tokens pr) (pr_tokens pr'))) (pr_stmts pr) (pr_stmts pr') /\
  Forall2 (alike_error (counterparts (pr_tokens pr) (pr_tokens pr')) src src') (pr_errors pr) (pr_errors pr').
Proof.
  intros P T P' T' R. pose proof (retold_parse src src' _ _ R) as H. unfold parse_from_str in P, P'. rewrite T in P. rewrite T' in P'. cbn [rbind] in P, P'.
  destruct (parse_tokens src (pr_tokens pr)) as [[ss es]|]; [|discriminate P]. destruct (parse_tokens src' (pr_tokens pr')) as [[ss' es']|]; [|contradiction]. cbn [rbind map app] in P, P'.
  injection P as P. injection P' as P'. destruct H as [Hs He].
  assert (pr_stmts pr = match ss with Some x => x | None => [] end) as E1 by (rewrite <- P; reflexivity). assert (pr_stmts pr' = match ss' with Some x => x | None => [] end) as E2 by (rewrite <- P'; reflexivity).
  assert (pr_errors pr = map (simple_map token_display) es) as E3 by (rewrite <- P; reflexivity). assert (pr_errors pr' = map (simple_map token_display) es') as E4 by (rewrite <- P'; reflexivity).
  rewrite E1, E2, E3, E4. split; [destruct ss, ss'; try contradiction Hs; [exact Hs|constructor]|]. clear - He.
  induction He as [|e e' r r' (H0 & H1 & H2 & H3) _ IH]; cbn [map]; constructor; [|exact IH]. unfold alike_error, simple_map. cbn [e_span e_reason e_expected e_found]. rewrite H1, H2. split; [exact H0|]. split; [reflexivity|]. split; [reflexivity|].
  destruct (e_found e), (e_found e'); exact I || exact H3.
Qed.

Lemma tail_one_line u w : name_tail u w -> one_line w.
Proof. intros [H _]. split; intros G; apply H in G as [G|G]; try discriminate G; apply name_char_cases in G; unfold LF, CR in G; lia. Qed.
Lemma cons_one_line c w : c <> LF -> c <> CR -> one_line w -> one_line (c :: w).
Proof. intros H1 H2 [O1 O2]. split; intros [G|G]; try congruence; contradiction. Qed.
Lemma occ_one_line u src pr ix x : indexed u src pr ix -> In x (recorded (pr_stmts pr) (pr_tokens pr)) -> one_line (o_name x).
Proof.
  intros Hix Hx. destruct (kind_dec (o_kind x) KLabel) as [K|K].
  - destruct (occ_label _ _ _ _ _ Hix Hx K) as (c & w & -> & Hc & Hw). apply name_start_cases in Hc. apply cons_one_line; [| |exact (tail_one_line _ _ Hw)]; unfold LF, CR; lia.
  - destruct (occ_sigil _ _ _ _ _ Hix Hx K) as (c & w & Es & -> & Hw). apply cons_one_line; [| |exact (tail_one_line _ _ Hw)]; intros ->; destruct (o_kind x); discriminate.
Qed.
Lemma accepted_one_line u k new final : accepted u k new final -> one_line final /\ final <> [].
Proof.
  intros (c & body & _ & -> & H & _). split; [|destruct k; discriminate].
  assert (one_line (c :: body)) as O.
  { rewrite Forall_forall in H. split; intros G; apply H in G; unfold SpecRename.name_char, is_alphanumeric in G; (destruct G as [G|[G|G]]; [|discriminate G|discriminate G]); apply orb_true_iff in G;
      (assert (SpecLex.name_char u LF \/ SpecLex.name_char u CR) as N by (unfold SpecLex.name_char; tauto)); destruct N as [N|N]; apply name_char_cases in N; unfold LF, CR in N; lia. }
  destruct k; cbn [sigil app]; try exact O; apply cons_one_line; (exact O || discriminate).
Qed.

(** places of tokens after edits of occurrences *)
Lemma places_follow u src src' pr ix edits (ren : occurrence -> text -> Prop) toks' : plain_document src -> plain_document src' -> indexed u src pr ix ->
  replaces src ren (recorded (pr_stmts pr) (pr_tokens pr)) edits -> regapped u src edits 0 0 src src' (pr_tokens pr) toks' ->
  (forall x y, In x (recorded (pr_stmts pr) (pr_tokens pr)) -> ren x y -> one_line y /\ y <> []) -> Forall2 (follows src src' edits) (pr_tokens pr) toks'.
Proof.
  intros Hsrc Hsrc' Hix Hrep Hg Hren. destruct (indexed_ok _ _ _ _ Hix) as (_ & _ & Hsp & Hsub & Hrg). pose proof Hrep as (Hed & Hsep & Hnon).
  eapply (regapped_places u src src' edits Hsrc Hsrc' Hsep Hnon 0 0 src src' _ _ Hg [] []); try reflexivity; [|exact Hsp|..].
  - assert (forall t, lsp_position t 0 = mkPos 0 0) as P0 by (intros []; reflexivity).
    assert (filter (in_front (lsp_position src 0)) edits = []) as F0; [|unfold inv; rewrite F0, !P0; split; reflexivity].
    assert (forall ed, In ed edits -> in_front (lsp_position src 0) ed = false) as F.
    { intros ed Hi. apply Hed in Hi as (x & y & Hx & _ & ->). destruct (span_bounds _ _ _ _ Hix _ Hx). eapply (front_false src Hsrc 0 _ (o_span x)); [lia| |lia]. split; [reflexivity|lia]. }
    clear - F. induction edits as [|a k IH]; [reflexivity|]. cbn [filter]. rewrite F by (left; reflexivity). apply IH. intros ed H. apply F. right. exact H.
  - intros ed Hi. apply Hed in Hi as (x & y & Hx & _ & ->). destruct (span_bounds _ _ _ _ Hix _ Hx). exists (o_span x). split; [split; [reflexivity|lia]|]. right.
    exact (in_map snd _ _ (recorded_token _ _ _ Hsp Hsub _ Hx)).
  - intros a w ed Hat Hw Hi E. destruct (edit_occ _ _ _ _ _ _ Hsrc Hix Hrep _ _ Hat Hi E) as (x & Hx & Es & Hy). destruct (Hren _ _ Hx Hy) as [O1 O2]. split; [|split; assumption].
    assert (occ_token x = a) as Ea by (apply (token_span_unique _ _ Hsp); [exact (recorded_token _ _ _ Hsp Hsub _ Hx)|exact Hat|exact Es]).
    pose proof (occ_token_name x) as Hnm. rewrite Ea in Hnm. rewrite (lexeme_name _ _ _ _ Hw Hnm). exact (occ_one_line _ _ _ _ _ Hix Hx).
Qed.

(** ** Everything moves with the text *)
Lemma range_follows src src' edits (T : stoken -> stoken -> Prop) a b : (forall x y, T x y -> follows src src' edits x y) -> T a b -> lsp_range src' (snd b) = carried_range edits (lsp_range src (snd a)).
Proof. intros HT H. destruct (HT _ _ H) as [E1 E2]. unfold lsp_range, carried_range. cbn [r_start r_end]. rewrite E1, E2. reflexivity. Qed.
Lemma ranges_follow src src' edits (T : stoken -> stoken -> Prop) s1 s2 : (forall x y, T x y -> follows src src' edits x y) -> ranges T s1 s2 -> lsp_range src' s2 = carried_range edits (lsp_range src s1).
Proof.
  intros HT [(a & b & H & E1 & E2) (a' & b' & H' & E3 & E4)]. destruct (HT _ _ H) as [F _]. destruct (HT _ _ H') as [_ F'].
  unfold lsp_range, carried_range. cbn [r_start r_end]. rewrite E1, E2, E3, E4, F, F'. reflexivity.
Qed.
Lemma follow_filter {A B C} (R : A -> B -> Prop) (f : A -> C) (g : B -> C) (k : A -> bool) (k' : B -> bool) a b : Forall2 R a b ->
  (forall x y, In x a -> R x y -> k x = k' y) -> (forall x y, In x a -> R x y -> k x = true -> g y = f x) -> map g (filter k' b) = map f (filter k a).
Proof.
  induction 1 as [|x y a b H _ IH]; intros H1 H2; [reflexivity|]. cbn [filter]. rewrite <- (H1 x y (or_introl eq_refl) H).
  assert (map g (filter k' b) = map f (filter k a)) as J by (apply IH; intros; (apply H1 || apply H2); try assumption; right; assumption).
  destruct (k x) eqn:E; [|exact J]. cbn [map]. rewrite (H2 x y (or_introl eq_refl) H E), J. reflexivity.
Qed.
Lemma follow_map {A B C} (R : A -> B -> Prop) (f : A -> C) (g : B -> C) a b : Forall2 R a b -> (forall x y, In x a -> R x y -> g y = f x) -> map g b = map f a.
Proof. induction 1 as [|x y a b H _ IH]; intros H2; [reflexivity|]. cbn [map]. rewrite (H2 x y (or_introl eq_refl) H), IH; [reflexivity|]. intros z w Hz. apply H2. right. exact Hz. Qed.
Lemma split_filter {A} (k : A -> bool) (f : A -> A) a : Permutation (map (fun x => if k x then f x else x) a) (filter (fun x => negb (k x)) a ++ map f (filter k a)).
Proof.
  induction a as [|x a IH]; [constructor|]. cbn [map filter]. destruct (k x); cbn [negb app map]; [|constructor; exact IH].
  eapply perm_trans; [constructor; exact IH|]. apply Permutation_middle.
Qed.
Lemma split_filter0 {A} (k : A -> bool) a : Permutation a (filter (fun x => negb (k x)) a ++ filter k a).
Proof. pose proof (split_filter k (fun x => x) a) as H. rewrite map_id in H. replace (map (fun x => if k x then x else x) a) with a in H; [exact H|]. clear. induction a as [|x a IH]; [reflexivity|]. cbn [map]. rewrite <- IH. destruct (k x); reflexivity. Qed.

(** the reports of two documents, one with the edits; [k] are the names that changed *)
Definition reports_of (src uri : text) (l : list occurrence) (k : occurrence -> bool) (f : occurrence -> occurrence) : list diagnostic :=
  map (undefined_diagnostic src) (map f (filter k (undefined_uses l))) ++ map (redefinition_diagnostic src uri) (map (fun x => (f (fst x), f (snd x))) (filter (fun x => k (fst x)) (redefinitions l))).
Lemma diagnostics_follow e uri src src' edits pr pr' (k : occurrence -> bool) (new : occurrence -> occurrence) d diags d' diags' : plain_document src -> plain_document src' -> visits_all (e_ord e) ->
  parse_from_str (e_u e) src = Val pr -> parse_from_str (e_u e) src' = Val pr' -> bound_alike pr pr' ->
  Forall2 (fun a b => similar (fst a) (fst b)) (pr_tokens pr) (pr_tokens pr') ->
  Forall2 (same_stmt (counterparts (pr_tokens pr) (pr_tokens pr'))) (pr_stmts pr) (pr_stmts pr') ->
  Forall2 (alike_error (counterparts (pr_tokens pr) (pr_tokens pr')) src src') (pr_errors pr) (pr_errors pr') ->
  Forall2 (follows src src' edits) (pr_tokens pr) (pr_tokens pr') ->
  (forall x, o_span (new x) = o_span x) ->
  (forall x x', In x (recorded (pr_stmts pr) (pr_tokens pr)) -> same_occ (counterparts (pr_tokens pr) (pr_tokens pr')) x x' -> o_name x' = o_name (if k x then new x else x)) ->
  analyze e uri src = Val (d, diags) -> analyze e uri src' = Val (d', diags') ->
  let l := recorded (pr_stmts pr) (pr_tokens pr) in
  exists others, Permutation diags (others ++ reports_of src uri l k (fun x => x)) /\
    Permutation diags' (map (carried_diagnostic uri edits) (others ++ reports_of src uri l k new)).
Proof.
  intros Hsrc Hsrc' Hv P P' (_ & BU & BR) Hsim S X F Hnew HN A A' l.
  destruct (document_diagnostics _ _ _ _ _ Hsrc Hv A) as (pr0 & Q & D). assert (pr0 = pr) as -> by congruence.
  destruct (document_diagnostics _ _ _ _ _ Hsrc' Hv A') as (pr0 & Q' & D'). assert (pr0 = pr') as -> by congruence. clear Q Q'. fold l in D.
  set (T := counterparts (pr_tokens pr) (pr_tokens pr')) in *.
  assert (forall a b, T a b -> follows src src' edits a b) as HF by (apply (combine_forall2 _ _ _ F)).
  assert (forall a b, T a b -> similar (fst a) (fst b)) as HT by (apply (combine_forall2 _ _ _ Hsim)).
  pose proof (proj1 (parse_from_str_module _ _ _ P)) as Hsp. pose proof (proj1 (parse_from_str_module _ _ _ P')) as Hsp'.
  assert (E1 : map (syntax_diagnostic (e_xord e) src') (filter (fun x => negb (at_end src' x)) (pr_errors pr')) =
    map (carried_diagnostic uri edits) (map (syntax_diagnostic (e_xord e) src) (filter (fun x => negb (at_end src x)) (pr_errors pr)))).
  { rewrite map_map. eapply follow_filter; [exact X|..].
    - intros x y _ [[Hr|[Ea Eb]] _].
      + f_equal. destruct Hr as [(a & b & Hab & E2 & E3) _]. pose proof (spans_in_each _ _ _ _ Hsp (in_combine_l _ _ _ _ Hab)) as B1. pose proof (spans_in_each _ _ _ _ Hsp' (in_combine_r _ _ _ _ Hab)) as B2.
        unfold at_end, span_eqb. cbn [sp_start sp_end]. rewrite E2, E3. destruct (Nat.eqb_spec (sp_start (snd a)) (length src)); [lia|]. destruct (Nat.eqb_spec (sp_start (snd b)) (length src')); [lia|reflexivity].
      + f_equal. unfold at_end. rewrite Ea, Eb. unfold ends. rewrite (byte_len_ascii src) by apply Hsrc. rewrite (byte_len_ascii src') by apply Hsrc'.
        unfold span_eqb. cbn [sp_start sp_end]. rewrite !Nat.add_1_r, !Nat.eqb_refl. reflexivity.
    - intros x y _ [Hr (H1 & H2 & H3)] K. unfold syntax_diagnostic, carried_diagnostic. cbn [d_range d_message d_related map].
      f_equal.
      + destruct Hr as [Hr|[Ea _]]; [exact (ranges_follow _ _ _ T _ _ HF Hr)|]. exfalso. unfold at_end in K. rewrite Ea in K. unfold ends in K. rewrite (byte_len_ascii src) in K by apply Hsrc.
        unfold span_eqb in K. cbn [sp_start sp_end] in K. rewrite Nat.add_1_r, !Nat.eqb_refl in K. discriminate K.
      + unfold parser_error_message. rewrite <- H1, <- H2. destruct (e_reason x); [|reflexivity]. destruct (e_found x), (e_found y); contradiction H3 || reflexivity. }
  assert (E2 : map (missing_diagnostic src') (filter missing_refs (instructions (pr_stmts pr'))) =
    map (carried_diagnostic uri edits) (map (missing_diagnostic src) (filter missing_refs (instructions (pr_stmts pr))))).
  { rewrite map_map. eapply follow_filter; [exact (instructions_alike T _ _ S)|..].
    - intros x y _ H. exact (missing_alike T HT x y H).
    - intros x y _ (_ & H & _) K. apply missing_refs_iff in K as [K _]. unfold missing_diagnostic, carried_diagnostic. cbn [d_range d_message d_related map].
      pose proof (HT _ _ H) as G. unfold tident in G. cbn [fst] in G. assert (mnemonic y = mnemonic x) as ->.
      { destruct G as [G|[G _]]; [unfold mnemonic; congruence|]. destruct (plain_mnemonic _ G K). }
      f_equal. exact (range_follows _ _ _ T _ _ HF H). }
  pose (g := fun x => if k x then new x else x). pose (g2 := fun x : occurrence * occurrence => if k (fst x) then (new (fst x), new (snd x)) else x).
  assert (N : forall x x', In x l -> same_occ T x x' -> o_name x' = o_name (g x)) by exact HN.
  assert (Sg : forall x, o_span (g x) = o_span x) by (intros x; unfold g; destruct (k x); [apply Hnew|reflexivity]).
  assert (Fr : forall x x', same_occ T x x' -> lsp_range src' (o_span x') = carried_range edits (lsp_range src (o_span x))).
  { intros x x' (_ & _ & _ & Tx). exact (range_follows _ _ _ T _ _ HF Tx). }
  assert (E3 : map (undefined_diagnostic src') (undefined_uses (recorded (pr_stmts pr') (pr_tokens pr'))) =
    map (carried_diagnostic uri edits) (map (undefined_diagnostic src) (map g (undefined_uses l)))).
  { rewrite !map_map. eapply follow_map; [exact BU|]. intros x y Hx H. apply filter_In in Hx as [Hx _]. unfold undefined_diagnostic, carried_diagnostic. cbn [d_range d_message d_related map].
    rewrite (N x y Hx H), (Fr x y H), Sg. reflexivity. }
  assert (E4 : map (redefinition_diagnostic src' uri) (redefinitions (recorded (pr_stmts pr') (pr_tokens pr'))) =
    map (carried_diagnostic uri edits) (map (redefinition_diagnostic src uri) (map g2 (redefinitions l)))).
  { rewrite !map_map. eapply follow_map; [exact BR|]. intros x y Hx [H H']. assert (In (fst x) l) as Hf.
    { apply in_flat_map in Hx as (z & Hz & Hx). destruct (find _ l); [|contradiction]. destruct (_ && _); [|contradiction]. destruct Hx as [<-|[]]. exact Hz. }
    unfold redefinition_diagnostic, carried_diagnostic. cbn [d_range d_message d_related map fst snd].
    assert (fst (g2 x) = g (fst x)) as G1 by (unfold g2, g; destruct (k (fst x)); reflexivity). assert (o_span (snd (g2 x)) = o_span (snd x)) as G2 by (unfold g2; destruct (k (fst x)); [apply Hnew|reflexivity]).
    rewrite G1, G2, (N _ _ Hf H), (Fr _ _ H), (Fr _ _ H'), Sg. unfold carried_location. cbn [loc_uri loc_range]. rewrite text_eqb_refl. reflexivity. }
  exists (map (syntax_diagnostic (e_xord e) src) (filter (fun x => negb (at_end src x)) (pr_errors pr)) ++ map (missing_diagnostic src) (filter missing_refs (instructions (pr_stmts pr))) ++
    map (undefined_diagnostic src) (filter (fun x => negb (k x)) (undefined_uses l)) ++ map (redefinition_diagnostic src uri) (filter (fun x => negb (k (fst x))) (redefinitions l))).
  unfold reports_of. rewrite !map_id. replace (map (fun x => (fst x, snd x)) (filter (fun x => k (fst x)) (redefinitions l))) with (filter (fun x => k (fst x)) (redefinitions l)).
  2:{ symmetry. erewrite map_ext; [apply map_id|]. intros [? ?]; reflexivity. }
  assert (PU : Permutation (undefined_uses l) (filter (fun x => negb (k x)) (undefined_uses l) ++ filter (k) (undefined_uses l))) by apply split_filter0.
  assert (PR : Permutation (redefinitions l) (filter (fun x => negb (k (fst x))) (redefinitions l) ++ filter (fun x => k (fst x)) (redefinitions l))) by apply (split_filter0 (fun x => k (fst x))).
  assert (PU' : Permutation (map g (undefined_uses l)) (filter (fun x => negb (k x)) (undefined_uses l) ++ map (new) (filter (k) (undefined_uses l)))) by apply split_filter.
  assert (PR' : Permutation (map g2 (redefinitions l)) (filter (fun x => negb (k (fst x))) (redefinitions l) ++ map (fun x => (new (fst x), new (snd x))) (filter (fun x => k (fst x)) (redefinitions l))))
    by apply (split_filter (fun x => k (fst x)) (fun x => (new (fst x), new (snd x)))).
  assert (J : forall A (a b c1 c2 d1 d2 : list A), Permutation (a ++ b ++ (c1 ++ c2) ++ (d1 ++ d2)) ((a ++ b ++ c1 ++ d1) ++ c2 ++ d2)).
  { intros B a b c1 c2 d1 d2. rewrite <- !app_assoc. do 2 apply Permutation_app_head. apply Permutation_app_head. rewrite !app_assoc. apply Permutation_app_tail. apply Permutation_app_comm. }
  split.
  - eapply perm_trans; [exact D|]. rewrite PU at 1. rewrite PR at 1. rewrite !map_app. apply J.
  - eapply perm_trans; [exact D'|]. rewrite E1, E2, E3, E4, PU', PR'. rewrite !map_app. apply J.
Qed.

Section Renamed.
Variables (e : env) (s : server) (uri src : text) (d : doc) (pr : parser_result) (p : nat) (o : occurrence) (new final : text) (edits : list text_edit).
Notation u := (e_u e).
Notation l := (recorded (pr_stmts pr) (pr_tokens pr)).
Notation src' := (patched src edits).
Hypothesis Hsrc : plain_document src.
Hypothesis Hop : opened e s uri src d.
Hypothesis Hpr : parse_from_str u src = Val pr.
Hypothesis Hcl : tokenize u src = Val (Some (pr_tokens pr), []).
Hypothesis Hin : In o l.
Hypothesis Hc : covers (o_span o) p.
Hypothesis Hprop : proper u pr o new final.
Hypothesis Hun : unused l o final.
Hypothesis Her : rename e s uri (lsp_position src p) new = Val (Reply edits).
Hypothesis Hsrc' : plain_document src'.

Lemma index_here : indexed u src pr (doc_index d).
Proof. destruct (opened_indexed _ _ _ _ _ Hop) as (pr0 & Hix & _). assert (pr0 = pr) as -> by (destruct Hix as [G _]; congruence). exact Hix. Qed.

Lemma renamed_document : exists pr', parse_from_str u src' = Val pr' /\ tokenize u src' = Val (Some (pr_tokens pr'), []) /\ replaces src (renamed o final) l edits /\
  retold (renamed o final) l (pr_tokens pr) (pr_tokens pr') /\ bound_alike pr pr' /\
  Forall2 (fun a b => similar (fst a) (fst b)) (pr_tokens pr) (pr_tokens pr') /\
  Forall2 (same_stmt (counterparts (pr_tokens pr) (pr_tokens pr'))) (pr_stmts pr) (pr_stmts pr') /\
  Forall2 (alike_error (counterparts (pr_tokens pr) (pr_tokens pr')) src src') (pr_errors pr) (pr_errors pr') /\
  Forall2 (follows src src' edits) (pr_tokens pr) (pr_tokens pr').
Proof.
  pose proof index_here as Hix. destruct Hprop as (Ha & Hend & Hlb & Hd).
  destruct (rename_here e src pr _ Hsrc Hix s uri d p o new final Hop Hin Hc Hd Hcl Ha Hend Hlb) as (eds & pr' & Er & Hrep & Hp' & Ht' & R & Hg & Hb).
  assert (eds = edits) as -> by congruence. exists pr'. split; [exact Hp'|]. split; [exact Ht'|]. split; [exact Hrep|]. split; [exact R|]. split; [exact (Hb Hun)|].
  destruct (indexed_ok _ _ _ _ Hix) as (_ & _ & Hsp & Hsub & Hrg).
  assert (Forall2 (fun a b => similar (fst a) (fst b)) (pr_tokens pr) (pr_tokens pr')) as Hsim.
  { eapply retold_similar; [exact R| |].
    - intros x y Hx [(S1 & _ & S3) ->] Hkx. rewrite <- S3. destruct (Hlb ltac:(congruence)) as (_ & P1 & P2). auto.
    - intros x t Hx Hit Es. exact (occ_at_token _ _ _ Hsp Hsub _ _ Hx Hit Es). }
  split; [exact Hsim|]. destruct (parsed_alike _ _ _ _ _ Hpr Hcl Hp' Ht' Hsim) as [A1 A2]. split; [exact A1|]. split; [exact A2|].
  eapply places_follow; try eassumption. intros x y _ [_ ->]. exact (accepted_one_line _ _ _ _ Ha).
Qed.

(** ** The reports *)
Lemma diagnostics_after d' diags diags' : visits_all (e_ord e) -> analyze e uri src = Val (d, diags) -> analyze e uri src' = Val (d', diags') ->
  exists others, Permutation diags (others ++ reports_about src uri l o (fun x => x)) /\
    Permutation diags' (map (carried_diagnostic uri edits) (others ++ reports_about src uri l o (under final))).
Proof.
  intros Hv A A'. destruct renamed_document as (pr' & P' & T' & Hrep & R & B & Hsim & S & X & F).
  pose proof index_here as Hix. destruct (indexed_ok _ _ _ _ Hix) as (_ & _ & Hsp & Hsub & Hrg). pose proof (proper_single _ _ _ _ _ Hprop) as Hd.
  apply (diagnostics_follow e uri src src' edits pr pr' (same_symbolb o) (under final) d diags d' diags' Hsrc Hsrc' Hv Hpr P' B Hsim S X F); [reflexivity| |exact A|exact A'].
  intros x x' Hx (_ & _ & _ & Tx). pose proof (occ_token_name x') as Hn'. destruct (renamed_name _ _ _ _ Hsp Hsub Hrg o final Hd R x _ Hx Tx) as [[Sx E]|[Sx E]].
  - rewrite (proj2 (same_symbolb_spec _ _) Sx). cbn [under o_name]. congruence.
  - destruct (same_symbolb o x) eqn:G; [apply same_symbolb_spec in G; contradiction|]. congruence.
Qed.
End Renamed.
