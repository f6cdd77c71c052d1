(** Commenting out lines is the same as deleting them. *)
From Verif Require Import Text Rope Chumsky Tokenizer Parser Numbers Index SemTok Diag Rename Cfg Backtrace Server SpecText SpecLex SpecParse SpecExact SpecIndex SpecDiag SpecBacktrace SpecCfg SpecView SpecSemTok SpecSimilar SpecRebind SpecLines SpecSum SpecComment
  PText PRope PLexSpec PLexProps PTokens PLocal PParse PParseProps PIndex PIndexDoc PIndexText PDiag PDiagDoc PCfg PBacktrace PHints PView PFold PFoldText PNumbers PRename PRequest PExt PNav PRetree PRebind PAlike PExact PIdle PSum PSumIndex PSumDoc PSumNav PSumOrder PSumView PKeep PCoherent PEdit.

(** ** Lines *)
Lemma commented_idle l l' : commented_line l l' -> idle_line l'.
Proof.
  intros [bl r Hb Hr|bl e Hb He]; [|apply il_blank; assumption].
  change (str "# " ++ r ++ [LF]) with (ch "#" :: (SPACE :: r) ++ [LF]). apply il_comment; [exact Hb|]. intros [H|H]; [discriminate|contradiction].
Qed.
Lemma commented_all ls ls' : Forall2 commented_line ls ls' -> Forall idle_line ls'.
Proof. induction 1 as [|l l' ls ls' H _ IH]; constructor; [exact (commented_idle _ _ H)|exact IH]. Qed.
Lemma blank_line_ends bl r : Forall blank bl -> lsp_line_ends (bl ++ r) = lsp_line_ends r.
Proof. induction 1 as [|c bl [-> | ->] _ IH]; [reflexivity| |]; cbn [app lsp_line_ends]; rewrite IH; reflexivity. Qed.
Lemma commented_ends l l' : commented_line l l' -> lsp_line_ends l' = lsp_line_ends l.
Proof. intros [bl r Hb Hr|bl e Hb He]; [|reflexivity]. rewrite (blank_line_ends bl (r ++ [LF]) Hb), (blank_line_ends bl _ Hb). reflexivity. Qed.
Lemma commented_full l l' : commented_line l l' -> full_lines l /\ full_lines l'.
Proof.
  intros [bl r Hb Hr|bl e Hb He].
  - split; right; [exists (bl ++ r)|exists (bl ++ str "# " ++ r)]; rewrite <- !app_assoc; reflexivity.
  - assert (full_lines (bl ++ e)); [|auto]. right. destruct He as [-> | ->]; [exists bl; reflexivity|exists (bl ++ [CR]); rewrite <- app_assoc; reflexivity].
Qed.
Lemma commented_lines ls ls' : Forall2 commented_line ls ls' -> lsp_line_ends (concat ls') = lsp_line_ends (concat ls) /\ full_lines (concat ls').
Proof.
  induction 1 as [|l l' ls ls' H _ [IH1 IH2]]; [split; [reflexivity|left; reflexivity]|]. cbn [concat]. destruct (commented_full _ _ H) as [F1 F2].
  split; [rewrite !line_ends_app by assumption; rewrite (commented_ends _ _ H), IH1; reflexivity|apply full_lines_sum; assumption].
Qed.

(** ** Tokens that are not newlines do not end with one *)
Lemma tail_no_lf u w : name_tail u w -> ~ In LF w.
Proof. intros [H _] Hin. destruct (H _ Hin) as [K|K]; [|discriminate]. apply (sep_not_name u LF); [auto|left; exact K]. Qed.
Lemma lexeme_no_lf u t p : lexeme u t (p ++ [LF]) -> t = TNewline.
Proof.
  remember (p ++ [LF]) as z eqn:Ez. intros H. assert (In LF z) as Hin by (rewrite Ez; apply in_or_app; right; left; reflexivity).
  destruct H as [body Hb|w Hn|w Hn|body Hb|c Hc|c w t Hs Ht Hw|w Ht|w Ht|w Ht|w Hw]; try reflexivity; exfalso.
  - destruct Hin as [Hin|Hin]; [discriminate|contradiction].
  - destruct Hn as [Hn|(c & r & _ & _ & Hn)]; [rewrite Hn in Hin; destruct Hin as [Hin|[]]; discriminate|]. specialize (Hn _ Hin). unfold dec_digit, LF in Hn. lia.
  - destruct Hin as [Hin|[Hin|Hin]]; try discriminate. destruct Hn as [-> |(c & r & _ & _ & Hn)]; [destruct Hin as [Hin|[]]; discriminate|]. specialize (Hn _ Hin). unfold hex_digit, LF in Hn. lia.
  - change (DQUOTE :: body ++ [DQUOTE]) with ((DQUOTE :: body) ++ [DQUOTE]) in Ez. apply app_inj_tail in Ez as [_ E]. discriminate.
  - destruct Hin as [Hin|[]]. subst c. vm_compute in Hc. intuition discriminate.
  - destruct Hin as [Hin|Hin]; [|exact (tail_no_lf _ _ Ht Hin)]. subst c. destruct Hs as [Hs|Hs]; [|discriminate]. apply (sep_not_name u LF); [auto|left; left; exact Hs].
  - destruct Hin as [Hin|Hin]; [discriminate|exact (tail_no_lf _ _ Ht Hin)].
  - destruct Hin as [Hin|Hin]; [discriminate|exact (tail_no_lf _ _ Ht Hin)].
  - destruct Hin as [Hin|Hin]; [discriminate|exact (tail_no_lf _ _ Ht Hin)].
Qed.
Lemma solid_end u i t toks n : lexes u i t toks n -> full_lines t -> forall x, In x (solid toks) -> sp_end (snd x) < i + length t.
Proof.
  assert (K : forall tok w r, lexeme u tok w -> full_lines (w ++ r) -> tok <> TNewline -> r <> []).
  { intros tok w r Hl Hf Hn ->. rewrite app_nil_r in Hf. destruct Hf as [-> |(p & ->)]; [exact (lexeme_nonempty _ _ _ Hl eq_refl)|]. apply Hn. exact (lexeme_no_lf _ _ _ Hl). }
  assert (L : forall r : text, r <> [] -> 0 < length r) by (intros [|c r] H; [congruence|cbn; lia]).
  induction 1 as [i bl Hb|i bl t w r toks n Hb Hl H IH|i bl g t w r toks n Hb Hg Hgb Hun Hl H IH]; intros Hf x Hx; [destruct Hx| |].
  - apply full_lines_app in Hf. unfold solid in Hx. apply filter_In in Hx as [[<-|Hx] Hs].
    + cbn [fst snd sp_end] in *. assert (r <> []) as Hr by (eapply K; [apply Hl|exact Hf|intros ->; discriminate]). apply L in Hr. rewrite !app_length. lia.
    + apply full_lines_app in Hf. rewrite !app_length. assert (In x (solid toks)) as Hx' by (apply filter_In; auto). specialize (IH Hf x Hx'). lia.
  - apply full_lines_app in Hf. apply full_lines_app in Hf. unfold solid in Hx. apply filter_In in Hx as [[<-|Hx] Hs].
    + cbn [fst snd sp_end] in *. assert (r <> []) as Hr by (eapply K; [apply Hl|exact Hf|intros ->; discriminate]). apply L in Hr. rewrite !app_length. lia.
    + apply full_lines_app in Hf. rewrite !app_length. assert (In x (solid toks)) as Hx' by (apply filter_In; auto). specialize (IH Hf x Hx'). lia.
Qed.
Lemma solid_shift d toks : solid (map (shift_tok d) toks) = map (shift_tok d) (solid toks).
Proof. induction toks as [|[t sp] toks IH]; [reflexivity|]. unfold solid in *. cbn [map filter fst shift_tok]. destruct t; cbn [map]; rewrite IH; reflexivity. Qed.

Lemma in_forall2 {A B} (R : A -> B -> Prop) l m : Forall2 R l m -> forall x, In x l -> exists y, In y m /\ R x y.
Proof. induction 1 as [|x y l m H _ IH]; intros z Hz; [destruct Hz|]. destruct Hz as [<-|Hz]; [exists y; split; [left; reflexivity|exact H]|]. destruct (IH z Hz) as (w & H1 & H2). exists w. split; [right; exact H1|exact H2]. Qed.
Lemma in_forall2_r {A B} (R : A -> B -> Prop) l m : Forall2 R l m -> forall y, In y m -> exists x, In x l /\ R x y.
Proof. induction 1 as [|x y l m H _ IH]; intros z Hz; [destruct Hz|]. destruct Hz as [<-|Hz]; [exists x; split; [left; reflexivity|exact H]|]. destruct (IH z Hz) as (w & H1 & H2). exists w. split; [right; exact H1|exact H2]. Qed.
Lemma forall2_len {A B} (R : A -> B -> Prop) l m : Forall2 R l m -> length l = length m.
Proof. induction 1; cbn; congruence. Qed.
Lemma both_impl {A B} (R S : A -> B -> Prop) x y : (forall a b, R a b -> S a b) -> both R x y -> both S x y.
Proof. intros H. destruct x, y; cbn; auto. Qed.
Lemma same_stmts_impl (R S : stoken -> stoken -> Prop) : (forall a b, R a b -> S a b) -> forall ss ss', Forall2 (same_stmt R) ss ss' -> Forall2 (same_stmt S) ss ss'.
Proof.
  intros H. assert (N : forall f x y, named R f x y -> named S f x y) by (intros f x y; apply H).
  assert (NF : forall f l l', Forall2 (named R f) l l' -> Forall2 (named S f) l l') by (intros f l l'; apply forall2_impl; apply N).
  assert (G : forall s s', ranges R s s' -> ranges S s s').
  { intros s s' [(p & q & K1 & K2) (p' & q' & K3 & K4)]. split; [exists p, q|exists p', q']; split; auto. }
  assert (SG : forall s s', same_sig R s s' -> same_sig S s s').
  { intros s s' (K1 & K2 & K3 & K4). repeat split; auto. eapply forall2_impl; [|exact K4]. intros y z [K5 K6]. split; auto. }
  assert (IN : forall i i', same_instr R i i' -> same_instr S i i').
  { intros i i' (K1 & K2 & K3 & K4 & K5). split; [eapply both_impl; [apply N|exact K1]|]. split; [auto|]. split; [auto|]. split; [eapply both_impl; [apply N|exact K4]|]. auto. }
  assert (BB : forall i i', same_block R i i' -> same_block S i i').
  { intros i i' (K1 & K2 & K3 & K4). split; [eapply both_impl; [apply N|exact K1]|]. split; [eapply both_impl; [|exact K2]; intros; apply H; assumption|]. split; [eapply forall2_impl; [exact IN|exact K3]|]. auto. }
  intros ss ss'. apply forall2_impl. intros [z l|sg ad g|kw sg bd|z l|z l] [z' l'|sg' ad' g'|kw' sg' bd'|z' l'|z' l']; cbn; try tauto.
  - intros [K1 K2]. split; [auto|]. eapply forall2_impl; [exact H|exact K2].
  - intros (K1 & K2 & K3). split; [auto|]. split; eapply both_impl; try apply N; assumption.
  - intros (K1 & K2 & K3 & K4 & K5). split; [auto|]. split; [auto|]. split; [auto|]. split; [auto|]. eapply forall2_impl; [exact BB|exact K5].
  - intros [K1 K2]. split; auto.
  - intros [K1 K2]. split; [auto|]. eapply forall2_impl; [exact H|exact K2].
Qed.

(** ** Two documents, one with [ins] between [a] and [b] *)
Section Out.
Variables (u : uclass) (a b : text) (ins : list text) (ta : list stoken).
Hypothesis Hfl : full_lines a.
Hypothesis Ha : tokenize u a = Val (Some ta, []).
Hypothesis Hpl : place_after (without_comments ta) = LineStart.
Hypothesis Hi : Forall idle_line ins.
Notation x := (concat ins).
Notation d := (length x).
Definition mvp (p : nat) : nat := if p <? length a then p else p + d.
Definition mv (sp : span) : span := mkSpan (mvp (sp_start sp)) (mvp (sp_end sp)).
Definition mvt (t : stoken) : stoken := (fst t, mv (snd t)).
Definition mvo (o : occurrence) : occurrence := mkOcc (mv (o_span o)) (o_ud o) (o_kind o) (o_name o) (o_body o).
Lemma mvp_le p q : (mvp p <=? mvp q) = (p <=? q).
Proof. unfold mvp. apply Bool.eq_iff_eq_true. rewrite !Nat.leb_le. destruct (Nat.ltb_spec p (length a)), (Nat.ltb_spec q (length a)); lia. Qed.
Lemma mvp_lt p q : (mvp p <? mvp q) = (p <? q).
Proof. unfold mvp. apply Bool.eq_iff_eq_true. rewrite !Nat.ltb_lt. destruct (Nat.ltb_spec p (length a)), (Nat.ltb_spec q (length a)); lia. Qed.
Lemma mv_contains sp p : span_contains (mv sp) (mvp p) = span_contains sp p.
Proof. unfold span_contains, mv. cbn [sp_start sp_end]. rewrite mvp_le, mvp_lt. reflexivity. Qed.
Notation src := (a ++ b).
Notation src' := (a ++ x ++ b).
Notation n := (lsp_line_ends a).
Notation k := (lsp_line_ends x).
Lemma mv_position p : p <= length src -> lsp_position src' (mvp p) = down n k (lsp_position src p).
Proof.
  intros Hp. unfold mvp. destruct (Nat.ltb_spec p (length a)) as [H|H].
  - rewrite !position_left by (assumption || lia). unfold down, down_line. pose proof (line_low a p Hfl H 0 0) as L. fold (lsp_position a p) in L. destruct (Nat.leb_spec n (p_line (lsp_position a p))) as [G|G]; [lia|]. destruct (lsp_position a p); reflexivity.
  - assert (exists q, p = q + length a) as (q & ->) by (exists (p - length a); lia). rewrite position_right by exact Hfl.
    assert (full_lines (a ++ x)) as Hfx by (apply full_lines_sum; [exact Hfl|apply idle_full; exact Hi]).
    replace (q + length a + d) with (q + length (a ++ x)) by (rewrite app_length; lia). rewrite (app_assoc a x b), position_right by exact Hfx. rewrite line_ends_app by exact Hfl.
    unfold down, down_line, lower. cbn [p_line p_char]. destruct (Nat.leb_spec n (n + p_line (lsp_position b q))); [|lia]. f_equal. lia.
Qed.
Lemma mv_range sp : sp_start sp <= length src -> sp_end sp <= length src -> lsp_range src' (mv sp) = down_range n k (lsp_range src sp).
Proof. intros H1 H2. unfold lsp_range, down_range, mv. cbn [sp_start sp_end r_start r_end]. rewrite !mv_position by assumption. reflexivity. Qed.

Section Parsed.
Variables (toks : list stoken) (ss : list statement).
Hypothesis Hp : parse_from_str u src = Val (mkPR toks ss []).
Hypothesis Hne : ss <> [].
Definition T (t t' : stoken) : Prop := In t (solid toks) /\ t' = mvt t.
Lemma mo_same l l' : Forall2 (same_occ T) l l' -> l' = map mvo l.
Proof.
  induction 1 as [|o o' l l' (H1 & H2 & H3 & _ & H4) _ IH]; [reflexivity|]. cbn [map]. rewrite <- IH. f_equal. unfold mvo. unfold occ_token, mvt in H4. cbn [fst snd] in H4. injection H4 as H4 H5.
  destruct o as [sp ud kd nm bd], o' as [sp' ud' kd' nm' bd']. cbn in *. subst. f_equal. destruct kd'; injection H4 as ->; reflexivity.
Qed.
Lemma out_parsed : exists toks' ss', parse_from_str u src' = Val (mkPR toks' ss' []) /\ Forall2 (same_stmt T) ss ss' /\ solid toks' = map mvt (solid toks) /\
  recorded ss' toks' = map mvo (recorded ss toks) /\ undefined_uses (recorded ss' toks') = map mvo (undefined_uses (recorded ss toks)) /\
  redefinitions (recorded ss' toks') = map (fun z => (mvo (fst z), mvo (snd z))) (redefinitions (recorded ss toks)).
Proof.
  destruct (proj1 (document_exact _ _ _ _) Hp) as [Et Hs]. pose proof (tokenize_lexes0 _ _ _ Et) as L. pose proof (tokenize_lexes0 _ _ _ Ha) as La. destruct (lexes_app_inv _ _ _ _ _ La Hfl _ _ L) as (tb & Lb). cbn [plus] in Lb.
  destruct (both_lex u a b ins ta Hfl Ha Hi _ Lb) as (tl & H1 & H2 & H3 & H4). destruct (lexes_det _ _ _ _ _ L _ _ H3) as [Etk _].
  destruct (lexes_tokenize _ _ _ _ H4) as (errs & Et' & En).
  { right. intros E. apply app_eq_nil in E as [E1 E2]. apply app_eq_nil in E2 as [_ E2]. destruct tb; [|discriminate E2]. rewrite Etk, E1 in Hs. exact (says_something _ _ Hs Hne ltac:(constructor)). }
  destruct errs; [|discriminate En]. destruct (lines_parse _ _ _ _ _ _ Hp Hne Et') as (ss' & Hp' & Hsay); [rewrite Etk; exact (proj1 (more_lines ins ta Hpl tb tl H2))|].
  eexists _, ss'. split; [exact Hp'|]. destruct Hsay as (Em & _ & _ & Hst & (Hocc & _) & Hu & Hr). cbn [pr_tokens pr_stmts] in *.
  assert (ES : solid (ta ++ tl ++ map (shift_tok d) tb) = map mvt (solid toks)).
  { rewrite Etk, !solid_app, map_app. assert (solid tl = []) as -> by (rewrite <- solid_comments; apply solid_newlines; exact H2). cbn [app]. f_equal.
    - symmetry. rewrite <- (map_id (solid ta)) at 2. apply map_ext_in. intros [t [s1 s2]] Ht. pose proof (solid_end _ _ _ _ _ La Hfl _ Ht) as B. apply filter_In in Ht as [Ht _]. apply (spans_in_each _ _ _ _ (lexes_spans _ _ _ _ _ La)) in Ht. cbn in *.
      unfold mvt, mv, mvp. cbn [fst snd sp_start sp_end]. destruct (Nat.ltb_spec s1 (length a)); [|lia]. destruct (Nat.ltb_spec s2 (length a)); [|lia]. reflexivity.
    - rewrite solid_shift. apply map_ext_in. intros [t [s1 s2]] Ht. apply filter_In in Ht as [Ht _]. apply (spans_in_each _ _ _ _ (lexes_spans _ _ _ _ _ Lb)) in Ht. cbn in *.
      unfold mvt, mv, mvp, shift_tok, shift_span. cbn [fst snd sp_start sp_end]. destruct (Nat.ltb_spec s1 (length a)); [lia|]. destruct (Nat.ltb_spec s2 (length a)); [lia|]. reflexivity. }
  assert (HT : forall t t', counterparts (solid toks) (solid (ta ++ tl ++ map (shift_tok d) tb)) t t' -> T t t').
  { intros t t' K. unfold counterparts in K. split; [exact (in_combine_l _ _ _ _ K)|]. rewrite ES in K. clear - K. induction (solid toks) as [|y l IH]; [destruct K|]. destruct K as [K|K]; [injection K as <- <-; reflexivity|exact (IH K)]. }
  assert (HO : forall o o', same_occ (counterparts (solid toks) (solid (ta ++ tl ++ map (shift_tok d) tb))) o o' -> same_occ T o o').
  { intros o o' (K1 & K2 & K3 & K4). repeat split; try assumption; apply HT in K4; apply K4. }
  split; [eapply same_stmts_impl; [exact HT|exact Hst]|]. split; [exact ES|]. split; [apply mo_same; eapply forall2_impl; [exact HO|exact Hocc]|]. split; [apply mo_same; eapply forall2_impl; [exact HO|exact Hu]|].
  clear - Hr HO. induction Hr as [|p p' l l' [K1 K2] _ IH]; [reflexivity|]. cbn [map]. rewrite <- IH. f_equal.
  pose proof (mo_same [fst p] [fst p'] ltac:(constructor; [apply HO; exact K1|constructor])) as E1. pose proof (mo_same [snd p] [snd p'] ltac:(constructor; [apply HO; exact K2|constructor])) as E2.
  injection E1 as E1. injection E2 as E2. destruct p'. cbn in *. congruence.
Qed.
End Parsed.
End Out.

(** ** What the server says *)
Lemma down_own uri n k r : down_location uri n k (mkLocn uri r) = mkLocn uri (down_range n k r).
Proof. unfold down_location. cbn [loc_uri loc_range]. rewrite text_eqb_refl. reflexivity. Qed.
Lemma down_externals e rs uri n k l ext : (forall d y, In d l -> resolve_relative_path (e_fs e) rs (ext_path d) = Val (Some y) -> e_url_display e y <> uri) -> external_locations e rs l = Val ext -> map (down_location uri n k) ext = ext.
Proof.
  intros Hu. revert ext. induction l as [|x l IH]; intros ext H; cbn [external_locations] in H; [injection H as <-; reflexivity|].
  pose proof (IH (fun d y Hd => Hu d y (or_intror Hd))) as IH'. clear IH. rename IH' into IH. pose proof (fun y => Hu x y (or_introl eq_refl)) as Hx.
  destruct (resolve_relative_path (e_fs e) rs (ext_path x)) as [[y|]|]; cbn [rbind] in H; [|exact (IH _ H)|discriminate].
  destruct (u32_pred (e_pf e) (ext_line x)) as [line|]; cbn [rbind] in H; [|discriminate]. destruct (external_locations e rs l) as [rest|]; cbn [rbind] in H; [|discriminate]. injection H as <-.
  cbn [map]. rewrite (IH rest eq_refl). f_equal. unfold down_location. cbn [loc_uri]. destruct (text_eqb (e_url_display e y) uri) eqn:E; [|reflexivity]. apply text_eqb_eq in E. destruct (Hx _ eq_refl E).
Qed.
Lemma find_map' {A B} (f : A -> B) (p : B -> bool) l : find p (map f l) = option_map f (find (fun x => p (f x)) l).
Proof. induction l as [|x l IH]; [reflexivity|]. cbn [map find]. destruct (p (f x)); [reflexivity|exact IH]. Qed.
Lemma filter_map_comm {A B} (f : A -> B) (p : B -> bool) l : filter p (map f l) = map f (filter (fun x => p (f x)) l).
Proof. induction l as [|x l IH]; [reflexivity|]. cbn [map filter]. destruct (p (f x)); cbn [map]; rewrite IH; reflexivity. Qed.

Section Server.
Variables (e : env) (uri a b : text) (ins : list text) (ta toks : list stoken) (ss : list statement).
Hypothesis Hfl : full_lines a.
Hypothesis Ha : tokenize (e_u e) a = Val (Some ta, []).
Hypothesis Hpl : place_after (without_comments ta) = LineStart.
Hypothesis Hi : Forall idle_line ins.
Hypothesis Hp : parse_from_str (e_u e) (a ++ b) = Val (mkPR toks ss []).
Hypothesis Hne : ss <> [].
Notation x := (concat ins).
Notation src := (a ++ b).
Notation src' := (a ++ x ++ b).
Notation n := (lsp_line_ends a).
Notation k := (lsp_line_ends x).
Hypothesis P1 : plain_document src.
Hypothesis P2 : plain_document src'.
Lemma token_bound t : In t toks -> sp_start (snd t) <= length src /\ sp_end (snd t) <= length src.
Proof. intros H. apply parse_from_str_module in Hp as [S _]. apply (spans_in_each _ _ _ _ S) in H. lia. Qed.
Lemma occ_bound o : In o (recorded ss toks) -> sp_start (o_span o) <= length src /\ sp_end (o_span o) <= length src.
Proof. intros H. destruct (recorded_low _ _ _ _ Hp _ H). lia. Qed.

Lemma out_diagnostics : visits_all (e_ord e) -> exists d l d' l', analyze e uri src = Val (d, l) /\ analyze e uri src' = Val (d', l') /\ Permutation l' (map (down_diagnostic uri n k) l).
Proof.
  intros Hv. destruct (analyze_ascii e uri src) as (d & l & E); [apply P1|]. destruct (analyze_ascii e uri src') as (d' & l' & E'); [apply P2|]. exists d, l, d', l'. split; [exact E|]. split; [exact E'|].
  destruct (out_parsed _ _ _ _ _ Hfl Ha Hpl Hi _ _ Hp Hne) as (toks' & ss' & Hp' & Hst & HS & HR & HU & HD).
  destruct (document_diagnostics _ _ _ _ _ P1 Hv E) as (pr & Q & M). rewrite Hp in Q. injection Q as <-. destruct (document_diagnostics _ _ _ _ _ P2 Hv E') as (pr & Q & M'). rewrite Hp' in Q. injection Q as <-.
  cbn [pr_errors pr_stmts pr_tokens filter map app] in M, M'. rewrite M', M. match goal with |- Permutation ?y ?z => assert (y = z) as ->; [|reflexivity] end. rewrite HU, HD, !map_app, !map_map. f_equal; [|f_equal].
  - apply (instructions_alike (T a ins toks)) in Hst.
    assert (Hsim : forall t t', T a ins toks t t' -> similar (fst t) (fst t')) by (intros t t' [_ ->]; left; reflexivity).
    clear M M' HU HD. induction Hst as [|i i' l1 l2 Hii _ IH]; [reflexivity|]. cbn [filter]. rewrite <- (missing_alike _ Hsim _ _ Hii). destruct (missing_refs i); [|exact IH]. cbn [map]. rewrite IH. f_equal.
    destruct Hii as (_ & [Hin Ei] & _). unfold mvt, tident in Ei. cbn [fst snd] in Ei. injection Ei as Ei1 Ei2. unfold missing_diagnostic, down_diagnostic, mnemonic. cbn [d_range d_message d_related map]. rewrite Ei1, Ei2.
    apply filter_In in Hin as [Hin _]. apply token_bound in Hin. cbn [snd tident] in Hin. rewrite mv_range by (assumption || apply Hin). reflexivity.
  - apply map_ext_in. intros o Ho. apply filter_In in Ho as [Ho _]. apply occ_bound in Ho. unfold undefined_diagnostic, down_diagnostic, mvo. cbn [o_span o_name d_range d_message d_related map]. rewrite mv_range by (assumption || apply Ho). reflexivity.
  - apply map_ext_in. intros [o f] Hof. apply in_redefs_recorded in Hof as [Ho Hf]. apply occ_bound in Ho, Hf. unfold redefinition_diagnostic, down_diagnostic, mvo. cbn [fst snd o_span o_name d_range d_message d_related map]. rewrite !mv_range by (assumption || apply Ho || apply Hf). rewrite down_own. reflexivity.
Qed.

Section Open.
Variables (s s' : server) (D D' : doc).
Hypothesis Ho : opened e s uri src D.
Hypothesis Ho' : opened e s' uri src' D'.
Lemma out_symbol p : p <= length src -> exists toks' ss', parse_from_str (e_u e) src' = Val (mkPR toks' ss' []) /\ Forall2 (same_stmt (T a ins toks)) ss ss' /\ recorded ss' toks' = map (mvo a ins) (recorded ss toks) /\
  lsp_position src' (mvp a ins p) = down n k (lsp_position src p) /\
  symbol_at D' (down n k (lsp_position src p)) = option_map (mvo a ins) (symbol_at D (lsp_position src p)).
Proof.
  intros Hle. destruct (out_parsed _ _ _ _ _ Hfl Ha Hpl Hi _ _ Hp Hne) as (toks' & ss' & Hp' & Hst & HS & HR & HU & HD). exists toks', ss'. split; [exact Hp'|]. split; [exact Hst|]. split; [exact HR|].
  pose proof (mv_position a b ins Hfl Hi p Hle) as Epos. split; [exact Epos|]. rewrite <- Epos.
  destruct (opened_at _ _ _ _ _ _ _ Ho Hp) as (I & R & S & G). destruct (opened_at _ _ _ _ _ _ _ Ho' Hp') as (I' & R' & S' & G').
  assert (mvp a ins p <= length src') as Hle'.
  { unfold mvp. rewrite !app_length in *. destruct (p <? length a); lia. }
  rewrite (symbol_at_find e src D _ I R P1 p Hle), (symbol_at_find e src' D' _ I' R' P2 _ Hle'). cbn [pr_stmts pr_tokens]. rewrite HR, <- map_rev, find_map'. f_equal. apply find_ext_span. intros o _. unfold mvo. cbn [o_span]. apply mv_contains.
Qed.
Lemma out_ranges p ud : p <= length src -> (ud = Def -> roots s' = roots s /\ leads_elsewhere e (roots s) uri ss) ->
  get_use_def_ranges e s' uri (down n k (lsp_position src p)) ud = rmap (option_map (down_answer uri n k)) (get_use_def_ranges e s uri (lsp_position src p) ud).
Proof.
  intros Hle Hd. destruct (out_symbol p Hle) as (toks' & ss' & Hp' & Hst & HR & Epos & Hs).
  destruct (opened_at _ _ _ _ _ _ _ Ho Hp) as (I & R & S & G). destruct (opened_at _ _ _ _ _ _ _ Ho' Hp') as (I' & R' & S' & G').
  destruct (symbol_at D (lsp_position src p)) as [o|] eqn:Eo; cbn [option_map] in Hs.
  - rewrite (answer_at e s uri src D _ I R G P1 o p ud Eo). rewrite <- Epos in Hs |- *. rewrite (answer_at e s' uri src' D' _ I' R' G' P2 _ _ ud Hs).
    cbn [pr_stmts].
    assert (Ex : externals ss' (mvo a ins o) = externals ss o).
    { unfold externals, mvo. cbn [o_kind o_name]. destruct (o_kind o); try reflexivity. symmetry. apply (ext_defs_same (T a ins toks)); [intros t t' [_ ->]; reflexivity|exact Hst|constructor]. }
    rewrite Ex.
    assert (Esp : map (location_of src' uri) (spans {| pr_tokens := toks'; pr_stmts := ss'; pr_errors := [] |} ud (mvo a ins o)) = map (down_location uri n k) (map (location_of src uri) (spans {| pr_tokens := toks; pr_stmts := ss; pr_errors := [] |} ud o))).
    { unfold spans, spans_of. cbn [pr_stmts pr_tokens]. rewrite HR, filter_map_comm, !map_map. change (fun z => entry_is ud (o_kind (mvo a ins o)) (o_body (mvo a ins o)) (o_name (mvo a ins o)) (mvo a ins z)) with (entry_is ud (o_kind o) (o_body o) (o_name o)). apply map_ext_in. intros z Hz. apply filter_In in Hz as [Hz _]. apply occ_bound in Hz. unfold location_of, mvo. cbn [o_span]. rewrite mv_range by (assumption || apply Hz). rewrite down_own. reflexivity. }
    assert (Ho2 : In o (recorded ss toks)) by (destruct (symbol_at_listed e src D _ I _ o Eo) as (K & _); exact K). apply occ_bound in Ho2.
    unfold mvo at 1. cbn [o_span]. rewrite mv_range by (assumption || apply Ho2). rewrite Esp. destruct ud; cbn [ud_kind_is_def rmap rbind option_map].
    + unfold down_answer. cbn [fst snd]. rewrite !app_nil_r. reflexivity.
    + destruct (Hd eq_refl) as [-> Hu]. destruct (external_locations e (roots s) (externals ss o)) as [ext|] eqn:Ee; [|reflexivity]. cbn [rmap rbind option_map]. unfold down_answer. cbn [fst snd]. rewrite map_app, (down_externals e (roots s) uri n k (externals ss o) ext); [reflexivity| |exact Ee]. intros d y Hd2. unfold externals in Hd2. destruct (o_kind o); try contradiction Hd2. exact (Hu _ d y Hd2).
    + unfold down_answer. cbn [fst snd]. rewrite !app_nil_r. reflexivity.
  - unfold get_use_def_ranges. rewrite G, G'. cbn [obind]. rewrite Hs, Eo. reflexivity.
Qed.
Lemma out_navigation p : p <= length src -> let pos := lsp_position src p in let pos' := down n k pos in
  goto_declaration e s' uri pos' = rmap (option_map (down_answer uri n k)) (goto_declaration e s uri pos) /\
  references e s' uri pos' = rmap (option_map (map (down_location uri n k))) (references e s uri pos) /\
  prepare_rename s' uri pos' = option_map (down_range n k) (prepare_rename s uri pos) /\
  (roots s' = roots s -> leads_elsewhere e (roots s) uri ss -> goto_definition e s' uri pos' = rmap (option_map (down_answer uri n k)) (goto_definition e s uri pos)).
Proof.
  intros Hle pos pos'. split; [|split; [|split]].
  - apply out_ranges; [exact Hle|discriminate].
  - unfold references. subst pos pos'. rewrite out_ranges by (exact Hle || discriminate). destruct (get_use_def_ranges e s uri (lsp_position src p) Use) as [[[r ls]|]|]; reflexivity.
  - destruct (out_symbol p Hle) as (toks' & ss' & Hp' & Hst & HR & Epos & Hs). destruct (opened_at _ _ _ _ _ _ _ Ho Hp) as (I & R & S & G). destruct (opened_at _ _ _ _ _ _ _ Ho' Hp') as (I' & R' & S' & G').
    unfold prepare_rename. rewrite G, G'. cbn [obind]. subst pos pos'. rewrite Hs. destruct (symbol_at D (lsp_position src p)) as [o|] eqn:Eo; [|reflexivity]. cbn [option_map obind]. rewrite R, R'.
    assert (Ho2 : In o (recorded ss toks)) by (destruct (symbol_at_listed e src D _ I _ o Eo) as (K & _); exact K).
    assert (Ho3 : In (mvo a ins o) (recorded ss' toks')) by (rewrite HR; apply in_map; exact Ho2). pose proof (recorded_range e src D _ I o Ho2) as [B1 B2]. pose proof (recorded_range e src' D' _ I' _ Ho3) as [B3 B4].
    rewrite !plain_range by assumption. unfold mvo. cbn [o_span option_map]. apply occ_bound in Ho2. rewrite mv_range by (assumption || apply Ho2). reflexivity.
  - intros Hr Hu. apply out_ranges; [exact Hle|]. intros _. split; assumption.
Qed.

(** outline *)
Lemma named_T f y z : named (T a ins toks) f y z -> (forall y z, fst (f y) = fst (f z) -> fst y = fst z) -> (forall y, snd (f y) = snd y) -> fst z = fst y /\ snd z = mv a ins (snd y) /\ sp_start (snd y) <= length src /\ sp_end (snd y) <= length src.
Proof.
  intros [Hin E] Hf Hs. unfold mvt in E. split; [symmetry; apply Hf; rewrite E; reflexivity|]. split; [rewrite <- (Hs z), E; cbn [snd]; rewrite Hs; reflexivity|]. apply filter_In in Hin as [Hin _]. apply token_bound in Hin. rewrite Hs in Hin. exact Hin.
Qed.
Lemma fst_global (y z : spanned) : fst (tglobal y) = fst (tglobal z) -> fst y = fst z. Proof. intros H. injection H as H. exact H. Qed.
Lemma fst_ident (y z : spanned) : fst (tident y) = fst (tident z) -> fst y = fst z. Proof. intros H. injection H as H. exact H. Qed.
Lemma start_T sp sp' : ranges (T a ins toks) sp sp' -> sp' = mv a ins sp /\ sp_start sp <= length src /\ sp_end sp <= length src.
Proof.
  intros [(y & z & [Hy Ez] & E1 & E2) (y' & z' & [Hy' Ez'] & E3 & E4)]. apply filter_In in Hy as [Hy _]. apply filter_In in Hy' as [Hy' _]. apply token_bound in Hy, Hy'. subst z z'. destruct sp as [p q], sp' as [p' q']. cbn in *. unfold mv. cbn. subst. split; [reflexivity|lia].
Qed.
Lemma out_variables st st' : Forall2 (same_stmt (T a ins toks)) st st' -> map (variable_symbol src') (variable_names st') = map (down_symbol n k) (map (variable_symbol src) (variable_names st)).
Proof.
  intros H. unfold variable_names. induction H as [|y z l l' Hyz _ IH]; [reflexivity|]. cbn [flat_map]. rewrite !map_app, IH. f_equal. destruct y, z; try contradiction Hyz; try reflexivity.
  cbn in Hyz. destruct Hyz as [Hyz _]. apply named_T in Hyz as (E1 & E2 & B1 & B2); [|apply fst_global|reflexivity]. cbn [map]. unfold variable_symbol, down_symbol. cbn [ds_name ds_kind ds_range ds_selection]. rewrite E1, E2, mv_range by assumption. reflexivity.
Qed.
Lemma out_functions st st' : Forall2 (same_stmt (T a ins toks)) st st' -> function_outline src' st' = map (down_symbol n k) (function_outline src st).
Proof.
  intros H. unfold function_outline. induction H as [|y z l l' Hyz _ IH]; [reflexivity|]. cbn [flat_map]. rewrite map_app, IH. f_equal. destruct y as [| |kw sg bd| |], z as [| |kw' sg' bd'| |]; try contradiction Hyz; try reflexivity.
  cbn in Hyz. destruct Hyz as (K1 & (_ & _ & K2 & _) & (_ & K3 & _)). apply named_T in K2 as (E1 & E2 & B1 & B2); [|apply fst_global|reflexivity].
  destruct K1 as [K1 E3]. destruct K3 as [K3 E4]. unfold mvt, tp in E3, E4. cbn [fst snd] in E3, E4. injection E3 as E3. injection E4 as E4. apply filter_In in K1 as [K1 _]. apply filter_In in K3 as [K3 _]. apply token_bound in K1, K3. cbn [snd tp] in K1, K3.
  cbn [map]. unfold down_symbol. cbn [ds_name ds_kind ds_range ds_selection]. rewrite E1, E2, E3, E4, mv_range by assumption. unfold down_range at 1. cbn [r_start r_end mv sp_start sp_end]. rewrite !mv_position by (assumption || apply K1 || apply K3). reflexivity.
Qed.
Lemma out_outline : visits_all (e_ord e) -> exists l l', document_symbol e s uri = Some l /\ document_symbol e s' uri = Some l' /\ Permutation l' (map (down_symbol n k) l).
Proof.
  intros Hv. destruct (outline _ _ _ _ _ P1 Hv Ho) as (vs & E & Hvs & _). destruct (outline _ _ _ _ _ P2 Hv Ho') as (vs' & E' & Hvs' & _). eexists _, _. split; [exact E|]. split; [exact E'|].
  destruct (out_parsed _ _ _ _ _ Hfl Ha Hpl Hi _ _ Hp Hne) as (toks' & ss' & Hp' & Hst & _). destruct (opened_at _ _ _ _ _ _ _ Ho Hp) as (_ & _ & S & _). destruct (opened_at _ _ _ _ _ _ _ Ho' Hp') as (_ & _ & S' & _).
  rewrite S in Hvs |- *. rewrite S' in Hvs' |- *. rewrite (out_functions _ _ Hst), map_app. apply Permutation_app_tail. rewrite Hvs', (out_variables _ _ Hst), <- Hvs. reflexivity.
Qed.

(** folds *)
Definition out_block (b1 b2 : basic_block) : Prop := bb_span b2 = mv a ins (bb_span b1) /\ length (bb_instrs b2) = length (bb_instrs b1) /\ sp_start (bb_span b1) <= length src /\ sp_end (bb_span b1) <= length src.
Lemma out_blocks l l' : Forall2 (same_block (T a ins toks)) l l' -> Forall2 out_block l l'.
Proof.
  apply forall2_impl. intros y z (_ & _ & K1 & K2). apply start_T in K2 as (E & B1 & B2). split; [exact E|]. split; [symmetry; eapply forall2_len; exact K1|]. auto.
Qed.
Lemma out_mentions body body' : Forall2 (same_block (T a ins toks)) (fb_blocks body) (fb_blocks body') -> forall z, mentions_label body z -> mentions_label body' z.
Proof.
  intros H z (b0 & Hb & K). apply (in_forall2 _ _ _ H) in Hb as (b1 & Hb1 & (L & _ & I & _)). exists b1. split; [exact Hb1|]. destruct K as [(y & Ey & <-)|(i & r & Hi0 & Hr & <-)].
  - left. rewrite Ey in L. destruct (bb_label b1) as [y'|]; [|contradiction L]. cbn in L. apply named_T in L as (E & _); [|apply fst_ident|reflexivity]. eauto.
  - right. apply (in_forall2 _ _ _ I) in Hi0 as (i' & Hi' & (_ & _ & R & _)). apply (in_forall2 _ _ _ R) in Hr as (r' & Hr' & E). apply named_T in E as (E & _); [|apply fst_ident|reflexivity]. exists i', r'. auto.
Qed.
Lemma out_mentions' body body' : Forall2 (same_block (T a ins toks)) (fb_blocks body) (fb_blocks body') -> forall z, mentions_label body' z -> mentions_label body z.
Proof.
  intros H z (b0 & Hb & K). apply (in_forall2_r _ _ _ H) in Hb as (b1 & Hb1 & (L & _ & I & _)). exists b1. split; [exact Hb1|]. destruct K as [(y & Ey & <-)|(i & r & Hi0 & Hr & <-)].
  - left. rewrite Ey in L. destruct (bb_label b1) as [y'|]; [|contradiction L]. cbn in L. apply named_T in L as (E & _); [|apply fst_ident|reflexivity]. eauto.
  - right. apply (in_forall2_r _ _ _ I) in Hi0 as (i' & Hi' & (_ & _ & R & _)). apply (in_forall2_r _ _ _ R) in Hr as (r' & Hr' & E). apply named_T in E as (E & _); [|apply fst_ident|reflexivity]. exists i', r'. auto.
Qed.
Lemma out_defs st st' : Forall2 (same_stmt (T a ins toks)) st st' ->
  Forall2 (fun f g => Forall2 (same_block (T a ins toks)) (fb_blocks (snd f)) (fb_blocks (snd g))) (function_defs st) (function_defs st') /\
  Forall2 (fun y z => z = mv a ins y /\ sp_start y <= length src /\ sp_end y <= length src) (flat_map func_ranges st) (flat_map func_ranges st').
Proof.
  intros H. unfold function_defs. induction H as [|y z l l' Hyz _ [IH1 IH2]]; [split; constructor|]. cbn [flat_map]. destruct y as [| |kw sg bd| |], z as [| |kw' sg' bd'| |]; try contradiction Hyz; try (split; [exact IH1|exact IH2]).
  cbn in Hyz. destruct Hyz as (K1 & _ & (_ & K3 & K4)). cbn [app func_ranges]. split; constructor; try assumption.
  destruct K1 as [K1 E3]. destruct K3 as [K3 E4]. unfold mvt, tp in E3, E4. cbn [fst snd] in E3, E4. injection E3 as E3. injection E4 as E4. apply filter_In in K1 as [K1 _]. apply filter_In in K3 as [K3 _]. apply token_bound in K1, K3. cbn [snd tp] in K1, K3.
  rewrite E3, E4. cbn [sp_start sp_end]. split; [reflexivity|lia].
Qed.
Definition out_body (f g : function_body) : Prop :=
  complete_range g = mv a ins (complete_range f) /\ sp_start (complete_range f) <= length src /\ sp_end (complete_range f) <= length src /\ length (labels g) = length (labels f) /\ Forall2 out_block (basic_blocks f) (basic_blocks g).
Lemma out_bodies : Forall2 out_body (function_bodies (doc_index D)) (function_bodies (doc_index D')).
Proof.
  destruct (out_parsed _ _ _ _ _ Hfl Ha Hpl Hi _ _ Hp Hne) as (toks' & ss' & Hp' & Hst & _). destruct (opened_at _ _ _ _ _ _ _ Ho Hp) as (I & _ & _ & _). destruct (opened_at _ _ _ _ _ _ _ Ho' Hp') as (I' & _ & _ & _).
  destruct (out_defs _ _ Hst) as [Hd Hr]. apply Forall2_nth_error_iff. apply Forall2_nth_error_iff in Hd as [Ld Hd]. apply Forall2_nth_error_iff in Hr as [Lr Hr].
  split; [rewrite (bodies_count _ _ _ _ _ I), (bodies_count _ _ _ _ _ I'); exact Ld|]. intros id f g Hf Hg.
  destruct (bodies_at _ _ _ _ _ I _ _ Hf) as (y & Y1 & Y2 & Y3 & Y4 & Y5 & Y6). destruct (bodies_at _ _ _ _ _ I' _ _ Hg) as (z & Z1 & Z2 & Z3 & Z4 & Z5 & Z6).
  specialize (Hd _ _ _ Y1 Z1). destruct (Hr _ _ _ Y4 Z4) as (R1 & R2 & R3). split; [exact R1|]. split; [exact R2|]. split; [exact R3|]. split.
  - apply (numbers_unique (mentions_label (snd z))); [exact Z5|]. eapply numbers_iff; [|exact Y5]. intros w. split; [apply out_mentions; exact Hd|apply out_mentions'; exact Hd].
  - rewrite Y3, Z3. apply out_blocks. exact Hd.
Qed.
Lemma mvp_bound p : p <= length src -> mvp a ins p <= length src'.
Proof. unfold mvp. rewrite !app_length. destruct (p <? length a); lia. Qed.
Lemma out_fold sp what : inside src sp -> fold_lines src' (mv a ins sp) what = option_map (down_fold n k) (fold_lines src sp what).
Proof.
  intros [B1 B2]. unfold fold_lines. rewrite (plain_range src sp P1 B1 B2). rewrite (plain_range src' _ P2); [| |cbn [mv sp_start sp_end]; apply mvp_bound; assumption].
  - rewrite mv_range by (assumption || lia). reflexivity.
  - cbn [mv sp_start sp_end]. apply Nat.leb_le. rewrite mvp_le. apply Nat.leb_le. exact B1.
Qed.
Lemma out_folds : exists l, folding_range s uri = Some l /\ folding_range s' uri = Some (map (down_fold n k) l).
Proof.
  destruct (out_parsed _ _ _ _ _ Hfl Ha Hpl Hi _ _ Hp Hne) as (toks' & ss' & Hp' & _). destruct (opened_at _ _ _ _ _ _ _ Ho Hp) as (I & R & _ & G). destruct (opened_at _ _ _ _ _ _ _ Ho' Hp') as (_ & R' & _ & G').
  assert (In1 := fun fb => bodies_inside _ _ _ _ _ fb (proj2 (proj2 P1)) I). eexists. split; [exact (folding_is _ _ _ G)|]. rewrite (folding_is _ _ _ G'), R, R', map_app. f_equal. pose proof out_bodies as HB. f_equal.
  - apply (filter_map_two out_body); [exact HB|]. intros f g Hf (E1 & _ & _ & E2 & _). unfold body_fold. rewrite E1, E2. apply out_fold. apply (In1 f Hf).
  - rewrite !filter_map_flat'. apply (flat_two out_body); [exact HB|]. intros f g Hf (_ & _ & _ & _ & F). apply (filter_map_two out_block); [exact F|]. intros y z Hy (E1 & E2 & _). unfold block_fold. rewrite E1, E2. apply out_fold. destruct (In1 f Hf) as (_ & _ & K & _). rewrite Forall_forall in K. destruct (K y Hy) as [K1 _]. exact K1.
Qed.
End Open.
End Server.

(** ** The commented lines *)
Lemma comment_diagnostics e uri a x x' b ta toks ss : full_lines a -> tokenize (e_u e) a = Val (Some ta, []) -> place_after (without_comments ta) = LineStart -> commented_out x x' ->
  parse_from_str (e_u e) (a ++ b) = Val (mkPR toks ss []) -> ss <> [] -> plain_document (a ++ b) -> plain_document (a ++ x' ++ b) -> visits_all (e_ord e) ->
  exists d l d' l', analyze e uri (a ++ b) = Val (d, l) /\ analyze e uri (a ++ x' ++ b) = Val (d', l') /\ Permutation l' (map (down_diagnostic uri (lsp_line_ends a) (lsp_line_ends x)) l).
Proof.
  intros Hfl Ha Hpl (ls & ls' & -> & -> & Hc) Hp Hne P1 P2 Hv. destruct (commented_lines _ _ Hc) as [<- _]. eapply out_diagnostics; try eassumption. exact (commented_all _ _ Hc).
Qed.
Lemma comment_navigation e s s' uri a x x' b ta toks ss D D' p : full_lines a -> tokenize (e_u e) a = Val (Some ta, []) -> place_after (without_comments ta) = LineStart -> commented_out x x' ->
  parse_from_str (e_u e) (a ++ b) = Val (mkPR toks ss []) -> ss <> [] -> plain_document (a ++ b) -> plain_document (a ++ x' ++ b) ->
  opened e s uri (a ++ b) D -> opened e s' uri (a ++ x' ++ b) D' -> p <= length (a ++ b) ->
  let n := lsp_line_ends a in let k := lsp_line_ends x in let pos := lsp_position (a ++ b) p in let pos' := down n k pos in
  goto_declaration e s' uri pos' = rmap (option_map (down_answer uri n k)) (goto_declaration e s uri pos) /\
  references e s' uri pos' = rmap (option_map (map (down_location uri n k))) (references e s uri pos) /\
  prepare_rename s' uri pos' = option_map (down_range n k) (prepare_rename s uri pos) /\
  (roots s' = roots s -> leads_elsewhere e (roots s) uri ss -> goto_definition e s' uri pos' = rmap (option_map (down_answer uri n k)) (goto_definition e s uri pos)).
Proof.
  intros Hfl Ha Hpl (ls & ls' & -> & -> & Hc) Hp Hne P1 P2 Ho Ho' Hle. destruct (commented_lines _ _ Hc) as [<- _]. eapply out_navigation; try eassumption. exact (commented_all _ _ Hc).
Qed.
Lemma comment_views e s s' uri a x x' b ta toks ss D D' : full_lines a -> tokenize (e_u e) a = Val (Some ta, []) -> place_after (without_comments ta) = LineStart -> commented_out x x' ->
  parse_from_str (e_u e) (a ++ b) = Val (mkPR toks ss []) -> ss <> [] -> plain_document (a ++ b) -> plain_document (a ++ x' ++ b) ->
  opened e s uri (a ++ b) D -> opened e s' uri (a ++ x' ++ b) D' -> visits_all (e_ord e) ->
  let n := lsp_line_ends a in let k := lsp_line_ends x in
  (exists l l', document_symbol e s uri = Some l /\ document_symbol e s' uri = Some l' /\ Permutation l' (map (down_symbol n k) l)) /\
  exists l, folding_range s uri = Some l /\ folding_range s' uri = Some (map (down_fold n k) l).
Proof.
  intros Hfl Ha Hpl (ls & ls' & -> & -> & Hc) Hp Hne P1 P2 Ho Ho' Hv n k. subst n k. destruct (commented_lines _ _ Hc) as [<- _]. split.
  - eapply out_outline; try eassumption. exact (commented_all _ _ Hc).
  - eapply out_folds; try eassumption. exact (commented_all _ _ Hc).
Qed.
Lemma comment_syntax u a x x' b ta : full_lines a -> tokenize u a = Val (Some ta, []) -> place_after (without_comments ta) = LineStart -> commented_out x x' ->
  ((exists toks ss, ss <> [] /\ parse_from_str u (a ++ b) = Val (mkPR toks ss [])) <-> (exists toks ss, ss <> [] /\ parse_from_str u (a ++ x' ++ b) = Val (mkPR toks ss []))).
Proof.
  intros Hfl Ha Hpl (ls & ls' & -> & -> & Hc). apply commented_all in Hc. split; intros (toks & ss & Hne & H).
  - destruct (insert_lines _ _ _ _ _ Hfl Ha Hpl Hc _ _ H Hne) as (toks' & ss' & H' & (_ & _ & _ & F & _)). exists toks', ss'. split; [|exact H']. intros ->. cbn [pr_stmts] in F. inversion F; subst; apply Hne; reflexivity.
  - destruct (delete_lines _ _ _ _ _ Hfl Ha Hpl Hc _ _ H Hne) as (toks' & ss' & H' & (_ & _ & _ & F & _)). exists toks', ss'. split; [|exact H']. intros ->. cbn [pr_stmts] in F. inversion F; subst; apply Hne; reflexivity.
Qed.
