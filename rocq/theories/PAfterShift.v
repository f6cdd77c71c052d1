(** Diagnostics, outline, folds, highlighting and navigation after a shift of numbers. *)
From Verif Require Import Text Rope Chumsky Tokenizer Parser Numbers Index SemTok Diag Rename Cfg Backtrace Server SpecText SpecLex SpecParse SpecIndex SpecDiag SpecBacktrace SpecNumbers SpecCfg SpecView SpecSemTok SpecRename SpecPatch SpecSimilar SpecRebind SpecSteps SpecRoom SpecComment SpecAfter SpecAfterShift
  PText PRope PLexSpec PLexProps PParse PParseProps PNumbers PHints PFold PFoldText PNav PRequest PIndex PIndexDoc PIndexText PDiag PRename PRelex PRetree PRebind PUndo PSteps PDiagDoc PKeep PCfg PCoherent PSumIndex PSumView PAlike PComment PRoom PAfter PAfterView.

Lemma in_scopeb_spec o x : in_scopeb o x = true <-> in_scope o x.
Proof. unfold in_scopeb, in_scope. destruct (kind_dec (o_kind x) (o_kind o)), (body_dec (o_body x) (o_body o)); cbn; intuition congruence. Qed.
Lemma moves_one_line n z a b : one_line a -> moves n z a b -> one_line b /\ b <> [].
Proof.
  intros [O1 O2] (p & ds & m & ds' & (E & _) & _ & _ & (N & D & _) & ->). subst a. split; [|intros G; apply app_eq_nil in G as [_ G]; contradiction].
  split; intros G; apply in_app_iff in G as [G|G]; try (apply O1, in_or_app; auto; fail); try (apply O2, in_or_app; auto; fail); apply D in G; unfold LF, CR in G; unfold ascii_digit in G; lia.
Qed.

Lemma span_eqb_eq a b : span_eqb a b = true <-> a = b.
Proof. destruct a as [a1 a2], b as [b1 b2]. unfold span_eqb. cbn [sp_start sp_end]. rewrite andb_true_iff, !Nat.eqb_eq. split; [intros [-> ->]; reflexivity|intros G; inversion G; auto]. Qed.

Section Shift.
Variables (e : env) (s : server) (uri src : text) (d : doc) (pr : parser_result) (p : nat) (o : occurrence) (new : text) (z : Z) (n : N) (edits : list text_edit).
Notation u := (e_u e).
Notation l := (recorded (pr_stmts pr) (pr_tokens pr)).
Notation src' := (patched src edits).
Hypothesis Hsh : shifting e s uri src d pr p o new z n edits.
Hypothesis Hv : visits_all (e_ord e).

Lemma shift_index : indexed u src pr (doc_index d).
Proof. destruct Hsh as (_ & Hop & Hpr & _). exact (index_here e s uri src d pr Hop Hpr). Qed.
Lemma shifted_document : exists pr', parse_from_str u src' = Val pr' /\ replaces src (moved o n z) l edits /\
  retold (moved o n z) l (pr_tokens pr) (pr_tokens pr') /\ bound_alike pr pr' /\
  Forall2 (fun a b => similar (fst a) (fst b)) (pr_tokens pr) (pr_tokens pr') /\
  Forall2 (same_stmt (counterparts (pr_tokens pr) (pr_tokens pr'))) (pr_stmts pr) (pr_stmts pr') /\
  Forall2 (alike_error (counterparts (pr_tokens pr) (pr_tokens pr')) src src') (pr_errors pr) (pr_errors pr') /\
  Forall2 (follows src src' edits) (pr_tokens pr) (pr_tokens pr') /\
  Forall2 (fun a b => exists w w', swapped u src edits a w w' /\ sp_end (snd a) - sp_start (snd a) = length w /\ sp_end (snd b) - sp_start (snd b) = length w') (pr_tokens pr) (pr_tokens pr') /\
  regapped u src edits 0 0 src src' (pr_tokens pr) (pr_tokens pr').
Proof.
  pose proof shift_index as Hix. destruct Hsh as (Hsrc & Hop & Hpr & Hcl & Hin & Hc & Ha & Hz & Hn & Hov & Hg & Hlb & Hfit & Her & Hsrc').
  destruct (indexed_ok _ _ _ _ Hix) as (_ & _ & Hsp & Hsub & Hrg). destruct (span_bounds _ _ _ _ Hix _ Hin) as [Hb1 Hb2].
  destruct (shift_full _ _ _ _ _ p Hsrc Hv Hop ltac:(destruct Hc; lia)) as (pr0 & Hp0 & _ & _ & H). assert (pr0 = pr) as -> by congruence.
  destruct H as [H|(o0 & errs & Hin0 & Hc0 & Ht & H)]; [exfalso; exact (H _ Hin Hc)|]. assert (errs = []) as -> by congruence.
  pose proof (covers_same _ _ _ Hsp Hsub _ _ _ Hin Hin0 Hc Hc0) as Etk.
  assert (o = o0) as <-. { eapply single_unique; try eassumption; [|exact (f_equal snd Etk)]. intros G. contradiction. }
  destruct (H _ _ _ Ha Hn Hov (fun K => conj eq_refl (Hlb K))) as (eds & pr' & errs' & Er & Hrep & Hp' & Et' & R & Hgap & Hbd). destruct (Hgap eq_refl) as [-> G].
  assert (eds = edits) as -> by congruence. exists pr'. split; [exact Hp'|]. split; [exact Hrep|]. split; [exact R|]. split; [exact (Hbd Hz Hg Hfit)|].
  assert (Forall2 (fun a b => similar (fst a) (fst b)) (pr_tokens pr) (pr_tokens pr')) as Hsim.
  { eapply retold_similar; [exact R| |].
    - intros x y Hx [_ Hm] Hkx. exact (moves_plain _ _ _ _ Hm).
    - intros x t Hx Hit Es. exact (occ_at_token _ _ _ Hsp Hsub _ _ Hx Hit Es). }
  split; [exact Hsim|]. destruct (parsed_alike _ _ _ _ _ Hpr Hcl Hp' Et' Hsim) as [A1 A2]. split; [exact A1|]. split; [exact A2|]. split; [|split; [exact (regapped_lengths _ _ _ _ _ _ _ _ _ G)|exact G]].
  eapply places_follow; try eassumption. intros x y Hx [_ Hm]. exact (moves_one_line _ _ _ _ (occ_one_line _ _ _ _ _ Hix Hx) Hm).
Qed.

(** the new names *)
Section Names.
Variable pr' : parser_result.
Hypothesis Hp' : parse_from_str u src' = Val pr'.
Hypothesis R : retold (moved o n z) l (pr_tokens pr) (pr_tokens pr').
Notation T := (counterparts (pr_tokens pr) (pr_tokens pr')).
Lemma shift_local : o_kind o = KLocalVar \/ o_kind o = KDbgAnnotation \/ o_kind o = KLabel.
Proof. destruct Hsh as (_ & _ & _ & _ & _ & _ & _ & _ & _ & _ & Hg & _). unfold global in Hg. destruct (o_kind o); tauto. Qed.
Lemma outside x t : In x l -> ~ in_scope o x -> T (occ_token x) t -> token_name (fst t) = Some (o_name x).
Proof. destruct (indexed_ok _ _ _ _ shift_index) as (_ & _ & Hsp & Hsub & Hrg). exact (unmoved _ _ _ _ Hsp Hsub Hrg o n z shift_local R x t). Qed.
Lemma shifted_global k y w : k = KGlobalVar \/ k = KFunction -> In (occ Def k None y) l -> T (tglobal y) (tglobal w) -> fst w = fst y.
Proof.
  intros Hk Hx Ht. assert (token_name (fst (tglobal w)) = Some (o_name (occ Def k None y))) as E; [|injection E as E; exact E].
  apply outside; [exact Hx| |destruct Hk as [-> | ->]; destruct y; exact Ht].
  intros [E _]. cbn [occ o_kind] in E. destruct Hsh as (_ & _ & _ & _ & _ & _ & _ & _ & _ & _ & Hg & _). apply Hg. rewrite <- E. exact Hk.
Qed.
(** the name at the counterpart of a token *)
Definition name_there (x : occurrence) : text :=
  match find (fun a : stoken * stoken => span_eqb (snd (fst a)) (o_span x)) (combine (pr_tokens pr) (pr_tokens pr')) with
  | Some a => match token_name (fst (snd a)) with Some m => m | None => o_name x end
  | None => o_name x
  end.
Lemma name_there_eq x t m : T (occ_token x) t -> token_name (fst t) = Some m -> name_there x = m.
Proof.
  intros Ht Em. unfold name_there. destruct (find _ _) as [[a b]|] eqn:E.
  - apply find_some in E as [Hab E]. cbn [fst snd] in *. apply span_eqb_eq in E.
    destruct (indexed_ok _ _ _ _ shift_index) as (_ & _ & Hsp & _). pose proof (proj1 (parse_from_str_module _ _ _ Hp')) as Hsp'.
    destruct (counterparts_order _ _ _ _ _ _ Hsp Hsp' _ _ _ _ Ht Hab) as [[_ ->]|D]; [rewrite Em; reflexivity|].
    pose proof (spans_in_each _ _ _ _ Hsp (in_combine_l _ _ _ _ Hab)) as B. exfalso. cbn [occ_token snd] in D. rewrite E in *. lia.
  - exfalso. pose proof (find_none _ _ E _ Ht) as G. cbn [fst snd occ_token] in G. assert (span_eqb (o_span x) (o_span x) = true) as K by (apply span_eqb_eq; reflexivity). congruence.
Qed.
End Names.

Lemma shift_diagnostics d' diags diags' : analyze e uri src = Val (d, diags) -> analyze e uri src' = Val (d', diags') ->
  exists others f, (forall x, In x l -> in_scope o x -> moves_or_stays n z (o_name x) (f x)) /\
    Permutation diags (others ++ reports_within src uri l o (fun x => x)) /\
    Permutation diags' (map (carried_diagnostic uri edits) (others ++ reports_within src uri l o (fun x => under (f x) x))).
Proof.
  intros A A'. destruct shifted_document as (pr' & P' & Hrep & R & B & Hsim & S & X & F & _). pose proof shift_index as Hix. destruct (indexed_ok _ _ _ _ Hix) as (_ & _ & Hsp & Hsub & Hrg).
  pose proof Hsh as (Hsrc & Hop & Hpr & Hcl & Hin & Hc & Ha & Hz & Hn & Hov & Hg & Hlb & Hfit & Her & Hsrc').
  destruct (diagnostics_follow e uri src src' edits pr pr' (in_scopeb o) (fun x => under (name_there pr' x) x) d diags d' diags' Hsrc Hsrc' Hv Hpr P' B Hsim S X F) as (others & D & D'); [reflexivity| |exact A|exact A'|].
  - intros x x' Hx (_ & _ & _ & Tx). pose proof (occ_token_name x') as Hn'. destruct (in_scopeb o x) eqn:E.
    + cbn [under o_name]. symmetry. exact (name_there_eq pr' P' x _ _ Tx Hn').
    + assert (~ in_scope o x) as N by (intros G; apply in_scopeb_spec in G; congruence). pose proof (outside pr' R x _ Hx N Tx) as G. congruence.
  - exists others, (name_there pr'). split; [|split; [exact D|exact D']].
    intros x Hx Hs. pose proof B as [[Hoc _] _]. destruct (forall2_pair _ _ _ Hoc) as [G _]. destruct (G _ Hx) as (x' & Px). pose proof (combine_forall2 _ _ _ Hoc _ _ Px) as (_ & K & _ & Tx).
    rewrite (name_there_eq pr' P' x _ _ Tx (occ_token_name x')). exact (renumbered_token o n z l _ _ _ _ x x' eq_refl Hsp Hsub R Hg Hx Hs K Tx).
Qed.
End Shift.

Lemma kept_outline edits a : map (named_symbol (fun _ m => m) edits) a = map (kept_symbol edits) a.
Proof. reflexivity. Qed.
Lemma shift_views e s s' uri src d d' pr p o new z n edits : shifting e s uri src d pr p o new z n edits -> opened e s' uri (patched src edits) d' -> visits_all (e_ord e) ->
  (exists a b, document_symbol e s uri = Some a /\ document_symbol e s' uri = Some b /\ Permutation b (map (kept_symbol edits) a)) /\
  (exists k, folding_range s uri = Some k /\ folding_range s' uri = Some k) /\
  (exists out out', semantic_tokens_full s uri = Val (Some out) /\ semantic_tokens_full s' uri = Val (Some out') /\ decode out' = map (carried_token edits) (decode out)).
Proof.
  intros Hsh Ho' Hv. destruct (shifted_document _ _ _ _ _ _ _ _ _ _ _ _ Hsh Hv) as (pr' & P' & Hrep & R & B & Hsim & S & X & F & L & _).
  pose proof Hsh as (Hsrc & Hop & Hpr & Hcl & Hin & Hc & Ha & Hz & Hn & Hov & Hg & Hlb & Hfit & Her & Hsrc'). split; [|split].
  - change (kept_symbol edits) with (named_symbol (fun _ m => m) edits).
    eapply after_outline with (src := src) (src' := patched src edits) (gname := fun _ m => m) (pr := pr) (pr' := pr'); try eassumption. exact (shifted_global _ _ _ _ _ _ _ _ _ _ _ _ Hsh pr' R).
  - eapply after_folds with (src := src) (src' := patched src edits) (pr := pr) (pr' := pr'); eassumption.
  - eapply after_tokens with (src := src) (src' := patched src edits) (ren := moved o n z) (pr := pr) (pr' := pr'); eassumption.
Qed.
Lemma shift_answers e s s' uri src d d' pr p o new z n edits : shifting e s uri src d pr p o new z n edits -> opened e s' uri (patched src edits) d' -> visits_all (e_ord e) ->
  forall y, In y (recorded (pr_stmts pr) (pr_tokens pr)) -> let q := lsp_position src (sp_start (o_span y)) in let q' := carried edits q in
  goto_declaration e s' uri q' = rmap (option_map (carried_answer uri edits)) (goto_declaration e s uri q) /\
  references e s' uri q' = rmap (option_map (map (carried_location uri edits))) (references e s uri q) /\
  prepare_rename s' uri q' = option_map (carried_range edits) (prepare_rename s uri q) /\
  (roots s' = roots s -> leads_elsewhere e (roots s) uri (pr_stmts pr) -> goto_definition e s' uri q' = rmap (option_map (carried_answer uri edits)) (goto_definition e s uri q)).
Proof.
  intros Hsh Ho' Hv y Hy. destruct (shifted_document _ _ _ _ _ _ _ _ _ _ _ _ Hsh Hv) as (pr' & P' & Hrep & R & B & Hsim & S & X & F & L & _).
  pose proof Hsh as (Hsrc & Hop & Hpr & Hcl & Hin & Hc & Ha & Hz & Hn & Hov & Hg & Hlb & Hfit & Her & Hsrc').
  eapply after_navigation with (src := src) (src' := patched src edits) (pr := pr) (pr' := pr'); eassumption.
Qed.
