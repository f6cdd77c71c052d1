(** Error-free lines above a document with errors. *)
From Verif Require Import Text Chumsky Tokenizer Parser SpecLex SpecParse SpecSimilar SpecExact SpecSum SpecAbove PChumsky PGram PLex PLexSpec PTokens PLexProps PParse PSound PParseProps PComplete PLocal PNatural PRope PExact PSum PRuns.

(** ** Tokens *)
Section Items.
Variables (u : uclass) (eoi : span).
Notation P := (t_item u eoi).
Lemma item_shrinks : shrinks P. Proof. apply consumes_shrinks, consumes_item. Qed.
Lemma items_strip i t es l r : runs P (enum_from i t) es l r -> l <> [] -> runs P (enum_from (i + lead t) (skipn (lead t) t)) es l r.
Proof.
  intros H Hl. inversion H as [|st es1 a alt r1 es2 l1 r2 E _ H2]; subst; [congruence|].
  apply item_strip in E as (alt' & E). econstructor; [exact E|exact (item_shrinks _ _ _ _ _ E)|exact H2].
Qed.
Lemma items_front i a ta b es l r : lexes u i a ta 0 -> full_lines a -> runs P (enum_from (i + length a) b) es l r -> l <> [] ->
  runs P (enum_from i (a ++ b)) es (ta ++ l) r.
Proof.
  intros H. remember 0 as n eqn:En. revert En.
  induction H as [i bl Hb|i bl t w q toks n Hb Hl H IH|i bl g t w q toks n Hb Hg Hgb Hun Hl H IH]; intros En Hfl Hr Hne; [| |discriminate].
  - apply full_lines_blank in Hfl; [|exact Hb]. subst bl. cbn in Hr |- *. rewrite Nat.add_0_r in Hr. exact Hr.
  - apply full_lines_app in Hfl. pose proof (full_lines_app _ _ Hfl) as Hfr.
    assert (Hl' : longest u t w (q ++ b)) by (eapply full_lines_longest; eassumption).
    specialize (IH En Hfr). rewrite !app_length in Hr. replace (i + (length bl + (length w + length q))) with (i + length bl + length w + length q) in Hr by lia.
    specialize (IH Hr Hne). apply items_strip in IH; [|intros E; apply app_eq_nil in E as [_ E]; contradiction].
    rewrite <- !app_assoc. cbn [app]. pose proof (v_item u eoi i (bl ++ w ++ q ++ b)) as V.
    rewrite lead_app in V by (try exact Hb; eapply longest_head; exact Hl'). rewrite skipn_app_len in V. apply longest_lex in Hl'.
    rewrite (gfind_intro u 0 (w ++ q ++ b) t (length w)) in V by (try lia; exact Hl'). cbn [Nat.eqb plus] in V. cbv zeta in V. rewrite skipn_app_len in V.
    apply vw_ok0 in V as (alt & V). change es with ([] ++ es). econstructor; [exact V|exact (item_shrinks _ _ _ _ _ V)|exact IH].
Qed.
End Items.

Lemma enum_app i a b : enum_from i (a ++ b) = enum_from i a ++ enum_from (i + length a) b.
Proof. revert i. induction a as [|c a IH]; intros i; [cbn; rewrite Nat.add_0_r; reflexivity|]. cbn. rewrite IH. do 3 f_equal. lia. Qed.
Lemma tokens_above u a b ta tb eb : full_lines a -> tokenize u a = Val (Some ta, []) -> tokenize u b = Val (Some tb, eb) -> tb <> [] ->
  tokenize u (a ++ b) = Val (Some (ta ++ map (shift_tok (length a)) tb), map (move_error (length a)) eb).
Proof.
  intros Hfl Ha Hb Hne. apply tokenize_lexes0 in Ha. unfold tokenize, parse_recovery, tokenizer, p_then_ignore, p_map, p_then in *.
  set (eoi := mkSpan (length b) (length b + 1)) in *.
  assert (mkSpan (length (a ++ b)) (length (a ++ b) + 1) = shift_span (length a) eoi) as -> by (unfold eoi, shift_span; rewrite app_length; cbn; f_equal; lia).
  pose proof (carry_items u (length a) eoi (enum_from 0 b)) as C. rewrite shs_enum in C.
  destruct (p_repeated (t_item u eoi) (enum_from 0 b)) as [es l alt r|es e|]; [|discriminate|discriminate]. cbn [shp] in C.
  destruct (p_end eoi r) as [es2 x alt2 r2| |] eqn:Ee; try discriminate. injection Hb as -> <-. cbn [fst] in *.
  assert (r = [] /\ es2 = []) as [-> ->] by (destruct r; [cbn in Ee; injection Ee as <- _ _; auto|discriminate]).
  apply (repeated_runs _ _ _ _ _ _ (item_shrinks u _)) in C.
  destruct (runs_repeated _ _ _ _ _ (items_front u _ 0 a ta b _ _ _ Ha Hfl C ltac:(destruct tb; [contradiction|discriminate]))) as (alt' & ->).
  cbn [shs map p_end]. rewrite !app_nil_r. do 2 f_equal. rewrite !map_map. reflexivity.
Qed.

(** ** Statements *)
Section Stmts.
Variable eoi : span.
Local Notation strm := (list (token * span)).
Notation G := (g_statement eoi).
Notation R := (p_recover (g_statement eoi)).
Lemma nls_exact (st : strm) : exists l, g_nls eoi st = POk [] l (Some (err_here eoi (strip st) [Some TNewline])) (strip st).
Proof.
  unfold g_nls, p_repeated, p_repeated_at_least. assert (length st < length st + 3) as Hf by lia. revert Hf. generalize (length st + 3) as fuel.
  assert (forall (s : strm) fuel old outs, length s < fuel -> match old with Some n => length s <= n | None => True end -> exists l,
    p_rep fuel (p_just token_eqb eoi TNewline) 0 old [] outs None s = POk [] l (Some (err_here eoi (strip s) [Some TNewline])) (strip s)) as A.
  { induction s as [|[t sp] r IH]; intros [|fuel] old outs Hf Ho; cbn in Hf; try lia.
    - cbn [p_rep p_just strip]. eexists. reflexivity.
    - cbn [p_rep p_just]. destruct (token_eqb_spec t TNewline) as [->|Hn].
      + assert (match old with Some n => n =? length r | None => false end = false) as ->.
        { destruct old as [n|]; [|reflexivity]. apply Nat.eqb_neq. cbn in Ho. lia. }
        cbn [app merge_alts strip]. apply IH; lia.
      + rewrite strip_id by exact Hn. eexists. reflexivity. }
  intros fuel Hf. apply A; [exact Hf|exact I].
Qed.
Lemma statement_exactly (st : strm) : G st = G (strip st).
Proof.
  unfold g_statement. fold (g_stmt_alternatives eoi). unfold p_padded_by, p_then_ignore, p_ignore_then, p_map, p_then.
  destruct (nls_exact st) as (l & ->), (nls_exact (strip st)) as (l' & ->). rewrite strip_strip.
  destruct (g_stmt_alternatives eoi (strip st)); reflexivity.
Qed.
Lemma retry_exactly es0 e0 (st : strm) es e : G st = PErr es e -> p_retry G es0 e0 (tl st) = p_retry G es0 e0 (tl (strip st)).
Proof.
  induction st as [|[t sp] r IH]; intros H; [reflexivity|].
  destruct (token_eqb_spec t TNewline) as [->|Hn]; [|rewrite strip_id by exact Hn; reflexivity].
  cbn [strip tl]. assert (G r = PErr es e) as F by (rewrite statement_exactly; rewrite statement_exactly in H; exact H).
  rewrite <- (IH F). destruct r as [|t' r]; [reflexivity|]. cbn [p_retry tl]. rewrite F. reflexivity.
Qed.
Lemma recover_exactly (st : strm) : R st = R (strip st).
Proof.
  unfold p_recover. rewrite <- (statement_exactly st). destruct (G st) as [es a alt r|es e|] eqn:E; try reflexivity.
  assert (forall s : strm, match s with [] => [] | _ :: r => r end = tl s) as Ht by (intros []; reflexivity).
  rewrite !Ht. exact (retry_exactly es e st es e E).
Qed.
Lemma stmt_shrinks : shrinks R. Proof. apply consumes_shrinks, s_stmt_recover. Qed.
Lemma stmts_strip (st : strm) es l r : runs R st es l r -> l <> [] -> runs R (strip st) es l r.
Proof.
  intros H Hl. inversion H as [|st' es1 a alt r1 es2 l1 r2 E _ H2]; subst; [congruence|].
  rewrite recover_exactly in E. econstructor; [exact E|exact (stmt_shrinks _ _ _ _ _ E)|exact H2].
Qed.
Lemma stmts_front ss (toks : list (token * span)) : module_at ss toks -> ss = [] \/ ends_line toks -> forall rest es l, runs R rest es l [] -> l <> [] ->
  runs R (toks ++ rest) es (ss ++ l) [].
Proof.
  induction 1 as [|s ss pre seg post q H1 H2 Hs Hm IH]; intros Hl rest es l Hr Hne; [exact Hr|].
  destruct Hl as [Hl|Hl]; [discriminate|]. rewrite <- !app_assoc. cbn [app].
  assert (stmt_at s seg (post ++ q ++ rest)) as Hs'.
  { rewrite app_assoc. apply stmt_more; [exact Hs|]. apply (ends_line_app pre); [|exact Hl].
    intros E. apply app_eq_nil in E as [-> _]. destruct (stmt_at_head _ _ _ Hs) as (? & ? & E & _). discriminate. }
  assert (runs R (q ++ rest) es (ss ++ l) []) as Hrest.
  { apply IH; [|exact Hr|exact Hne]. destruct ss as [|s2 ss]; [left; reflexivity|]. right.
    rewrite !app_assoc in Hl. apply ends_line_app in Hl; [exact Hl|]. intros ->. apply module_nil in Hm. discriminate. }
  apply stmts_strip in Hrest; [|intros E; apply app_eq_nil in E as [_ E]; contradiction].
  pose proof (vw_recover_ok _ _ _ _ _ (statement_fw eoi s pre seg post _ H1 H2 Hs')) as V. apply vw_ok0 in V as (alt & V).
  change es with ([] ++ es). econstructor; [exact V|exact (stmt_shrinks _ _ _ _ _ V)|exact Hrest].
Qed.
End Stmts.

Lemma parse_front src ta sa tb sb eb : module_at sa (without_comments ta) -> sa = [] \/ ends_line (without_comments ta) ->
  parse_tokens src tb = Val (Some sb, eb) -> sb <> [] -> parse_tokens src (ta ++ tb) = Val (Some (sa ++ sb), eb).
Proof.
  intros Hm Hl Hb Hne. unfold parse_tokens, parse_recovery, g_module, p_then_ignore, p_map, p_then in *. rewrite filter_app.
  assert (filter not_comment ta = without_comments ta) as -> by (apply filter_ext; intros [[] sp]; reflexivity). set (eoi := mkSpan _ _) in *.
  destruct (p_repeated (p_recover (g_statement eoi)) (filter not_comment tb)) as [es l alt r|es e|] eqn:Er; try discriminate.
  destruct (p_end eoi r) as [es2 x alt2 r2| |] eqn:Ee; try discriminate. injection Hb as -> <-. cbn [fst] in *.
  assert (r = [] /\ es2 = []) as [-> ->] by (destruct r; [cbn in Ee; injection Ee as <- _ _; auto|discriminate]).
  apply (repeated_runs _ _ _ _ _ _ (stmt_shrinks _)) in Er.
  pose proof (stmts_front eoi _ _ Hm Hl _ _ _ Er Hne) as F. apply runs_repeated in F as (alt' & F).
  unfold stoken in F |- *. rewrite F. cbn [p_end]. rewrite !app_nil_r. reflexivity.
Qed.

Lemma parse_shifted a b tb sb eb : parse_tokens b tb = Val (Some sb, eb) -> exists es,
  parse_tokens (a ++ b) (map (shift_tok (length a)) tb) = Val (Some (map (move_stmt (length a)) sb), es) /\ Forall2 (further a b) eb es.
Proof.
  intros H. set (d := length a). set (T := fun x y : stoken => y = shift_tok d x).
  assert (Forall2 T tb (map (shift_tok d) tb)) as HT by (clear; induction tb; constructor; [reflexivity|assumption]).
  pose proof (parse_similar_exactly T b (a ++ b) _ _ (fun a b E => or_introl (eq_sym (f_equal fst (E : b = _)))) HT) as S. rewrite H in S.
  destruct (parse_tokens (a ++ b) (map (shift_tok d) tb)) as [[o es]|]; [|contradiction]. destruct S as [S1 S2].
  destruct o as [ss|]; [|contradiction]. cbn in S1. rewrite (moved_list _ _ _ _ (moved_stmt d) S1). exists es. split; [reflexivity|].
  clear - S2. induction S2 as [|e e' l m He _ IH]; constructor; [|exact IH]. destruct He as [(H1 & H2 & H3 & _) H4].
  assert (e_found e' = e_found e) as Ef.
  { destruct (e_found e) as [t|], (e_found e') as [t'|]; try contradiction; [|reflexivity]. destruct H4 as (sp & sp' & H4). unfold T, shift_tok in H4. cbn in H4. congruence. }
  assert (forall k, e_span e' = shift_span k (e_span e) -> e' = move_error k e) as A.
  { intros k Hk. unfold move_error. rewrite <- Hk, H2, H3, <- Ef. destruct e'; reflexivity. }
  destruct H1 as [H1|[H1 H1']].
  - left. apply A. exact (moved_range d _ _ H1).
  - right. split; [exact H1|]. apply A. rewrite H1, H1'. unfold ends, shift_span. cbn. rewrite byte_len_app. f_equal; lia.
Qed.

Lemma further_map {I J} (f : I -> J) a b e e' : further a b e e' -> further a b (simple_map f e) (simple_map f e').
Proof. intros [->|[H ->]]; [left; reflexivity|right; split; [exact H|reflexivity]]. Qed.

Lemma further_refl a b {I} (l : list (simple I)) : l = [] -> Forall2 (further a b) l l.
Proof. intros ->. constructor. Qed.
Lemma parse_above u a b ta sa tb sb eb : full_lines a -> parse_from_str u a = Val (mkPR ta sa []) -> parse_from_str u b = Val (mkPR tb sb eb) ->
  sb <> [] \/ eb = [] -> exists es,
  parse_from_str u (a ++ b) = Val (mkPR (ta ++ map (shift_tok (length a)) tb) (sa ++ map (move_stmt (length a)) sb) es) /\ Forall2 (further a b) eb es.
Proof.
  intros Hfl Ha Hb Hne. destruct eb as [|e0 eb0] eqn:Eeb.
  { exists []. split; [exact (parse_sum _ _ _ _ _ _ _ Hfl Ha Hb)|constructor]. }
  rewrite <- Eeb in *. destruct Hne as [Hne|Hne]; [|congruence]. clear Eeb e0 eb0.
  apply document_exact in Ha as [Ta Ma]. unfold parse_from_str in Hb.
  destruct (tokenize u b) as [[[t|] et]|] eqn:Tb; cbn [rbind] in Hb; try discriminate; [|injection Hb as _ E _; congruence].
  destruct (parse_tokens b t) as [[o ep]|] eqn:Pb; cbn [rbind] in Hb; [|discriminate]. injection Hb as -> Eo <-. destruct o as [l|]; [subst l|congruence].
  assert (tb <> []) as Htb.
  { intros ->. cbn in Pb. injection Pb as <- _. contradiction. }
  destruct (parse_shifted a b _ _ _ Pb) as (es & Ps & Hes).
  unfold parse_from_str. rewrite (tokens_above _ _ _ _ _ _ Hfl Ta Tb Htb). cbn [rbind].
  rewrite (parse_front (a ++ b) ta sa _ (map (move_stmt (length a)) sb) es Ma); [| |exact Ps|destruct sb; [contradiction|discriminate]].
  - cbn [rbind]. eexists. split; [reflexivity|]. apply Forall2_app.
    + rewrite map_map. clear. induction et as [|e et IH]; cbn; constructor; [left; reflexivity|exact IH].
    + clear - Hes. induction Hes as [|e e' l m He _ IH]; cbn; constructor; [apply further_map; exact He|exact IH].
  - destruct a as [|c a]; [left|right].
    + apply tokenize_lexes0 in Ta. apply lexes_inv in Ta. cbn in Ta. destruct Ta as [-> _]. exact (module_nil _ Ma).
    + apply ends_line_comments. apply (lexes_last _ _ _ _ (tokenize_lexes0 _ _ _ Ta) Hfl). discriminate.
Qed.
Lemma further_plain {I} a b (l m : list (simple I)) : byte_len a = length a -> Forall2 (further a b) l m -> m = map (move_error (length a)) l.
Proof.
  intros Hp. induction 1 as [|e e' l m He _ IH]; [reflexivity|]. cbn. rewrite IH. f_equal. destruct He as [->|[_ ->]]; [reflexivity|rewrite Hp; reflexivity].
Qed.
