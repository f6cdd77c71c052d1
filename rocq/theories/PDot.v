(** The graphs of the server are read by Graphviz as the control flow graphs. *)
From Verif Require Import Text Rope Chumsky Tokenizer Parser Index SemTok Diag Rename Cfg Backtrace Server SpecText SpecLex SpecParse SpecIndex SpecDiag SpecCfg SpecDot PText PLexSpec PLexProps PParseProps PIndexText PIndexDoc PCfg PHints PView.

Fixpoint run (m : dmode) (t : text) : option (list dtok * dmode) :=
  match t with
  | [] => Some ([], m)
  | c :: t => match dot_step m c with
      | Some (ts, m') => match run m' t with Some (ts', m'') => Some (ts ++ ts', m'') | None => None end
      | None => None
      end
  end.
Lemma run_tokens t : forall m ts m' r, run m t = Some (ts, m') -> dot_tokens m (t ++ r) = match dot_tokens m' r with Some q => Some (ts ++ q) | None => None end.
Proof.
  induction t as [|c t IH]; intros m ts m' r E; cbn [run app] in *; [injection E as <- <-; destruct (dot_tokens m r); reflexivity|]. cbn [dot_tokens].
  destruct (dot_step m c) as [[ts1 m1]|]; [|discriminate]. destruct (run m1 t) as [[ts2 m2]|] eqn:R; [|discriminate]. injection E as <- <-.
  rewrite (IH _ _ _ r R). destruct (dot_tokens m2 r); [rewrite app_assoc; reflexivity|reflexivity].
Qed.
Lemma run_string t : ~ In DQUOTE t -> ~ In BACKSLASH t -> forall x, run (InString x) t = Some ([], InString (rev t ++ x)).
Proof.
  induction t as [|c t IH]; intros Hq Hb x; [reflexivity|]. cbn [run dot_step]. destruct (N.eqb_spec c DQUOTE) as [->|_]; [exfalso; apply Hq; left; reflexivity|].
  destruct (N.eqb_spec c BACKSLASH) as [->|_]; [exfalso; apply Hb; left; reflexivity|]. rewrite IH; [|intros H; apply Hq; right; exact H|intros H; apply Hb; right; exact H].
  cbn [rev]. rewrite <- !app_assoc. reflexivity.
Qed.
Lemma run_comment t : ~ In LF t -> run InComment t = Some ([], InComment).
Proof.
  induction t as [|c t IH]; intros H; [reflexivity|]. cbn [run dot_step]. destruct (N.eqb_spec c LF) as [->|_]; [exfalso; apply H; left; reflexivity|].
  rewrite IH; [reflexivity|]. intros K; apply H; right; exact K.
Qed.
Definition edge_toks (e : text * text) : list dtok := [DString (fst e); DArrow; DString (snd e)].
Definition readable (x : text) : Prop := ~ In DQUOTE x /\ ~ In BACKSLASH x.
Lemma string_tokens m x r : dot_step m DQUOTE = Some ([], InString []) -> readable x -> dot_tokens m (quote x ++ r) = match dot_tokens Outside r with Some q => Some (DString x :: q) | None => None end.
Proof.
  intros Hm [H1 H2]. unfold quote. change ((DQUOTE :: x ++ [DQUOTE]) ++ r) with (DQUOTE :: (x ++ [DQUOTE]) ++ r). cbn [dot_tokens]. rewrite Hm.
  rewrite <- app_assoc. rewrite (run_tokens _ _ _ _ _ (run_string x H1 H2 [])). rewrite app_nil_r. cbn [app dot_tokens dot_step]. rewrite N.eqb_refl, rev_involutive.
  destruct (dot_tokens Outside r); reflexivity.
Qed.
Lemma edge_tokens a b r : readable a -> readable b -> dot_tokens Outside (dot_edge a b ++ [LF] ++ r) = match dot_tokens Outside r with Some q => Some (edge_toks (a, b) ++ q) | None => None end.
Proof.
  intros Ha Hb. unfold dot_edge. rewrite <- !app_assoc. change (dot_tokens Outside (str "  " ++ quote a ++ str " -> " ++ quote b ++ [LF] ++ r)) with (match match dot_tokens Outside (quote a ++ str " -> " ++ quote b ++ [LF] ++ r) with Some r => Some ([] ++ r) | None => None end with Some r => Some ([] ++ r) | None => None end).
  rewrite string_tokens; [|reflexivity|exact Ha]. rewrite (run_tokens (str " -> ") Outside [DArrow] Outside) by reflexivity. rewrite string_tokens; [|reflexivity|exact Hb].
  rewrite (run_tokens [LF] Outside [] Outside) by reflexivity. destruct (dot_tokens Outside r); reflexivity.
Qed.
Lemma edges_tokens es r : Forall (fun e => readable (fst e) /\ readable (snd e)) es -> dot_tokens Outside (with_lf (map (fun e => dot_edge (fst e) (snd e)) es) ++ r) =
  match dot_tokens Outside r with Some q => Some (flat_map edge_toks es ++ q) | None => None end.
Proof.
  induction es as [|[a b] es IH]; intros H; [cbn; destruct (dot_tokens Outside r); reflexivity|]. inversion H as [|? ? [Ha Hb] Hr]; subst. cbn [fst snd] in Ha, Hb.
  unfold with_lf in *. cbn [map flat_map fst snd]. rewrite <- !app_assoc. rewrite edge_tokens by assumption. rewrite IH by exact Hr. destruct (dot_tokens Outside r); reflexivity.
Qed.
Lemma items_edges es : dot_items (flat_map edge_toks es ++ [DClose]) = Some (map (fun e => Edge (fst e) (snd e)) es).
Proof. induction es as [|[a b] es IH]; [reflexivity|]. cbn [flat_map edge_toks app fst snd map]. cbn [dot_items dot_id]. rewrite IH. reflexivity. Qed.

Lemma no_backslash u src pr t sp n : parse_from_str u src = Val pr -> In (t, sp) (pr_tokens pr) -> token_name t = Some n -> ~ In BACKSLASH n.
Proof.
  intros H Hin E. destruct (token_lexeme _ _ _ _ _ H Hin) as (w & Hw). intros Hc. apply (name_lexeme_chars _ _ _ _ Hw E) in Hc.
  destruct Hc as [[H1|[H1|H1]]|[H1|H1]]; [discriminate H1|discriminate H1|discriminate H1|discriminate H1|]. cbn in H1. repeat (destruct H1 as [H1|H1]; [discriminate H1|]). exact H1.
Qed.
Section Dot.
Variables (u : uclass) (src : text) (pr : parser_result) (ix : hir_index) (fb : function_body).
Hypothesis Hix : indexed u src pr ix.
Hypothesis Hfb : In fb (function_bodies ix).
Lemma edge_names_readable a b : cfg_edge (basic_blocks fb) a b -> readable a /\ readable b.
Proof.
  intros H. pose proof (edge_names_plain _ _ _ _ _ Hix Hfb _ _ H) as [[Ha _] [Hb _]].
  destruct H as (l & <- & bb & i & r & Hin & El & Hi & _ & Hr & <-). destruct (fb_stmt _ _ _ _ _ Hix Hfb) as (kw & sig & body & Hs & _ & E & _). rewrite E in Hin. destruct Hix as [Hp _].
  split; (split; [assumption|]).
  - apply (no_backslash _ _ _ (TIdent (fst l)) (snd l) _ Hp); [|reflexivity]. eapply tree_token_in; [exact Hp|exact Hs|]. eapply block_tokens_in; [exact Hin|]. unfold bb_tokens. rewrite El. left. reflexivity.
  - apply (no_backslash _ _ _ (TIdent (fst r)) (snd r) _ Hp); [|reflexivity]. eapply tree_token_in; [exact Hp|exact Hs|]. eapply block_tokens_in; [exact Hin|]. eapply instr_tokens_in; [exact Hi|].
    unfold instr_tokens. apply in_or_app. right. apply in_or_app. right. apply in_or_app. left. apply (in_map tident) in Hr. exact Hr.
Qed.
Lemma dot_read_edges : dot_read (create_cfg_dot_visualization fb) = Some (map (fun e => Edge (fst e) (snd e)) (cfg_edges (basic_blocks fb))).
Proof.
  rewrite (dot_is_lines _ _ _ _ _ Hix Hfb). unfold dot_read, dot_lines, with_lf. cbn [dot_frame firstn]. rewrite flat_map_app. cbn [flat_map]. rewrite flat_map_app.
  fold (with_lf (map (fun e => dot_edge (fst e) (snd e)) (cfg_edges (basic_blocks fb)))). rewrite <- !app_assoc.
  rewrite (run_tokens (str "// Control flow graph for ") Outside [] InComment) by reflexivity.
  pose proof (fb_name_plain _ _ _ _ _ Hix Hfb) as [_ Hn]. rewrite (run_tokens _ _ _ _ _ (run_comment _ Hn)). rewrite (run_tokens [LF] InComment [] Outside) by reflexivity.
  rewrite (run_tokens (str "// In VSCode, I recommend installing the `Graphviz Interactive Preview` extension to view this file.") Outside [] InComment) by reflexivity.
  rewrite (run_tokens [LF] InComment [] Outside) by reflexivity.
  rewrite (run_tokens (str "strict digraph D {") Outside [DWord (str "strict"); DWord (str "digraph"); DWord (str "D"); DOpen] Outside) by reflexivity.
  rewrite (run_tokens [LF] Outside [] Outside) by reflexivity.
  rewrite (run_tokens (str "  node [shape=box];") Outside [DWord (str "node"); DLeft; DWord (str "shape"); DEq; DWord (str "box"); DRight; DSemi] Outside) by reflexivity.
  rewrite (run_tokens [LF] Outside [] Outside) by reflexivity. cbn [app].
  rewrite edges_tokens.
  - change (dot_tokens Outside (str "}" ++ [LF] ++ flat_map (fun l => l ++ [LF]) [])) with (Some [DClose]). cbn [app].
    unfold dot_graph. change (text_eqb (str "strict") (str "strict") && text_eqb (str "digraph") (str "digraph")) with true. cbv iota.
    cbn [dot_items]. change (dot_default (str "node")) with true. cbv iota. apply items_edges.
  - apply Forall_forall. intros [a b] H. apply in_cfg_edges in H. exact (edge_names_readable _ _ H).
Qed.
Lemma graph_drawn : exists items, dot_read (create_cfg_dot_visualization fb) = Some items /\
  (forall a b, In (Edge a b) items <-> cfg_edge (basic_blocks fb) a b) /\
  (forall a, drawn items a <-> exists b, cfg_edge (basic_blocks fb) a b \/ cfg_edge (basic_blocks fb) b a).
Proof.
  eexists. split; [exact dot_read_edges|].
  assert (K : forall a b, In (Edge a b) (map (fun e => Edge (fst e) (snd e)) (cfg_edges (basic_blocks fb))) <-> cfg_edge (basic_blocks fb) a b).
  { intros a b. rewrite in_map_iff. split; [intros ([x y] & E & H); injection E as <- <-; apply in_cfg_edges; exact H|intros H; exists (a, b); apply in_cfg_edges in H; auto]. }
  split; [exact K|]. intros a. unfold drawn. split.
  - intros [H|(b & H)]; [apply in_map_iff in H as (? & E & _); discriminate|]. exists b. rewrite !K in H. exact H.
  - intros (b & H). right. exists b. rewrite !K. exact H.
Qed.
End Dot.
Lemma shown_drawn e s uri src d f : opened e s uri src d -> In f (function_defs (doc_stmts d)) -> defined_once (doc_stmts d) f = true ->
  exists t items, execute_command s (str "visualize-cfg") [JStr uri; JStr (fst (fs_name (fst f)))] = Reply (mkShow (str "CFG for " ++ fst (fs_name (fst f))) t) /\
    dot_read t = Some items /\
    (forall a b, In (Edge a b) items <-> cfg_edge (fb_blocks (snd f)) a b) /\
    (forall a, drawn items a <-> exists b, cfg_edge (fb_blocks (snd f)) a b \/ cfg_edge (fb_blocks (snd f)) b a).
Proof.
  intros Ho Hf H1. destruct (show_body _ _ _ _ _ _ Ho Hf H1) as (u & pr & fb & Hix & Hin & E1 & E2 & E). destruct (graph_drawn _ _ _ _ _ Hix Hin) as (items & H).
  rewrite E2 in H. exists (create_cfg_dot_visualization fb), items. auto.
Qed.
