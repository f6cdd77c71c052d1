(** Refusals. *)
From Verif Require Import Text Rope Chumsky Tokenizer Parser Numbers Index SemTok Diag Rename Cfg Backtrace Server Dispatch SpecText SpecParse SpecIndex SpecDiag SpecBacktrace SpecNumbers SpecCfg SpecView SpecRename SpecServer SpecRefusal
  PText PRope PBacktrace PNumbers PIndex PIndexDoc PIndexText PDiag PHints PView PNav PRename PServer PCfg.

Lemma bad_character u name : existsb (fun c => negb (is_alphanumeric u c) && negb (c =? ch "_")%N && negb (c =? ch ":")%N) name = true -> exists c, In c name /\ ~ name_char u c.
Proof.
  intros H. apply existsb_exists in H as (c & Hc & H). exists c. split; [exact Hc|]. apply andb_true_iff in H as [H H3]. apply andb_true_iff in H as [H1 H2].
  apply negb_true_iff in H1, H2, H3. apply N.eqb_neq in H2, H3. intros [G|[G|G]]; congruence.
Qed.
Lemma absolute_refused e d o m ud new x : table_of (doc_index d) (o_kind o) (o_body o) = Some m -> alookup (o_name o) m = Some ud -> ~ signed new ->
  (absolute_rename e d o new = Val (RpcError x) <-> refused e o new x).
Proof.
  intros Hm Hud Hns. assert (Hus : use_defs_of d o = Val (Some ud)).
  { unfold use_defs_of. destruct (table_get _ _ _ _ Hm) as (fb & E1 & E2). rewrite E1. cbn [rbind]. rewrite E2. cbn [rbind]. rewrite Hud. reflexivity. }
  assert (Hb : without_sigil (o_kind o) new (strip_kind_prefix (o_kind o) new)) by (apply without_sigil_iff; reflexivity).
  assert (Hu : forall b, without_sigil (o_kind o) new b -> strip_kind_prefix (o_kind o) new = b) by (intros b H; apply without_sigil_iff in H; exact H).
  unfold absolute_rename, check_new_name. remember (strip_kind_prefix (o_kind o) new) as body eqn:Eb. clear Eb.
  assert (Hsh : forall z, ~ asks_shift new z). { intros z Hz. apply asks_signed in Hz as (c & r & n & -> & Hc & _). apply Hns. exists r. destruct Hc as [-> | ->]; auto. }
  destruct (existsb _ body) eqn:Ex.
  - cbn [rbind]. destruct (bad_character _ _ Ex) as (c & Hc & Hn). split.
    + intros H. inversion H. eapply rf_character; eassumption.
    + intros H. inversion H as [b c' _ _ _ _ E|c' b _ Hw Hall _ _ E|Hs _ E|z Hz _ _ E]; [reflexivity| |contradiction|exfalso; eapply Hsh; exact Hz].
      exfalso. rewrite (Hu _ Hw) in Hc. rewrite Forall_forall in Hall. apply Hn, Hall, Hc.
  - apply name_chars_iff in Ex. assert (Hno : forall b c, without_sigil (o_kind o) new b -> In c b -> ~ name_char (e_u e) c -> False).
    { intros b c Hw Hc Hn. rewrite <- (Hu _ Hw) in Hc. rewrite Forall_forall in Ex. apply Hn, Ex, Hc. }
    destruct body as [|c b].
    + cbn [rbind]. split; [discriminate|]. intros H. inversion H as [b c' _ Hw Hc Hn E|c' b _ Hw Hall _ _ E|Hs _ E|z Hz _ _ E]; [exfalso; eauto| |contradiction|exfalso; eapply Hsh; exact Hz].
      apply Hu in Hw. discriminate.
    + destruct (is_numeric (e_u e) c && negb (symbol_kind_eqb (o_kind o) KDbgAnnotation)) eqn:En.
      * cbn [rbind]. apply andb_true_iff in En as [En Ek]. apply negb_true_iff in Ek. split.
        -- intros H. inversion H. eapply rf_digit; try eassumption. intros E. apply kind_eqb_spec in E. congruence.
        -- intros H. inversion H as [b' c' _ Hw Hc Hn E|c' b' _ Hw Hall _ _ E|Hs _ E|z Hz _ _ E]; [exfalso; eauto|reflexivity|contradiction|exfalso; eapply Hsh; exact Hz].
      * cbn [rbind]. rewrite Hus. cbn [rbind]. split; [discriminate|].
        intros H. inversion H as [b' c' _ Hw Hc Hn E|c' b' _ Hw Hall Hnum Hk E|Hs _ E|z Hz _ _ E]; [exfalso; eauto| |contradiction|exfalso; eapply Hsh; exact Hz].
        apply Hu in Hw. inversion Hw; subst c' b'. rewrite Hnum in En. cbn [andb] in En. apply negb_false_iff in En. apply kind_eqb_spec in En. contradiction.
Qed.
Lemma mul_sign pf (c : char) nr : fits_i64 nr -> let z := if (c =? ch "-")%N then (- nr)%Z else nr in
  (pf = Debug -> fits_i64 z) -> exists sh, i64_mul pf (if (c =? ch "-")%N then (-1)%Z else 1%Z) nr = Val sh.
Proof.
  intros Hn z Hz. unfold i64_mul, i64_result. replace ((if (c =? ch "-")%N then (-1) else 1) * nr)%Z with z by (subst z; destruct (c =? ch "-")%N; lia).
  destruct (in_i64 z) eqn:E; [eauto|]. destruct pf; [|eauto]. specialize (Hz eq_refl). apply in_i64_iff in Hz. congruence.
Qed.
Lemma mul_sign_inv pf (c : char) nr sh : i64_mul pf (if (c =? ch "-")%N then (-1)%Z else 1%Z) nr = Val sh -> pf = Debug -> fits_i64 (if (c =? ch "-")%N then (- nr)%Z else nr).
Proof.
  unfold i64_mul, i64_result. replace ((if (c =? ch "-")%N then (-1) else 1) * nr)%Z with (if (c =? ch "-")%N then (- nr) else nr)%Z by (destruct (c =? ch "-")%N; lia).
  intros H ->. apply in_i64_iff. destruct (in_i64 _); [reflexivity|discriminate].
Qed.
Lemma signed_shift c rest : c = ch "+" \/ c = ch "-" -> forall z, asks_shift (c :: rest) z <-> exists nr, parse_i64 rest = Some nr /\ z = if (c =? ch "-")%N then (- nr)%Z else nr.
Proof.
  intros Hc z. split.
  - intros Hz. apply asks_signed in Hz as (c' & r & n & E & _ & Hn & ->). inversion E; subst c' r. apply parse_i64_iff in Hn. eauto.
  - intros (nr & Hn & ->). apply parse_i64_iff in Hn. exists rest, nr. split; [exact Hn|]. destruct Hc as [-> | ->]; [left|right]; split; reflexivity.
Qed.
Lemma is_i64_fits x z : is_i64 x z -> fits_i64 z.
Proof. intros (ds & _ & _ & H & _). exact H. Qed.
Lemma relative_refused e d o c rest x : ascii_text (o_name o) = true -> c = ch "+" \/ c = ch "-" ->
  (relative_rename e d o c rest = Val (RpcError x) <-> refused e o (c :: rest) x).
Proof.
  intros Ha Hc. assert (Hs : signed (c :: rest)) by (exists rest; destruct Hc as [-> | ->]; auto). pose proof (signed_shift c rest Hc) as HZ.
  unfold relative_rename. destruct (parse_i64 rest) as [nr|] eqn:Ep.
  - assert (Hz : asks_shift (c :: rest) (if (c =? ch "-")%N then (- nr)%Z else nr)) by (apply HZ; eauto).
    assert (Hf : fits_i64 nr) by (apply parse_i64_iff in Ep; eapply is_i64_fits; exact Ep). split.
    + intros H. destruct (i64_mul _ _ _) as [sh|] eqn:Em; [|discriminate]. cbn [rbind] in H.
      destruct (extract_cases (e_u e) _ Ha) as [(p & ds & v & G1 & G2 & E')|[G E']]; rewrite E' in H; cbn [rbind] in H.
      * destruct (get_shift_edits _ _ _ _ _ _ _ _ _); discriminate.
      * inversion H. eapply rf_unnumbered; [exact Hz| |exact G]. eapply mul_sign_inv. exact Em.
    + intros H. inversion H as [b c' Hn|c' b Hn|_ Hno|z Hz' Hd Hno]; [contradiction|contradiction|exfalso; eapply Hno; exact Hz|].
      apply HZ in Hz' as (nr' & E & ->). inversion E; subst nr'. destruct (mul_sign (e_pf e) c nr Hf Hd) as (sh & ->). cbn [rbind].
      destruct (extract_cases (e_u e) _ Ha) as [(p & ds & v & G1 & G2 & E')|[G E']]; rewrite E'; cbn [rbind]; [|reflexivity].
      exfalso. apply (Hno v). exists p, ds. auto.
  - assert (Hno : forall z, ~ asks_shift (c :: rest) z) by (intros z Hz; apply HZ in Hz as (nr & E & _); discriminate). split.
    + intros H. inversion H. exact (rf_shift e o (c :: rest) Hs Hno).
    + intros H. inversion H as [b c' Hn|c' b Hn|_ _|z Hz]; [contradiction|contradiction|reflexivity|exfalso; eapply Hno; exact Hz].
Qed.
Lemma rename_refusals e s uri src d p : plain_document src -> opened e s uri src d -> p <= length src ->
  exists pr, parse_from_str (e_u e) src = Val pr /\ pr_stmts pr = doc_stmts d /\
  (((forall o, In o (recorded (pr_stmts pr) (pr_tokens pr)) -> ~ covers (o_span o) p) /\
    forall new, rename e s uri (lsp_position src p) new = Val (RpcError (str "No symbol at the given position"))) \/
   exists o, In o (recorded (pr_stmts pr) (pr_tokens pr)) /\ covers (o_span o) p /\
     forall new m, rename e s uri (lsp_position src p) new = Val (RpcError m) <-> refused e o new m).
Proof.
  intros Hsrc Ho Hp. apply opened_indexed in Ho as (pr & Hix & Hrope & Hst & Hg). exists pr. split; [apply Hix|]. split; [symmetry; exact Hst|].
  unfold rename. rewrite Hg. destruct (symbol_at_cases e src d pr Hix Hrope Hsrc p Hp) as [[E H]|(o & t & ud & E & Ho & Hc & Hm & Hud)]; rewrite E; [left; split; [exact H|reflexivity]|].
  right. exists o. split; [exact Ho|]. split; [exact Hc|]. intros new m. destruct new as [|c r].
  - eapply absolute_refused; [exact Hm|exact Hud|]. intros (r & [H|H]); discriminate.
  - destruct (N.eqb_spec c (ch "+")) as [->|H1]; [|destruct (N.eqb_spec c (ch "-")) as [->|H2]]; cbn [orb].
    + apply relative_refused; [eapply occ_ascii; eassumption|auto].
    + apply relative_refused; [eapply occ_ascii; eassumption|auto].
    + eapply absolute_refused; [exact Hm|exact Hud|]. intros (r' & [H|H]); inversion H; contradiction.
Qed.

(** ** Documents that are not open *)
Lemma unknown_document e s0 ns s ps uri : docs s0 = [] -> Forall single ns -> receive e s0 ns = Val (s, ps) -> last_text uri ns = None ->
  (forall pos new, rename e s uri pos new = Val (RpcError (str "Document not found"))) /\
  (forall rng, code_action e s uri rng = Val (RpcError (str "Document not found"))) /\
  (forall a j ad, ca_data a = Some j -> action_data_of_json e j = Some ad -> ad_uri ad = uri -> code_action_resolve e s a = Val (RpcError (str "Document not found"))).
Proof.
  intros H0 Hs Hr Hl. destruct (receive_docs _ _ _ _ _ Hs Hr) as (_ & _ & H). specialize (H uri). rewrite Hl in H. unfold get_doc in H at 2. rewrite H0 in H. cbn in H.
  split; [|split].
  - intros pos new. unfold rename. rewrite H. reflexivity.
  - intros rng. unfold code_action. rewrite H. reflexivity.
  - intros a j ad E1 E2 E3. unfold code_action_resolve, do_code_action_resolve. rewrite E1, E2, E3, H. reflexivity.
Qed.

(** ** Commands *)
Lemma body_defined u src pr ix name : indexed u src pr ix -> ((exists b, find (fun b => text_eqb (fst (Index.fb_name b)) name) (function_bodies ix) = Some b) <-> defines (pr_stmts pr) name).
Proof.
  intros Hix. pose proof (function_bodies_defs _ _ _ _ Hix) as HF. split.
  - intros (b & E). apply find_some in E as [Hin En]. destruct (text_eqb_spec (fst (Index.fb_name b)) name) as [<-|]; [|discriminate].
    apply In_nth_error in Hin as [id Hn]. destruct (function_body_at _ _ _ _ _ _ Hix Hn) as (kw & sig & body & _ & Hd & E1 & _).
    exists (sig, body). split; [eapply nth_error_In; exact Hd|]. cbn [fst]. rewrite E1. reflexivity.
  - intros (f & Hf & <-). destruct (find _ _) as [b|] eqn:E; [eauto|]. exfalso. apply In_nth_error in Hf as [id Hf'].
    apply Forall2_nth_error_iff in HF as [HL HF]. destruct (nth_error (function_bodies ix) id) as [fb|] eqn:En.
    + destruct (HF _ _ _ En Hf') as [E1 _]. apply nth_error_In in En. eapply find_none in E; [|exact En]. cbn in E. rewrite E1, text_eqb_refl in E. discriminate.
    + apply nth_error_None in En. assert (nth_error (function_defs (pr_stmts pr)) id <> None) as G by congruence. apply nth_error_Some in G. lia.
Qed.
Lemma command_refusals e s0 ns s ps c args m : docs s0 = [] -> Forall single ns -> receive e s0 ns = Val (s, ps) ->
  (execute_command s c args = RpcError m <-> command_refused e (fun u => last_text u ns) c args m).
Proof.
  intros H0 Hs Hr. destruct (receive_docs _ _ _ _ _ Hs Hr) as (_ & _ & HD).
  assert (Hinv : c <> str "visualize-cfg" \/ (forall u f, args <> [JStr u; JStr f]) -> execute_command s c args = RpcError (str "Invalid command `" ++ c ++ str "`")).
  { intros H. unfold execute_command. destruct args as [|[] [|[] [|]]]; try reflexivity. destruct (text_eqb_spec c (str "visualize-cfg")) as [E|]; [|reflexivity].
    exfalso. destruct H as [H|H]; [exact (H E)|eapply H; reflexivity]. }
  assert (Hok : forall u f, execute_command s (str "visualize-cfg") [JStr u; JStr f] = match get_doc s u with None => RpcError (str "document `" ++ u ++ str "` not found")
    | Some d => match find (fun b => text_eqb (fst (Index.fb_name b)) f) (function_bodies (doc_index d)) with
        | None => RpcError (str "function `" ++ f ++ str "` not found") | Some b => Reply (mkShow (str "CFG for " ++ f) (create_cfg_dot_visualization b)) end end).
  { intros u f. unfold execute_command. rewrite text_eqb_refl. reflexivity. }
  assert (Hix : forall u t d, last_text u ns = Some t -> get_doc s u = Some d -> exists pr, indexed (e_u e) t pr (doc_index d)).
  { intros u t d E G. specialize (HD u). rewrite E in HD. destruct HD as (d' & ds & A1 & A2). assert (d' = d) as -> by congruence.
    destruct (opened_indexed e s u t d) as (pr & H & _); [split; [exact G|eauto]|eauto]. }
  split.
  - intros H. assert (Hd : (c <> str "visualize-cfg" \/ (forall u f, args <> [JStr u; JStr f])) \/ (c = str "visualize-cfg" /\ exists u f, args = [JStr u; JStr f])).
    { destruct (text_eqb_spec c (str "visualize-cfg")) as [E|E]; [|auto]. destruct args as [|[] [|[] [|]]]; try (left; right; congruence). right. eauto. }
    destruct Hd as [Hd|(-> & u & f & ->)]; [rewrite (Hinv Hd) in H; inversion H; apply cr_unknown; exact Hd|].
    rewrite Hok in H. pose proof (HD u) as Hu. destruct (last_text u ns) as [t|] eqn:Et.
    + destruct Hu as (d & ds & A1 & A2). rewrite A2 in H. destruct (Hix _ _ _ Et A2) as (pr & Hx). destruct (find _ _) as [b|] eqn:Ef; [discriminate|]. inversion H.
      eapply cr_function; [reflexivity|reflexivity|exact Et|apply Hx|]. intros Hdef. apply (body_defined _ _ _ _ _ Hx) in Hdef as (b & Eb). congruence.
    + unfold get_doc in Hu at 2. rewrite H0 in Hu. cbn in Hu. rewrite Hu in H. inversion H. eapply cr_document; [reflexivity|reflexivity|exact Et].
  - intros H. destruct H as [Hd|u f -> -> Et|u f t pr -> -> Et Ep Hdef]; [exact (Hinv Hd)| |]; rewrite Hok; specialize (HD u); rewrite Et in HD.
    + unfold get_doc in HD at 2. rewrite H0 in HD. cbn in HD. rewrite HD. reflexivity.
    + destruct HD as (d & ds & A1 & A2). rewrite A2. destruct (Hix _ _ _ Et A2) as (pr' & Hx). assert (pr' = pr) as -> by (destruct Hx as [Hx _]; congruence).
      destruct (find _ _) as [b|] eqn:Ef; [|reflexivity]. exfalso. apply Hdef, (body_defined _ _ _ _ _ Hx). eauto.
Qed.
