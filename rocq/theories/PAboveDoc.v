(** Reports about the syntax of a text behind complete lines without errors. *)
From Verif Require Import Text Rope Chumsky Tokenizer Parser Numbers Index SemTok Diag Rename Cfg Backtrace Server SpecText SpecLex SpecParse SpecIndex SpecDiag SpecBacktrace SpecCfg SpecView SpecSum SpecEdit SpecAbove
  PText PRope PParse PParseProps PIndex PIndexDoc PIndexText PDiag PDiagDoc PHints PLexProps PExt PNav PSum PSumIndex PAbove PSumDoc.

Lemma parse_above_ascii u a b ta sa tb sb eb : full_lines a -> byte_len a = length a -> parse_from_str u a = Val (mkPR ta sa []) -> parse_from_str u b = Val (mkPR tb sb eb) ->
  sb <> [] \/ eb = [] ->
  parse_from_str u (a ++ b) = Val (mkPR (ta ++ map (shift_tok (length a)) tb) (sa ++ map (move_stmt (length a)) sb) (map (move_error (length a)) eb)).
Proof. intros Hfl Hl Ha Hb He. destruct (parse_above _ _ _ _ _ _ _ _ Hfl Ha Hb He) as (es & Hs & Hes). apply further_plain in Hes; [|exact Hl]. subst es. exact Hs. Qed.
Lemma rest_named uri src is us rs : Forall named (map (missing_diagnostic src) is ++ map (undefined_diagnostic src) us ++ map (redefinition_diagnostic src uri) rs).
Proof.
  rewrite !Forall_app, !Forall_map. split; [|split]; apply Forall_forall.
  - intros i _. exists (fst (i_instr i)). left. reflexivity.
  - intros o _. exists (o_name o). right. left. reflexivity.
  - intros [o f] _. exists (o_name o). right. right. reflexivity.
Qed.
Lemma reports_above e uri a b pa pb : plain_document (a ++ b) -> full_lines a -> visits_all (e_ord e) ->
  parse_from_str (e_u e) a = Val pa -> parse_from_str (e_u e) b = Val pb -> pr_errors pa = [] -> read pb ->
  exists d l d' l' syn rest rest', analyze e uri (a ++ b) = Val (d, l) /\ analyze e uri b = Val (d', l') /\
    syn = map (syntax_diagnostic (e_xord e) b) (filter (fun x => negb (at_end b x)) (pr_errors pb)) /\
    Permutation l' (syn ++ rest') /\ Permutation l (map (lower_diagnostic (lsp_line_ends a)) syn ++ rest) /\ Forall named rest /\ Forall named rest'.
Proof.
  intros Hp Hfl Hv Ha Hb Ea Eb. destruct pa as [ta sa ea], pb as [tb sb eb]. cbn in Ea. subst ea. destruct (plain_parts _ _ Hp) as [Pa Pb].
  pose proof (parse_above_ascii _ _ _ _ _ _ _ _ Hfl (byte_len_ascii _ (proj1 Pa)) Ha Hb Eb) as Hs.
  destruct (analyze_ascii e uri (a ++ b)) as (d & l & E); [apply Hp|]. destruct (analyze_ascii e uri b) as (d' & l' & E'); [apply Pb|].
  destruct (document_diagnostics _ _ _ _ _ Hp Hv E) as (pr & Hpr & P). rewrite Hs in Hpr. injection Hpr as <-.
  destruct (document_diagnostics _ _ _ _ _ Pb Hv E') as (pr & Hpr & Q). rewrite Hb in Hpr. injection Hpr as <-.
  cbn [pr_errors] in P, Q |- *. rewrite (syntax_moved _ _ _ _ Hfl) in P.
  eexists _, _, _, _, _, _, _. split; [exact E|]. split; [exact E'|]. split; [reflexivity|]. split; [exact Q|]. split; [exact P|]. split; apply rest_named.
Qed.
