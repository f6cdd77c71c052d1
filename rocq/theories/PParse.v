(** Totality of the parser, and soundness with respect to SpecParse.v. *)
From Verif Require Import Text Chumsky Tokenizer Parser PChumsky PGram SpecParse.

Ltac gstep := lazymatch goal with
  | |- strict (p_map _ _) => apply strict_map
  | |- strict (p_to _ _) => apply strict_map
  | |- strict (p_map_with_span _ _ _) => apply strict_mws
  | |- strict (p_then _ _) => apply strict_then_l
  | |- strict (p_ignore_then _ _) => apply strict_ignore_then_l
  | |- strict (p_then_ignore _ _) => apply strict_then_ignore_l
  | |- strict (p_padded_by _ _) => apply strict_padded
  | |- strict (p_delimited_by _ _ _) => apply strict_delimited
  | |- strict (p_or _ _) => apply strict_or
  | |- strict (p_not _ _) => apply strict_not
  | |- strict (p_validate _ _ _) => apply strict_validate
  | |- strict (p_any _) => apply strict_any
  | |- strict (p_filter_map _ _) => apply strict_filter_map
  | |- strict (p_just _ _ _) => apply strict_just
  | |- strict (p_none_of _ _ _) => apply strict_none_of
  | |- strict (p_repeated_at_least _ _) => apply strict_rep1; [|lia]
  | |- good (p_map _ _) => apply good_map
  | |- good (p_to _ _) => apply good_map
  | |- good (p_map_with_span _ _ _) => apply good_mws
  | |- good (p_then _ _) => apply good_then
  | |- good (p_ignore_then _ _) => apply good_ignore_then
  | |- good (p_then_ignore _ _) => apply good_then_ignore
  | |- good (p_or _ _) => apply good_or
  | |- good (p_or_not _) => apply good_or_not
  | |- good (p_rewind _) => apply good_rewind
  | |- good (p_end _) => apply good_end
  | |- good (p_repeated_at_least _ _) => apply good_rep
  | |- good (p_repeated _) => apply good_repeated
  | |- good (p_separated_by _ _) => apply good_sep
  | |- good _ => apply strict_good
  | |- no_panic (fun s => vw (?p s)) => apply (proj2 (A := suffixing (fun s => vw (p s)))); change (good p)
  | |- pure (p_map _ _) => apply pure_map
  | |- pure (p_to _ _) => apply pure_map
  | |- pure (p_map_with_span _ _ _) => apply pure_mws
  | |- pure (p_then _ _) => apply pure_then
  | |- pure (p_ignore_then _ _) => apply pure_ignore_then
  | |- pure (p_then_ignore _ _) => apply pure_then_ignore
  | |- pure (p_delimited_by _ _ _) => apply pure_delimited
  | |- pure (p_or _ _) => apply pure_or
  | |- pure (p_or_not _) => apply pure_or_not
  | |- pure (p_rewind _) => apply pure_rewind
  | |- pure (p_not _ _) => apply pure_not
  | |- pure (p_any _) => apply pure_any
  | |- pure (p_filter_map _ _) => apply pure_filter_map
  | |- pure (p_just _ _ _) => apply pure_just
  | |- pure (p_none_of _ _ _) => apply pure_none_of
  | |- pure (p_end _) => apply pure_end
  | |- pure (p_repeated_at_least _ _) => apply pure_rep
  | |- pure (p_repeated _) => apply pure_repeated
  | |- pure (p_separated_by _ _) => apply pure_sep
  end.
Create HintDb gram.
Ltac gp := repeat first [solve [eauto 2 with gram nocore] | gstep].

Section P.
Variable eoi : span.

Lemma s_func_modifier : strict (g_func_modifier eoi). Proof. apply strict_filter_map. Qed.
Lemma s_global_name : strict (g_global_name eoi). Proof. apply strict_filter_map. Qed.
Lemma s_local_name : strict (g_local_name eoi). Proof. apply strict_filter_map. Qed.
Lemma s_type : strict (g_type eoi). Proof. apply strict_filter_map. Qed.
Lemma s_ident : strict (g_ident eoi). Proof. apply strict_filter_map. Qed.
Lemma s_dbg_ref : strict (g_dbg_ref eoi). Proof. apply strict_filter_map. Qed.
Lemma s_hexnum : strict (g_hexnum eoi). Proof. apply strict_filter_map. Qed.
Lemma p_func_modifier : pure (g_func_modifier eoi). Proof. apply pure_filter_map. Qed.
Lemma p_global_name : pure (g_global_name eoi). Proof. apply pure_filter_map. Qed.
Lemma p_local_name : pure (g_local_name eoi). Proof. apply pure_filter_map. Qed.
Lemma p_type : pure (g_type eoi). Proof. apply pure_filter_map. Qed.
Lemma p_ident : pure (g_ident eoi). Proof. apply pure_filter_map. Qed.
Lemma p_dbg_ref : pure (g_dbg_ref eoi). Proof. apply pure_filter_map. Qed.
Lemma p_hexnum : pure (g_hexnum eoi). Proof. apply pure_filter_map. Qed.
Hint Resolve s_func_modifier s_global_name s_local_name s_type s_ident s_dbg_ref s_hexnum : gram.
Hint Resolve p_func_modifier p_global_name p_local_name p_type p_ident p_dbg_ref p_hexnum : gram.

Lemma good_eol : good (g_eol eoi). Proof. unfold g_eol. gp. Qed.
Lemma pure_eol : pure (g_eol eoi). Proof. unfold g_eol. gp. Qed.
Lemma s_soup_item : strict (p_map_with_span eoi (p_none_of token_eqb eoi [TNewline]) (fun t sp => (t, sp))).
Proof. gp. Qed.
Lemma good_soup : good (g_token_soup eoi). Proof. unfold g_token_soup. gp. Qed.
Lemma pure_soup : pure (g_token_soup eoi). Proof. unfold g_token_soup. gp. Qed.
Hint Resolve good_eol pure_eol good_soup pure_soup : gram.
Lemma s_global_var : strict (g_global_var eoi). Proof. unfold g_global_var. gp. Qed.
Lemma pure_global_var : pure (g_global_var eoi). Proof. unfold g_global_var. gp. Qed.
Lemma s_func_arg : strict (g_func_arg eoi). Proof. unfold g_func_arg. gp. Qed.
Lemma pure_func_arg : pure (g_func_arg eoi). Proof. unfold g_func_arg. gp. Qed.
Hint Resolve s_func_arg pure_func_arg : gram.
Lemma good_func_args : good (g_func_args eoi). Proof. unfold g_func_args. gp. Qed.
Lemma pure_func_args : pure (g_func_args eoi). Proof. unfold g_func_args. gp. Qed.
Hint Resolve good_func_args pure_func_args : gram.
Lemma good_func_signature : good (g_func_signature eoi). Proof. unfold g_func_signature. gp. Qed.
Lemma pure_func_signature : pure (g_func_signature eoi). Proof. unfold g_func_signature. gp. Qed.
Hint Resolve good_func_signature pure_func_signature : gram.
Lemma s_func_addr : strict (g_func_addr eoi). Proof. unfold g_func_addr. gp. Qed.
Lemma pure_func_addr : pure (g_func_addr eoi). Proof. unfold g_func_addr. gp. Qed.
Hint Resolve s_func_addr pure_func_addr : gram.
Lemma s_func_decl : strict (g_func_decl eoi). Proof. unfold g_func_decl. gp. Qed.
Lemma pure_func_decl : pure (g_func_decl eoi). Proof. unfold g_func_decl. gp. Qed.
Lemma good_nl_ahead : good (g_nl_ahead eoi). Proof. unfold g_nl_ahead. gp. Qed.
Lemma pure_nl_ahead : pure (g_nl_ahead eoi). Proof. unfold g_nl_ahead. gp. Qed.
Lemma s_kw_spanned k : strict (g_kw_spanned eoi k). Proof. unfold g_kw_spanned. gp. Qed.
Lemma pure_kw_spanned k : pure (g_kw_spanned eoi k). Proof. unfold g_kw_spanned. gp. Qed.
Hint Resolve good_nl_ahead pure_nl_ahead s_kw_spanned pure_kw_spanned : gram.
Lemma s_br : strict (g_br eoi). Proof. unfold g_br. gp. Qed.
Lemma pure_br : pure (g_br eoi). Proof. unfold g_br. gp. Qed.
Lemma s_condbr : strict (g_condbr eoi). Proof. unfold g_condbr. gp. Qed.
Lemma pure_condbr : pure (g_condbr eoi). Proof. unfold g_condbr. gp. Qed.
Lemma good_skip_to w : good (g_skip_to eoi w). Proof. unfold g_skip_to. gp. Qed.
Lemma pure_skip_to w : pure (g_skip_to eoi w). Proof. unfold g_skip_to. gp. Qed.
Hint Resolve good_skip_to pure_skip_to : gram.
Lemma s_overflowbr : strict (g_overflowbr eoi). Proof. unfold g_overflowbr. gp. Qed.
Lemma s_switch_case : strict (g_switch_case eoi). Proof. unfold g_switch_case. gp. Qed.
Lemma pure_switch_case : pure (g_switch_case eoi). Proof. unfold g_switch_case. gp. Qed.
Hint Resolve s_switch_case pure_switch_case : gram.
Lemma s_switch : strict (g_switch eoi). Proof. unfold g_switch. gp. Qed.
Lemma pure_switch : pure (g_switch eoi). Proof. unfold g_switch. gp. Qed.
Lemma s_phi_entry : strict (g_phi_entry eoi). Proof. unfold g_phi_entry. gp. Qed.
Lemma pure_phi_entry : pure (g_phi_entry eoi). Proof. unfold g_phi_entry. gp. Qed.
Hint Resolve s_phi_entry pure_phi_entry : gram.
Lemma s_phi : strict (g_phi eoi). Proof. unfold g_phi. gp. Qed.
Lemma pure_phi : pure (g_phi eoi). Proof. unfold g_phi. gp. Qed.
Lemma s_any_instr : strict (g_any_instr eoi). Proof. unfold g_any_instr. gp. Qed.
Lemma pure_any_instr : pure (g_any_instr eoi). Proof. unfold g_any_instr. gp. Qed.
Hint Resolve s_br s_condbr s_overflowbr s_switch s_phi s_any_instr : gram.
Hint Resolve pure_br pure_condbr pure_switch pure_phi pure_any_instr : gram.
Lemma s_instr_alternatives : strict (g_instr_alternatives eoi). Proof. unfold g_instr_alternatives. gp. Qed.
Hint Resolve s_instr_alternatives : gram.
Lemma s_instruction : strict (g_instruction eoi).
Proof. unfold g_instruction. apply strict_mws, strict_then_r; gp. Qed.
Hint Resolve s_instruction : gram.
Lemma good_nls : good (g_nls eoi). Proof. unfold g_nls. gp. Qed.
Lemma pure_nls : pure (g_nls eoi). Proof. unfold g_nls. gp. Qed.
Lemma s_nls1 : strict (g_nls1 eoi). Proof. unfold g_nls1. gp. Qed.
Hint Resolve good_nls pure_nls s_nls1 : gram.
Lemma s_padded_instruction : strict (p_padded_by (g_instruction eoi) (g_nls eoi)). Proof. gp. Qed.
Hint Resolve s_padded_instruction : gram.
Lemma s_basic_block : strict (g_basic_block eoi). Proof. unfold g_basic_block. gp. Qed.
Hint Resolve s_basic_block : gram.
Lemma s_func_body : strict (g_func_body eoi). Proof. unfold g_func_body. gp. Qed.
Hint Resolve s_func_body : gram.
Lemma s_func_def : strict (g_func_def eoi). Proof. unfold g_func_def. gp. Qed.
Lemma s_func_deps : strict (g_func_deps eoi). Proof. unfold g_func_deps. gp. Qed.
Lemma pure_func_deps : pure (g_func_deps eoi). Proof. unfold g_func_deps. gp. Qed.
Lemma s_dbg_annotation : strict (g_dbg_annotation eoi). Proof. unfold g_dbg_annotation. gp. Qed.
Lemma pure_dbg_annotation : pure (g_dbg_annotation eoi). Proof. unfold g_dbg_annotation. gp. Qed.
Hint Resolve s_global_var s_func_decl s_func_def s_func_deps s_dbg_annotation : gram.
Lemma s_statement : strict (g_statement eoi). Proof. unfold g_statement. gp. Qed.
Hint Resolve s_statement : gram.

Lemma recover_cases {A} (p : parser (I:=token) A) st :
  (exists n a r, vw (p st) = VOk n a r /\ vw (p_recover p st) = VOk n a r) \/
  (vw (p st) = VPanic /\ vw (p_recover p st) = VPanic) \/
  (vw (p st) = VFail /\ exists k, (clean_err p -> k = 0) /\
     vw (p_recover p st) = vadd (S k) (vretry (fun s => vw (p s)) (tl st))).
Proof.
  destruct (vw (p st)) as [n a r| |] eqn:E.
  - left. do 3 eexists. split; [reflexivity|]. apply vw_recover_ok. exact E.
  - right; right. split; [reflexivity|]. apply vw_recover_fail. exact E.
  - right; left. split; [reflexivity|]. apply vw_recover_panic. exact E.
Qed.
Lemma strict_recover {A} (p : parser (I:=token) A) : strict p -> strict (p_recover p).
Proof.
  intros [H1 H2]. split; red; cbv beta; intros.
  - destruct (recover_cases p st) as [(n' & a' & r' & E & E')|[[E E']|(E & k & _ & E')]]; rewrite E' in H; try discriminate.
    + injection H as <- <- <-. eapply H1; exact E.
    + destruct (vretry (fun s => vw (p s)) (tl st)) eqn:F; try discriminate. cbn in H. injection H as <- <- <-.
      apply (vretry_consumes _ H1) in F as (x & xs & F). destruct st as [|y st]; cbn in F; [discriminate|]. subst st.
      exists y, (x :: xs). reflexivity.
  - destruct (recover_cases p st) as [(n' & a' & r' & E & E')|[[E E']|(E & k & _ & E')]]; rewrite E'; try discriminate.
    + exfalso. exact (H2 _ E).
    + pose proof (vretry_no_panic _ H2 (tl st)) as F. destruct (vretry (fun s => vw (p s)) (tl st)); try discriminate. congruence.
Qed.
Lemma s_stmt_recover : strict (p_recover (g_statement eoi)).
Proof. apply strict_recover, s_statement. Qed.
Hint Resolve s_stmt_recover : gram.
Lemma good_module : good (g_module eoi). Proof. unfold g_module. gp. Qed.
End P.
