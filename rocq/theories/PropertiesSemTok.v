(** Property theorems C22-C23: semantic tokens. *)
From Verif Require Import Text Rope Chumsky Tokenizer SemTok SpecText SpecSemTok PSemTok PSemDoc.

(** C22: every ASCII document below 4 GiB, also with lexical errors *)
Theorem C22_decodes : forall u src toks errs, ascii_text src = true -> lsp_plain src = true -> small src ->
  tokenize u src = Val (Some toks, errs) ->
  exists hs out, semantic_tokens_from_tokens toks = Val hs /\ convert_to_lsp_tokens src hs = Val out /\
    Forall2 (shows (lsp_position src)) (filter_map highlighted toks) (decode out).
Proof. exact document_semantic_tokens_lsp. Qed.
Print Assumptions C22_decodes.
(** ... with VT and FF: positions in the Unicode convention *)
Theorem C22_decodes_ascii : forall u src toks errs, ascii_text src = true -> small src ->
  tokenize u src = Val (Some toks, errs) ->
  exists hs out, semantic_tokens_from_tokens toks = Val hs /\ convert_to_lsp_tokens src hs = Val out /\
    Forall2 (shows (unicode_position src)) (filter_map highlighted toks) (decode out).
Proof. exact document_semantic_tokens_ascii. Qed.
Print Assumptions C22_decodes_ascii.
(** ... any document: no underflow, one entry per highlighted token *)
Theorem C22_total : forall u src toks errs, small src -> tokenize u src = Val (Some toks, errs) ->
  exists hs out, semantic_tokens_from_tokens toks = Val hs /\ convert_to_lsp_tokens src hs = Val out /\
    length out = length (filter_map highlighted toks).
Proof. exact document_semantic_tokens_total. Qed.
Print Assumptions C22_total.
Example C22_ex : forall u, let src := str "%x 5" ++ [LF] ++ str " int8" in
  ascii_text src = true /\ lsp_plain src = true /\ small src /\
  exists toks, tokenize u src = Val (Some toks, []) /\
    filter_map highlighted toks = [(0, 2, STVariable); (3, 1, STNumber); (6, 4, STType)].
Proof. intros u. repeat split. eexists. split; vm_compute; reflexivity. Qed.

(** C23 *)
Theorem C23_legend : forall toks, exists hs,
  semantic_tokens_from_tokens toks = Val hs /\
  Forall2 matches_highlight (filter_map highlighted toks) hs.
Proof. exact semantic_tokens_spec. Qed.
Print Assumptions C23_legend.
Example C23_ex : filter_map highlighted [(TNum (str "1"), mkSpan 3 4); (TIdent (str "a"), mkSpan 5 6)] = [(3, 1, STNumber)].
Proof. reflexivity. Qed.
