(** Asking for the same relative rename at different words. *)
From Verif Require Import Text Rope Chumsky Tokenizer Parser Numbers Index SemTok Diag Rename Cfg Backtrace Server SpecText SpecLex SpecParse SpecIndex SpecDiag SpecView SpecNumbers SpecRename SpecWritten SpecRenumber.
From Coq Require Import Permutation.

(** Each of the two is in the scope of the other. *)
Definition together (ss : list statement) (t t' : stoken) : Prop := same_space ss t t' = true /\ same_space ss t' t = true.
(** The edit replaces one of [places] that is numbered from [n] on, but below [n']. *)
Definition for_lower (src : text) (places : list spanned) (n n' : N) (z : Z) (ed : text_edit) : Prop :=
  exists x m, In x places /\ has_number (fst x) m /\ (n <= m < n')%N /\ moves n z (fst x) (te_text ed) /\ te_range ed = lsp_range src (snd x).
(** The replies to the same request asked at a word numbered [n] ([a]) and at one
    numbered [n'] ([a']): [a] is [a'] and the edits of the words in between. *)
Definition includes (src : text) (places : list spanned) (n n' : N) (z : Z) (a a' : res (reply (list text_edit))) : Prop :=
  exists edits edits' lower, a = Val (Reply edits) /\ a' = Val (Reply edits') /\ Permutation edits (edits' ++ lower) /\ Forall (for_lower src places n n' z) lower.
(** Both replies have the same edits, maybe in another order. *)
Definition same_edits (a a' : res (reply (list text_edit))) : Prop :=
  exists edits edits', a = Val (Reply edits) /\ a' = Val (Reply edits') /\ Permutation edits edits'.
