(** Names in a document made of parts. *)
From Verif Require Import Text Rope Chumsky Tokenizer Parser Numbers Index SemTok Diag Rename Cfg Backtrace Server SpecText SpecLex SpecParse SpecIndex SpecDiag SpecBacktrace SpecNumbers SpecCfg SpecView SpecRename SpecSemTok SpecSum SpecSumView SpecMove SpecWritten.

(** Global names and annotations mean the same in all parts. *)
Definition everywhere (t : stoken) : bool := match fst t with TGlobalName _ | TDebugRef _ => true | _ => false end.
(** The places in the part [p] where the name [t] is written. *)
Definition places_in (t : stoken) (p : piece) : list range_ := map (lsp_range (pc_text p)) (written (pr_stmts (pc_result p)) (pr_tokens (pc_result p)) t).
(** And in the document made of [l], [q] and [r], if [t] is a token of [q]. *)
Definition places_all (t : stoken) (l : list piece) (q : piece) (r : list piece) : list range_ :=
  if everywhere t then stacked lower_range (places_in t) 0 (l ++ q :: r) else map (lower_range (lsp_line_ends (whole l))) (places_in t q).
Definition label_places (f : func_sig * func_body) (n : text) (l : list piece) (q : piece) : list range_ :=
  map (lower_range (lsp_line_ends (whole l))) (map (lsp_range (pc_text q)) (label_written (fb_blocks (snd f)) n)).
(** The requests about a name, asked at [pos], know it as the one at [here] and find it in [places]. *)
Definition answers (e : env) (s : server) (uri : text) (pos : position_) (here : range_) (places : list range_) : Prop :=
  exists own decls refs,
    (goto_definition e s uri pos = Panic \/ exists ext, goto_definition e s uri pos = Val (Some (here, own ++ ext))) /\
    goto_declaration e s uri pos = Val (Some (here, decls)) /\ references e s uri pos = Val (Some refs) /\
    Permutation (own ++ decls ++ refs) (map (mkLocn uri) places) /\ prepare_rename s uri pos = Some here /\
    forall new edits, ~ signed new -> rename e s uri pos new = Val (Reply edits) -> Permutation (map te_range edits) places.
