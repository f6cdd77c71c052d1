(** C70: the requests about a symbol agree with each other. *)
From Verif Require Import Text Rope Chumsky Tokenizer Parser Numbers Index SemTok Diag Rename Cfg Backtrace Server SpecText SpecLex SpecParse SpecIndex SpecDiag SpecBacktrace SpecCfg SpecView SpecRename SpecSum SpecCoherent
  PCoherent ExamplesIndex ExamplesCfg ExamplesView ExamplesSum ExamplesCoherent.

(** C70: every occurrence of a symbol gives the same answers, and a rename replaces exactly these occurrences *)
Theorem C70_coherent : forall e s uri src d p origin locs, plain_document src -> opened e s uri src d -> p <= length src ->
  goto_definition e s uri (lsp_position src p) = Val (Some (origin, locs)) ->
  exists own ext decls refs, locs = own ++ ext /\
    goto_declaration e s uri (lsp_position src p) = Val (Some (origin, decls)) /\
    references e s uri (lsp_position src p) = Val (Some refs) /\
    prepare_rename s uri (lsp_position src p) = Some origin /\
    inside_range (lsp_position src p) origin /\
    In (mkLocn uri origin) (own ++ decls ++ refs) /\ NoDup (own ++ decls ++ refs) /\ Forall (fun x => loc_uri x = uri) (own ++ decls ++ refs) /\
    (forall x q, In x (own ++ decls ++ refs) -> q <= length src -> inside_range (lsp_position src q) (loc_range x) ->
      goto_definition e s uri (lsp_position src q) = Val (Some (loc_range x, locs)) /\
      goto_declaration e s uri (lsp_position src q) = Val (Some (loc_range x, decls)) /\
      references e s uri (lsp_position src q) = Val (Some refs)) /\
    forall new edits, ~ signed new -> rename e s uri (lsp_position src p) new = Val (Reply edits) ->
      Permutation (map te_range edits) (map loc_range (own ++ decls ++ refs)).
Proof. exact coherent. Qed.
Print Assumptions C70_coherent.
(** [@f] is a variable, a declared function and a defined function; asked for where the variable is assigned *)
Example C70_coherent_ex : plain_document both_ /\ opened env8 (sv both_) (str "f") both_ (doc_of env8 both_) /\ 1 <= length both_ /\ lsp_position both_ 1 = mkPos 0 1 /\
  goto_definition env8 (sv both_) (str "f") (mkPos 0 1) =
    Val (Some (mkRange (mkPos 0 0) (mkPos 0 2), [mkLocn (str "f") (mkRange (mkPos 2 12) (mkPos 2 14))])) /\
  references env8 (sv both_) (str "f") (mkPos 0 1) =
    Val (Some [mkLocn (str "f") (mkRange (mkPos 0 0) (mkPos 0 2)); mkLocn (str "f") (mkRange (mkPos 4 20) (mkPos 4 22))]) /\
  match rename env8 (sv both_) (str "f") (mkPos 0 1) (str "g") with Val (Reply l) => length l = 4 | _ => False end.
Proof.
  split; [split; [|split]; vm_compute; reflexivity|]. split; [exact open_both|]. split; [vm_compute; lia|].
  split; [vm_compute; reflexivity|]. split; [vm_compute; reflexivity|]. split; vm_compute; reflexivity.
Qed.

(** C70: where one request finds no symbol, none does *)
Theorem C70_nothing : forall e s uri src d p, plain_document src -> opened e s uri src d -> p <= length src -> let pos := lsp_position src p in
  goto_definition e s uri pos = Val None \/ goto_declaration e s uri pos = Val None \/ references e s uri pos = Val None \/ prepare_rename s uri pos = None ->
  goto_definition e s uri pos = Val None /\ goto_declaration e s uri pos = Val None /\ references e s uri pos = Val None /\ prepare_rename s uri pos = None /\
  forall new, exists m, rename e s uri pos new = Val (RpcError m).
Proof. exact nothing. Qed.
Print Assumptions C70_nothing.
(** the equals sign *)
Example C70_nothing_ex : plain_document both_ /\ opened env8 (sv both_) (str "f") both_ (doc_of env8 both_) /\ 3 <= length both_ /\
  references env8 (sv both_) (str "f") (lsp_position both_ 3) = Val None.
Proof.
  split; [split; [|split]; vm_compute; reflexivity|]. split; [exact open_both|]. split; [vm_compute; lia|]. vm_compute. reflexivity.
Qed.
