(** Property theorems C65: what clients are told when a request is refused. *)
From Verif Require Import Text Rope Chumsky Tokenizer Parser Numbers Index SemTok Diag Rename Cfg Backtrace Server Dispatch SpecText SpecParse SpecIndex SpecDiag SpecBacktrace SpecNumbers SpecCfg SpecView SpecRename SpecServer SpecRefusal
  PRefusal ExamplesIndex ExamplesCfg ExamplesView ExamplesRename ExamplesServer.

(** C65: a rename is refused for the reason given, and only then *)
Theorem C65_rename : forall e s uri src d p, plain_document src -> opened e s uri src d -> p <= length src ->
  exists pr, parse_from_str (e_u e) src = Val pr /\ pr_stmts pr = doc_stmts d /\
  (((forall o, In o (recorded (pr_stmts pr) (pr_tokens pr)) -> ~ covers (o_span o) p) /\
    forall new, rename e s uri (lsp_position src p) new = Val (RpcError (str "No symbol at the given position"))) \/
   exists o, In o (recorded (pr_stmts pr) (pr_tokens pr)) /\ covers (o_span o) p /\
     forall new m, rename e s uri (lsp_position src p) new = Val (RpcError m) <-> refused e o new m).
Proof. exact rename_refusals. Qed.
Print Assumptions C65_rename.
(** requests for a document that was never sent are refused as such *)
Theorem C65_unknown : forall e s0 ns s ps uri, docs s0 = [] -> Forall single ns -> receive e s0 ns = Val (s, ps) -> last_text uri ns = None ->
  (forall pos new, rename e s uri pos new = Val (RpcError (str "Document not found"))) /\
  (forall rng, code_action e s uri rng = Val (RpcError (str "Document not found"))) /\
  (forall a j ad, ca_data a = Some j -> action_data_of_json e j = Some ad -> ad_uri ad = uri -> code_action_resolve e s a = Val (RpcError (str "Document not found"))).
Proof. exact unknown_document. Qed.
Print Assumptions C65_unknown.
(** a command is refused for the reason given, and only then *)
Theorem C65_command : forall e s0 ns s ps c args m, docs s0 = [] -> Forall single ns -> receive e s0 ns = Val (s, ps) ->
  (execute_command s c args = RpcError m <-> command_refused e (fun u => last_text u ns) c args m).
Proof. exact command_refusals. Qed.
Print Assumptions C65_command.
Example C65_ex : plain_document doc10 /\ opened env8 s10 (str "f") doc10 d10 /\ 30 <= length doc10 /\
  rename env8 s10 (str "f") (lsp_position doc10 30) (str "a?") = Val (RpcError (str "Name contains invalid character")) /\
  rename env8 s10 (str "f") (lsp_position doc10 30) (str "%1a") = Val (RpcError (str "Name must not start with a digit")) /\
  rename env8 s10 (str "f") (lsp_position doc10 30) (str "+x") = Val (RpcError (str "Invalid relative rename `+x`")) /\
  docs s11 = [] /\ Forall single hist11 /\ receive env11 s11 hist11 = Val (s11', publishes env11 s11 hist11) /\ last_text (str "nowhere") hist11 = None /\
  execute_command s11' (str "visualize-cfg") [JStr (str "f"); JStr (str "@nobody")] = RpcError (str "function `@nobody` not found") /\
  execute_command s11' (str "visualize-cfg") [JStr (str "nowhere"); JStr (str "@f")] = RpcError (str "document `nowhere` not found").
Proof.
  split; [apply opened10|]. split; [apply opened10|]. split; [vm_compute; lia|]. split; [vm_compute; reflexivity|]. split; [vm_compute; reflexivity|]. split; [vm_compute; reflexivity|].
  split; [reflexivity|]. split; [repeat constructor|]. split; [vm_compute; reflexivity|]. split; [vm_compute; reflexivity|]. split; vm_compute; reflexivity.
Qed.
