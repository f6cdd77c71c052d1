(** Property theorems C28, C30 and C32: renaming. *)
From Verif Require Import Text Rope Chumsky Tokenizer Parser Numbers Index SemTok Diag Rename Cfg Backtrace Server SpecText SpecParse SpecIndex SpecDiag SpecBacktrace SpecNumbers SpecCfg SpecView SpecRename
  PRename ExamplesIndex ExamplesCfg ExamplesView ExamplesRename.

(** C28: a symbol at the cursor is renamed at all its occurrences, by separate edits; exactly the accepted names are *)
Theorem C28_all_occurrences : forall e s uri src d p, plain_document src -> opened e s uri src d -> p <= length src ->
  exists pr, parse_from_str (e_u e) src = Val pr /\ pr_stmts pr = doc_stmts d /\
  (((forall o, In o (recorded (pr_stmts pr) (pr_tokens pr)) -> ~ covers (o_span o) p) /\
    forall new, exists m, rename e s uri (lsp_position src p) new = Val (RpcError m)) \/
   exists o, In o (recorded (pr_stmts pr) (pr_tokens pr)) /\ covers (o_span o) p /\
     (forall new final, accepted (e_u e) (o_kind o) new final -> exists edits, rename e s uri (lsp_position src p) new = Val (Reply edits) /\
        replaces src (renamed o final) (recorded (pr_stmts pr) (pr_tokens pr)) edits) /\
     (forall new edits, ~ signed new -> rename e s uri (lsp_position src p) new = Val (Reply edits) -> exists final, accepted (e_u e) (o_kind o) new final)).
Proof. exact accepted_plain. Qed.
Print Assumptions C28_all_occurrences.
Example C28_ex : plain_document doc10 /\ opened env8 s10 (str "f") doc10 d10 /\ 30 <= length doc10 /\
  accepted (e_u env8) KLocalVar (str "a_1") (str "%a_1") /\
  rename env8 s10 (str "f") (lsp_position doc10 30) (str "a_1") =
    Val (Reply [mkEdit (mkRange (mkPos 0 29) (mkPos 0 31)) (str "%a_1"); mkEdit (mkRange (mkPos 1 20) (mkPos 1 22)) (str "%a_1")]).
Proof.
  split; [apply opened10|]. split; [apply opened10|]. split; [vm_compute; lia|]. split; [|vm_compute; reflexivity].
  exists (ch "a"), (str "_1"). split; [right; split; [reflexivity|discriminate]|]. split; [reflexivity|].
  split; [|vm_compute; discriminate]. repeat (apply Forall_cons; [vm_compute; auto|]). apply Forall_nil.
Qed.

(** C30: numbers from the cursor's on are moved, the other names are not touched *)
Theorem C30_shift : forall e s uri src d p, plain_document src -> visits_all (e_ord e) -> opened e s uri src d -> p <= length src ->
  exists pr, parse_from_str (e_u e) src = Val pr /\ pr_stmts pr = doc_stmts d /\
  ((forall o, In o (recorded (pr_stmts pr) (pr_tokens pr)) -> ~ covers (o_span o) p) \/
   exists o, In o (recorded (pr_stmts pr) (pr_tokens pr)) /\ covers (o_span o) p /\
     (forall new z n, asks_shift new z -> has_number (o_name o) n -> no_overflow (recorded (pr_stmts pr) (pr_tokens pr)) o n z ->
        exists edits, rename e s uri (lsp_position src p) new = Val (Reply edits) /\
          replaces src (moved o n z) (recorded (pr_stmts pr) (pr_tokens pr)) edits) /\
     (forall new edits, signed new -> rename e s uri (lsp_position src p) new = Val (Reply edits) -> exists z n, asks_shift new z /\ has_number (o_name o) n)).
Proof. exact shift_plain. Qed.
Print Assumptions C30_shift.
Example C30_ex : plain_document doc10 /\ visits_all (e_ord env8) /\ opened env8 s10 (str "f") doc10 d10 /\ 30 <= length doc10 /\
  (In o10 occs10 /\ covers (o_span o10) 30 /\ has_number (o_name o10) 2 /\ asks_shift (str "+3") 3 /\ no_overflow occs10 o10 2 3) /\
  rename env8 s10 (str "f") (lsp_position doc10 30) (str "+3") =
    Val (Reply [mkEdit (mkRange (mkPos 3 16) (mkPos 3 18)) (str "%7");
      mkEdit (mkRange (mkPos 1 7) (mkPos 1 9)) (str "%8"); mkEdit (mkRange (mkPos 2 16) (mkPos 2 18)) (str "%8");
      mkEdit (mkRange (mkPos 0 29) (mkPos 0 31)) (str "%5"); mkEdit (mkRange (mkPos 1 20) (mkPos 1 22)) (str "%5")]).
Proof.
  split; [apply opened10|]. split; [apply opened10|]. split; [apply opened10|]. split; [vm_compute; lia|]. split; [exact o10_ok|vm_compute; reflexivity].
Qed.
(** moving up keeps all names different *)
Theorem C30_up_keeps_apart : forall n0 z a b c, (0 <= z)%Z -> no_leading_zeros a -> no_leading_zeros b ->
  (forall n, has_number a n -> fits_i64 (Z.of_N n + z)) -> (forall n, has_number b n -> fits_i64 (Z.of_N n + z)) ->
  moves_or_stays n0 z a c -> moves_or_stays n0 z b c -> a = b.
Proof. exact shifted_up_apart. Qed.
Print Assumptions C30_up_keeps_apart.
Example C30_up_ex : no_leading_zeros (str "%2") /\ no_leading_zeros (str "%12") /\ (forall n, has_number (str "%2") n -> fits_i64 (Z.of_N n + 3)) /\
  moves_or_stays 3 3 (str "%2") (str "%2") /\ moves_or_stays 3 3 (str "%12") (str "%15").
Proof. exact up10. Qed.
(** moving down keeps the moved names different *)
Theorem C30_moved_apart : forall n0 z a b c, no_leading_zeros a -> no_leading_zeros b ->
  (forall n, has_number a n -> (n0 <= n)%N -> (0 <= Z.of_N n + z)%Z) -> (forall n, has_number b n -> (n0 <= n)%N -> (0 <= Z.of_N n + z)%Z) ->
  moves n0 z a c -> moves n0 z b c -> a = b.
Proof. exact moved_apart. Qed.
Print Assumptions C30_moved_apart.
Example C30_moved_ex : moves 5 (-3) (str "%12") (str "%9") /\ forall n, has_number (str "%12") n -> (5 <= n)%N -> (0 <= Z.of_N n + -3)%Z.
Proof. exact down10. Qed.
(** but a moved name can meet one that stays *)
Theorem C30_down_refuted : exists e s uri src d p edits, plain_document src /\ visits_all (e_ord e) /\ opened e s uri src d /\ p <= length src /\
  rename e s uri (lsp_position src p) (str "-1") = Val (Reply edits) /\
  (exists a, In a edits /\ te_text a = str "%4") /\
  exists o, In o (recorded (pr_stmts (pr_of src)) (pr_tokens (pr_of src))) /\ o_name o = str "%4" /\
    forall a, In a edits -> te_range a <> lsp_range src (o_span o).
Proof. exact shift_down_meets. Qed.
Print Assumptions C30_down_refuted.

(** C32: a request crashes only by an empty name, or a debug build by 64 bit overflow *)
Theorem C32_only_these_panics : forall e s uri src d pos new, plain_document src -> visits_all (e_ord e) -> opened e s uri src d ->
  rename e s uri pos new = Panic ->
  (exists k, without_sigil k new []) \/
  (e_pf e = Debug /\ exists pr z, parse_from_str (e_u e) src = Val pr /\ asks_shift new z /\
    (~ fits_i64 z \/ exists x n, In x (recorded (pr_stmts pr) (pr_tokens pr)) /\ has_number (o_name x) n /\ ~ fits_i64 (Z.of_N n + z))).
Proof. exact rename_panics. Qed.
Print Assumptions C32_only_these_panics.
Theorem C32_empty_refuted : exists e s uri src d p, plain_document src /\ visits_all (e_ord e) /\ opened e s uri src d /\ p <= length src /\
  rename e s uri (lsp_position src p) [] = Panic /\ rename e s uri (lsp_position src p) (str "%") = Panic.
Proof. exact empty_name_panics. Qed.
Print Assumptions C32_empty_refuted.
Theorem C32_overflow_refuted : exists e s uri src d p, plain_document src /\ visits_all (e_ord e) /\ opened e s uri src d /\ p <= length src /\
  rename e s uri (lsp_position src p) (str "+9223372036854775807") = Panic /\ rename e s uri (lsp_position src p) (str "--9223372036854775808") = Panic.
Proof. exact overflow_panics. Qed.
Print Assumptions C32_overflow_refuted.
