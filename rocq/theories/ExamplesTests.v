(** The unit tests of the repository, replayed on the model.  (They say nothing
    about other inputs: they only show that the model agrees with the code where
    the code is known to have been run.) *)
From Verif Require Import Text Rope Chumsky Tokenizer Parser Numbers Index Rename Backtrace ExamplesIndex.

Definition toks_only (x : string) : option (list token) :=
  match tokenize u0 (str x) with Val (Some l, []) => Some (map fst l) | _ => None end.
Definition toks_of (x : text) : option (list token) :=
  match tokenize u0 x with Val (Some l, []) => Some (map fst l) | _ => None end.

(** src/hir_tokenizer.rs:150-300 *)
Example test_tokenizer :
  toks_of [] = Some [] /\
  toks_of (str "123") = Some [TNum (str "123")] /\
  toks_of (str "0xDead0123beef") = Some [THexNum (str "Dead0123beef")] /\
  toks_of (str """abc""") = Some [TStr (str "abc")] /\
  toks_of (str """""") = Some [TStr []] /\
  toks_of (str "%abc::def_foo") = Some [TLocalName (str "%abc::def_foo")] /\
  toks_of (str "%") = Some [TLocalName (str "%")] /\
  toks_of (str "

") = Some [TNewline; TNewline] /\
  toks_of ([13%N; 10%N; 13%N; 10%N]) = Some [TNewline; TNewline] /\
  toks_of (str "@abc::def_foo") = Some [TGlobalName (str "@abc::def_foo")] /\
  toks_of (str "!123") = Some [TDebugRef (str "!123")] /\
  toks_of (str "!addr_2") = Some [TDebugRef (str "!addr_2")] /\
  toks_of (str "void") = Some [TType (str "void")] /\
  toks_of (str "ptr") = Some [TType (str "ptr")] /\
  toks_of (str "ptr234") = Some [TIdent (str "ptr234")] /\
  toks_of (str "x") = Some [TIdent (str "x")] /\
  toks_of (str "my_lbl:") = Some [TIdent (str "my_lbl"); TPunct (ch ":")] /\
  toks_of (str "my_lbl::") = Some [TIdent (str "my_lbl"); TPunct (ch ":"); TPunct (ch ":")] /\
  toks_of (str "exported") = Some [TFuncModifier (str "exported")] /\
  toks_of (str "async") = Some [TFuncModifier (str "async")] /\
  toks_of (str "memberfunc") = Some [TFuncModifier (str "memberfunc")] /\
  toks_of (str "declare") = Some [TDeclare] /\
  toks_of (str "define") = Some [TDefine] /\
  toks_of (str ":") = Some [TPunct (ch ":")] /\
  toks_of (str "# comment
") = Some [TComment; TNewline] /\
  toks_of (str "# comment") = Some [TComment] /\
  toks_of (str "declare void @foo(ptr %1) # comment") = Some [TDeclare; TType (str "void"); TGlobalName (str "@foo"); TPunct (ch "("); TType (str "ptr"); TLocalName (str "%1"); TPunct (ch ")"); TComment].
Proof. repeat split; vm_compute; reflexivity. Qed.

(** src/hir_parser.rs:465-776 *)
Definition clean (x : text) : option (list statement) := match parse_from_str u0 x with Val (mkPR _ ss []) => Some ss | _ => None end.
Example test_parse_globals : option_map (map (fun x => match x with SGlobalVar n _ => Some (fst n) | _ => None end)) (clean (str "@var1 = [0,0,4,0]")) = Some [Some (str "@var1")].
Proof. vm_compute. reflexivity. Qed.
Definition sig_names (g : func_sig) := (map fst (fs_modifiers g), fst (fs_ret g), fst (fs_name g), map (fun a => (fst (fa_type a), fst (fa_name a))) (fs_args g)).
Definition decl_names (x : statement) := match x with SFuncDecl g a d => Some (sig_names g, option_map fst a, option_map fst d) | _ => None end.
Example test_parse_funcdecl :
  option_map (map decl_names) (clean (str "declare exported int64 @_2_test()")) = Some [Some (([str "exported"], str "int64", str "@_2_test", []), None, None)] /\
  option_map (map decl_names) (clean (str "declare void @foo::bar(int1 %, data128 %baz) = 0x123 !proxy_12")) =
    Some [Some (([], str "void", str "@foo::bar", [(str "int1", str "%"); (str "data128", str "%baz")]), Some (str "123"), Some (str "!proxy_12"))].
Proof. split; vm_compute; reflexivity. Qed.
Example test_parse_funcdef :
  option_map (map (fun x => match x with SFuncDef _ g b => Some (sig_names g, fb_open b, fb_close b, map (fun k => option_map fst (bb_label k)) (fb_blocks b)) | _ => None end))
    (clean (str "
    define void @foo::bar(ptr %arg1_2, data128 %baz) {
        some instruction
    body_0:
        int32 %v1 = load int32 ptr %arg1_2 !161  # generateBinaryOperatorFcf
        # comment on separate line
        br int1 %v1 doneIsNull_1, elseIsNull_2
    doneIsNull_1:
        # empty block; not actually valid but accepted
    elseIsNull_2:
        ret
    }")) =
  Some [Some (([], str "void", str "@foo::bar", [(str "ptr", str "%arg1_2"); (str "data128", str "%baz")]), mkSpan 54 55, mkSpan 359 360,
    [None; Some (str "body_0"); Some (str "doneIsNull_1"); Some (str "elseIsNull_2")])].
Proof. vm_compute. reflexivity. Qed.
Example test_parse_basicblock_refs :
  option_map (map (fun x => match x with SFuncDef _ _ b => map (fun k => map (fun i => (fst (i_instr i), i_refs i)) (bb_instrs k)) (fb_blocks b) | _ => [] end))
    (clean (str "
    define void @foo::bar(ptr %arg1_2, data128 %baz) {
    test_0:
        br next_1
        br next_1                         !1
        br int1 %v33, loop_2, loopDone_3  !2
        int64 %v10 = phi [body_0, int64 0], [loop_3, int64 %v15]
        int32 %v17 = saddbr int32 %v9, int32 %v11, cont=add_cont_3, overflow=overflow_4    !30
        switch int32 %v10, default=unreachable_5, int32 0 label=bb_0, int32 1 label=bb_1, int32 2 label=bb_2
    }")) =
  Some [[[
    (str "br", [(str "next_1", mkSpan 79 85)]);
    (str "br", [(str "next_1", mkSpan 97 103)]);
    (str "br", [(str "loop_2", mkSpan 153 159); (str "loopDone_3", mkSpan 161 171)]);
    (str "phi", [(str "body_0", mkSpan 202 208); (str "loop_3", mkSpan 221 227)]);
    (str "saddbr", [(str "add_cont_3", mkSpan 297 307); (str "overflow_4", mkSpan 318 328)]);
    (str "switch", [(str "unreachable_5", mkSpan 371 384); (str "bb_0", mkSpan 400 404); (str "bb_1", mkSpan 420 424); (str "bb_2", mkSpan 440 444)])]]].
Proof. vm_compute. reflexivity. Qed.
Example test_parse_func_dependencies :
  option_map (map (fun x => match x with SFuncDeps a l => Some (fst a, map fst l) | _ => None end)) (clean (str "@foo depends on @bar, @baz")) = Some [Some (str "@foo", [str "@bar"; str "@baz"])].
Proof. vm_compute. reflexivity. Qed.
Example test_parse_dbgannotation :
  option_map (map (fun x => match x with SDbgAnnotation n _ => Some (fst n) | _ => None end)) (clean (str "!123 = {}")) = Some [Some (str "!123")].
Proof. vm_compute. reflexivity. Qed.
Example test_recovers_multistmt :
  option_map (map (fun x => match x with SGlobalVar n _ => (Some (fst n), None) | y => (None, decl_names y) end)) (clean (str "@1 = [12]
    declare void @foo()")) =
  Some [(Some (str "@1"), None); (None, Some (([], str "void", str "@foo", []), None, None))].
Proof. vm_compute. reflexivity. Qed.
Example test_recovers_from_bad_line :
  match parse_from_str u0 (str "@1 = [12]
    broken line
    @bar = [32]
    ") with
  | Val pr => Some (length (pr_errors pr), map (fun x => match x with SGlobalVar n _ => Some (fst n) | _ => None end) (pr_stmts pr))
  | Panic => None
  end = Some (1, [Some (str "@1"); Some (str "@bar")]).
Proof. vm_compute. reflexivity. Qed.
(** the example of line 768 *)
Definition fcf_example : text := str "# Hyper IR for 1_fcf

declare exported void @_1_add_1(ptr %stringAllocator_0, ptr %threadState_1, ptr %arg1_2, ptr %null1_3, ptr %arg2_4, ptr %null2_5, ptr %res_6, ptr %resNull_7, ptr %collate_8)
declare noreturn void @hyper::RuntimeException::throwOverflow() = 0x5605aa6c0720 !f1

define exported void @_1_add_1(ptr %stringAllocator_0, ptr %threadState_1, ptr %arg1_2, ptr %null1_3, ptr %arg2_4, ptr %null2_5, ptr %res_6, ptr %resNull_7, ptr %collate_8) {
body_0:
  int32 %v9 = load int32 ptr %arg1_2                                              !161
  int1 %v10 = load int1 ptr %null1_3                                              !177
  int32 %v11 = load int32 ptr %arg2_4                                             !193
  int1 %v12 = load int1 ptr %null2_5                                              !209
  int1 %v13 = bitor int1 %v10, int1 %v12                                          !233
  br int1 %v13, doneIsNull_1, elseIsNull_2                                        !267
elseIsNull_2:
  int32 %v17 = saddbr int32 %v9, int32 %v11, cont=add_cont_3, overflow=overflow_4    !305
add_cont_3:
  br doneIsNull_1                                                                 !328
doneIsNull_1:
  int32 %v19 = phi [body_0, int32 0], [add_cont_3, int32 %v17]                    !339
  store int32 ptr %res_6, int32 %v19                                              !367
  store int1 ptr %resNull_7, int1 %v13                                            !387
  ret                                                                             !407
overflow_4:
  call @hyper::RuntimeException::throwOverflow()                                  !286
  unreachable                                                                     !298
}


!f1 = ""./hyper/infra/util/RuntimeException.cpp:476""


!161 = {""backtrace"": [[""values::PtrBase::loadImpl"", ""./hyper/codegen/TypedValue.cpp:925""], ["""", ""././hyper/codegen/TypedValue.hpp:0""]]}
!177 = {""backtrace"": [[""values::PtrBase::loadImpl"", ""./hyper/codegen/TypedValue.cpp:925""], ["""", ""././hyper/codegen/TypedValue.hpp:1615""]]}
!193 = {""backtrace"": [[""values::PtrBase::loadImpl"", ""./hyper/codegen/TypedValue.cpp:925""], ["""", ""././hyper/codegen/TypedValue.hpp:1444""]]}
!209 = {""backtrace"": [[""values::PtrBase::loadImpl"", ""./hyper/codegen/TypedValue.cpp:925""], ["""", ""././hyper/codegen/TypedValue.hpp:1615""]]}
!233 = {""backtrace"": [[""values::UInt1::lor"", ""./hyper/codegen/TypedValue.cpp:84""], [""generateHideNull"", ""./hyper/cts/codegen/type/FunctionTranslatorImplUtils.cpp:9""], [""std::__1::unique_ptr<hyper::codegen::FunctionTranslator, std::__1::default_delete<hyper::codegen::FunctionTranslator>> hyper::codegen::makeStatelessFunctionTranslator<std::__1::unique_ptr<hyper::codegen::FunctionTranslator, std::__1::default_delete<hyper::codegen::FunctionTranslator>> hyper::codegen::makeStatelessHideNullFunctionTranslator<hyper::codegen::"", ""./external/clang_linux/include/c++/v1/__functional/function.h:468""], [""std::__1::__function::__func<hyper::generateBinaryOperatorFcf"", ""./external/clang_linux/include/c++/v1/__functional/function.h:468""], ["""", ""./external/clang_linux/include/c++/v1/__functional/function.h:468""]]}
!267 = {""backtrace"": [[""branchIf"", ""./hyper/codegen/If.cpp:15""], [""generateHideNull"", ""././hyper/codegen/If.hpp:127""], [""std::__1::unique_ptr<hyper::codegen::FunctionTranslator, std::__1::default_delete<hyper::codegen::FunctionTranslator>> hyper::codegen::makeStatelessFunctionTranslator<std::__1::unique_ptr<hyper::codegen::FunctionTranslator, std::__1::default_delete<hyper::codegen::FunctionTranslator>> hyper::codegen::makeStatelessHideNullFunctionTranslator<hyper::codegen::"", ""./external/clang_linux/include/c++/v1/__functional/function.h:468""], [""std::__1::__function::__func<hyper::generateBinaryOperatorFcf"", ""./external/clang_linux/include/c++/v1/__functional/function.h:468""], ["""", ""./external/clang_linux/include/c++/v1/__functional/function.h:468""]]}
!286 = {""backtrace"": [[""CodeGen::callFunc"", ""./hyper/codegen/CodeGen.cpp:0""], [""FunctionHelper::getOverflowBlock"", ""./hyper/codegen/FunctionHelper.cpp:283""], [""values::IntValueBase<hyper::codegen::values::Int32, int>::addTrapOnOverflow"", ""./hyper/codegen/TypedValue.cpp:239""], [""std::__1::__function::__func<std::__1::unique_ptr<hyper::codegen::FunctionTranslator, std::__1::default_delete<hyper::codegen::FunctionTranslator>> hyper::codegen::makeStatelessHideNullFunctionTranslator<hyper::codegen::"", ""./external/clang_linux/include/c++/v1/__functional/function.h:356""], [""std::__1::__function::__func<hyper::codegen::generateHideNull"", ""./external/clang_linux/include/c++/v1/__functional/function.h:510""], [""generateHideNull"", ""./external/clang_linux/include/c++/v1/optional:365""], [""std::__1::unique_ptr<hyper::codegen::FunctionTranslator, std::__1::default_delete<hyper::codegen::FunctionTranslator>> hyper::codegen::makeStatelessFunctionTranslator<std::__1::unique_ptr<hyper::codegen::FunctionTranslator, std::__1::default_delete<hyper::codegen::FunctionTranslator>> hyper::codegen::makeStatelessHideNullFunctionTranslator<hyper::codegen::"", ""./external/clang_linux/include/c++/v1/__functional/function.h:468""], [""std::__1::__function::__func<hyper::generateBinaryOperatorFcf"", ""./external/clang_linux/include/c++/v1/__functional/function.h:468""], ["""", ""./external/clang_linux/include/c++/v1/__functional/function.h:468""]]}
!298 = {""backtrace"": [[""FunctionHelper::getOverflowBlock"", ""./hyper/codegen/FunctionHelper.cpp:284""], [""values::IntValueBase<hyper::codegen::values::Int32, int>::addTrapOnOverflow"", ""./hyper/codegen/TypedValue.cpp:239""], [""std::__1::__function::__func<std::__1::unique_ptr<hyper::codegen::FunctionTranslator, std::__1::default_delete<hyper::codegen::FunctionTranslator>> hyper::codegen::makeStatelessHideNullFunctionTranslator<hyper::codegen::"", ""./external/clang_linux/include/c++/v1/__functional/function.h:356""], [""std::__1::__function::__func<hyper::codegen::generateHideNull"", ""./external/clang_linux/include/c++/v1/__functional/function.h:510""], [""generateHideNull"", ""./external/clang_linux/include/c++/v1/optional:365""], [""std::__1::unique_ptr<hyper::codegen::FunctionTranslator, std::__1::default_delete<hyper::codegen::FunctionTranslator>> hyper::codegen::makeStatelessFunctionTranslator<std::__1::unique_ptr<hyper::codegen::FunctionTranslator, std::__1::default_delete<hyper::codegen::FunctionTranslator>> hyper::codegen::makeStatelessHideNullFunctionTranslator<hyper::codegen::"", ""./external/clang_linux/include/c++/v1/__functional/function.h:468""], [""std::__1::__function::__func<hyper::generateBinaryOperatorFcf"", ""./external/clang_linux/include/c++/v1/__functional/function.h:468""], ["""", ""./external/clang_linux/include/c++/v1/__functional/function.h:468""]]}
!305 = {""backtrace"": [[""values::IntValueBase<hyper::codegen::values::Int32, int>::addTrapOnOverflow"", ""./hyper/codegen/TypedValue.cpp:239""], [""std::__1::__function::__func<std::__1::unique_ptr<hyper::codegen::FunctionTranslator, std::__1::default_delete<hyper::codegen::FunctionTranslator>> hyper::codegen::makeStatelessHideNullFunctionTranslator<hyper::codegen::"", ""./external/clang_linux/include/c++/v1/__functional/function.h:356""], [""std::__1::__function::__func<hyper::codegen::generateHideNull"", ""./external/clang_linux/include/c++/v1/__functional/function.h:510""], [""generateHideNull"", ""./external/clang_linux/include/c++/v1/optional:365""], [""std::__1::unique_ptr<hyper::codegen::FunctionTranslator, std::__1::default_delete<hyper::codegen::FunctionTranslator>> hyper::codegen::makeStatelessFunctionTranslator<std::__1::unique_ptr<hyper::codegen::FunctionTranslator, std::__1::default_delete<hyper::codegen::FunctionTranslator>> hyper::codegen::makeStatelessHideNullFunctionTranslator<hyper::codegen::"", ""./external/clang_linux/include/c++/v1/__functional/function.h:468""], [""std::__1::__function::__func<hyper::generateBinaryOperatorFcf"", ""./external/clang_linux/include/c++/v1/__functional/function.h:468""], ["""", ""./external/clang_linux/include/c++/v1/__functional/function.h:468""]]}
!328 = {""backtrace"": [[""generateHideNull"", ""././hyper/codegen/If.hpp:203""], [""std::__1::unique_ptr<hyper::codegen::FunctionTranslator, std::__1::default_delete<hyper::codegen::FunctionTranslator>> hyper::codegen::makeStatelessFunctionTranslator<std::__1::unique_ptr<hyper::codegen::FunctionTranslator, std::__1::default_delete<hyper::codegen::FunctionTranslator>> hyper::codegen::makeStatelessHideNullFunctionTranslator<hyper::codegen::"", ""./external/clang_linux/include/c++/v1/__functional/function.h:468""], [""std::__1::__function::__func<hyper::generateBinaryOperatorFcf"", ""./external/clang_linux/include/c++/v1/__functional/function.h:468""], ["""", ""./external/clang_linux/include/c++/v1/__functional/function.h:468""]]}
!339 = {""backtrace"": [[""CodeGen::createPhiGeneric"", ""./hyper/codegen/CodeGen.cpp:435""], [""SqlValue::buildPHI"", ""./hyper/cts/codegen/SqlValue.cpp:99""], [""PhiBuilder<hyper::codegen::SqlValue>::buildPhi"", ""./external/clang_linux/include/c++/v1/new:276""], [""generateHideNull"", ""././hyper/codegen/If.hpp:0""], [""std::__1::unique_ptr<hyper::codegen::FunctionTranslator, std::__1::default_delete<hyper::codegen::FunctionTranslator>> hyper::codegen::makeStatelessFunctionTranslator<std::__1::unique_ptr<hyper::codegen::FunctionTranslator, std::__1::default_delete<hyper::codegen::FunctionTranslator>> hyper::codegen::makeStatelessHideNullFunctionTranslator<hyper::codegen::"", ""./external/clang_linux/include/c++/v1/__functional/function.h:468""], [""std::__1::__function::__func<hyper::generateBinaryOperatorFcf"", ""./external/clang_linux/include/c++/v1/__functional/function.h:468""], ["""", ""./external/clang_linux/include/c++/v1/__functional/function.h:468""]]}
!367 = {""backtrace"": [[""values::PtrBase::storeImpl"", ""./hyper/codegen/TypedValue.cpp:0""], ["""", ""././hyper/codegen/TypedValue.hpp:0""]]}
!387 = {""backtrace"": [[""values::PtrBase::storeImpl"", ""./hyper/codegen/TypedValue.cpp:0""], ["""", ""././hyper/codegen/TypedValue.hpp:0""]]}
!407 = {""backtrace"": [["""", ""./hyper/rts/fcf/compilefcf.cpp:0""]]}
".
Example parses_fcf_example : option_map (@length statement) (clean fcf_example) = Some 18.
Proof. vm_compute. reflexivity. Qed.

(** src/hir_index.rs:360-542 (maps in the order of the model) *)
Definition index_doc : text := str "
        @a = ""test""
        declare int32 @foo::bar(ptr %, int32 %baz) = 0x1234 !f1
        declare int32 @_test1(int32 %foo, data128 %baz)

        define void @_test1(int32 %foo, data128 %baz) {
          some instruction
          body_0:
            int32 %res_1 = call @foo::bar(ptr @a, int32 %foo)
            br switch_1
          switch_1:
            switch int32 %res_1, default=done_1, int32 0 label=done_1
          done_1:
            ret int32 %res_1 !21 # some comment
        }

        !f1 = ""./test.cpp:12""

        !21 = {""some"": ""data""}".
Definition index_test : hir_index := ix_of index_doc.
Definition same_entries {X} (a b : amap X) : Prop := length a = length b /\ forall n x, In (n, x) b -> alookup n a = Some x.
Definition ud (a b : list span) (e : list external_def) (c : list span) : use_def_list := mkUD a b e c.
Example test_index : clean index_doc <> None /\
  same_entries (global_vars index_test) [(str "@a", ud [] [mkSpan 9 11] [] [mkSpan 289 291])] /\
  same_entries (functions index_test) [
    (str "@foo::bar", ud [mkSpan 43 52] [] [mkExt (str "./test.cpp") 12] [mkSpan 275 284]);
    (str "@_test1", ud [mkSpan 107 114] [mkSpan 162 169] [] [])] /\
  same_entries (dgb_annotations index_test) [
    (str "!21", ud [] [mkSpan 535 538] [] [mkSpan 466 469]);
    (str "!f1", ud [] [mkSpan 504 507] [] [mkSpan 81 84])] /\
  match function_bodies index_test with
  | [b] => fb_name b = (str "@_test1", mkSpan 162 169) /\ complete_range b = mkSpan 150 494 /\
    same_entries (labels b) [
      (str "body_0", ud [] [mkSpan 235 241] [] []);
      (str "switch_1", ud [] [mkSpan 339 347] [] [mkSpan 320 328]);
      (str "done_1", ud [] [mkSpan 429 435] [] [mkSpan 390 396; mkSpan 412 418])] /\
    same_entries (local_vars b) [
      (str "%foo", ud [] [mkSpan 176 180] [] [mkSpan 299 303]);
      (str "%baz", ud [] [mkSpan 190 194] [] []);
      (str "%res_1", ud [] [mkSpan 261 267] [] [mkSpan 374 380; mkSpan 459 465])] /\
    length (basic_blocks b) = 4 /\
    same_entries (incoming b) [
      (str "switch_1", [(str "body_0", mkSpan 235 241)]);
      (str "done_1", [(str "switch_1", mkSpan 339 347)])]
  | _ => False
  end.
Proof.
  assert (E : forall X (a b : amap X), length a = length b -> Forall (fun x => alookup (fst x) a = Some (snd x)) b -> same_entries a b).
  { intros X a b H1 H2. split; [exact H1|]. intros n x H. rewrite Forall_forall in H2. apply (H2 (n, x) H). }
  split; [vm_compute; discriminate|].
  split; [apply E; [vm_compute; reflexivity|repeat constructor]|].
  split; [apply E; [vm_compute; reflexivity|repeat constructor]|].
  split; [apply E; [vm_compute; reflexivity|repeat constructor]|].
  destruct (function_bodies index_test) as [|b [|]] eqn:Eb; [vm_compute in Eb; discriminate| |vm_compute in Eb; discriminate].
  vm_compute in Eb. injection Eb as <-.
  split; [reflexivity|]. split; [reflexivity|].
  split; [apply E; [vm_compute; reflexivity|repeat constructor]|].
  split; [apply E; [vm_compute; reflexivity|repeat constructor]|].
  split; [reflexivity|]. apply E; [vm_compute; reflexivity|repeat constructor].
Qed.

(** src/backtrace.rs:225-310 *)
Definition no_files : filesystem := fun _ => Some false.
Definition test_frame (j : json) : option (text * option text * N) :=
  match parse_backtrace_from_json no_files [] (JObj [(str "backtrace", JArr [j])]) with Val (Some [f]) => Some (f_symbol f, f_filepath f, f_line f) | _ => None end.
Example parse_frame_with_filepath : test_frame (JArr [JStr (str "myFunc"); JStr (str "./my/File.cpp:11")]) = Some (str "myFunc", Some (str "./my/File.cpp"), 11%N).
Proof. vm_compute. reflexivity. Qed.
Example parse_frame_without_filepath : test_frame (JArr [JStr (str "myFunc")]) = Some (str "myFunc", None, 0%N).
Proof. vm_compute. reflexivity. Qed.
Example parse_frame_without_symbol :
  test_frame (JArr [JStr []; JStr (str "./my/File.cpp:11")]) = Some (str "File.cpp:11", Some (str "./my/File.cpp"), 11%N) /\
  test_frame (JArr [JStr []; JStr (str ".\my\File.cpp:11")]) = Some (str "File.cpp:11", Some (str ".\my\File.cpp"), 11%N) /\
  test_frame (JArr [JNull; JStr (str "./my/File.cpp:11")]) = Some (str "File.cpp:11", Some (str "./my/File.cpp"), 11%N) /\
  test_frame (JArr [JInt 123; JStr (str "./my/File.cpp:11")]) = Some (str "File.cpp:11", Some (str "./my/File.cpp"), 11%N).
Proof. repeat split; vm_compute; reflexivity. Qed.
Example parse_invaid_frame :
  test_frame (JArr []) = Some (str "<invalid>", None, 0%N) /\ test_frame (JArr [JNull; JNull]) = Some (str "<invalid>", None, 0%N) /\
  test_frame (JArr [JStr []]) = Some (str "<invalid>", None, 0%N).
Proof. repeat split; vm_compute; reflexivity. Qed.
Example parse_multi_frame_backtrace :
  match parse_backtrace_from_json no_files [] (JObj [(str "backtrace", JArr [JArr [JStr (str "myFunc"); JStr (str "./my/File.cpp:11")]; JArr [JStr (str "yourFunc"); JStr (str "./your/File.cpp:12")]])]) with
  | Val (Some l) => map (fun f => (f_symbol f, f_filepath f, f_line f)) l
  | _ => []
  end = [(str "myFunc", Some (str "./my/File.cpp"), 11%N); (str "yourFunc", Some (str "./your/File.cpp"), 12%N)].
Proof. vm_compute. reflexivity. Qed.

(** src/rename.rs:59-78 *)
Example test_extract_number_from_identifier :
  map (fun x => extract_number_from_identifier u0 (str x)) ["%test_1"; "%test991"; "%v30"; "%v30a12"; "%v30a"; "!123"; "123"; "%test"]%string =
  map Val [Some (str "%test_", 1%Z); Some (str "%test", 991%Z); Some (str "%v", 30%Z); Some (str "%v30a", 12%Z); None; Some (str "!", 123%Z); Some ([], 123%Z); None].
Proof. vm_compute. reflexivity. Qed.
