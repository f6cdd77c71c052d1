(** Documents for the examples of PropertiesDiag.v. *)
From Verif Require Import Text Rope Chumsky Tokenizer Parser Numbers Index SemTok Diag Rename Cfg Backtrace Server SpecText SpecIndex SpecDiag ExamplesIndex.

(** an undefined variable and a variable of another function, two definitions
    of a function, a branch without target, junk *)
Definition src2 : text := str "define void @g(int1 %x) {
a:
  int1 %y = add %x, %z
  br
}
oops
define void @g() {
  int1 %z = add @v, !7
  br a
}".
Definition d2 : doc := match analyze env0 (str "f") src2 with Val (d, _) => d | Panic => mkDoc [] [] [] index_empty end.
Definition diags2 : list diagnostic := match analyze env0 (str "f") src2 with Val (_, ds) => ds | Panic => [] end.
Definition pr2 : parser_result := pr_of src2.
Definition src4 : text := str "declare".
Definition d4 : doc := match analyze env0 (str "f") src4 with Val (d, _) => d | Panic => mkDoc [] [] [] index_empty end.
Lemma dropped_error : exists e uri src d pr, plain_document src /\ parse_from_str (e_u e) src = Val pr /\
  pr_errors pr <> [] /\ analyze e uri src = Val (d, []).
Proof.
  exists env0, (str "f"), src4, d4, (pr_of src4).
  split; [split; [|split]; vm_compute; reflexivity|]. split; [vm_compute; reflexivity|]. split; [vm_compute; discriminate|vm_compute; reflexivity].
Qed.
