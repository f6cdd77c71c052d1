(** A document in which one name is a function and a variable at once. *)
From Verif Require Import Text Rope Chumsky Tokenizer Parser Numbers Index SemTok Diag Rename Cfg Backtrace Server SpecText SpecLex SpecParse SpecIndex SpecDiag SpecBacktrace SpecCfg SpecView SpecSum
  ExamplesIndex ExamplesCfg ExamplesView ExamplesSum.

Definition both_ : text := str "@f = 1
declare void @f(int8 %q)
define void @f(int8 %x) {
entry:
  int8 %y = add %x, @f
  br entry
}
".
Lemma open_both : opened env8 (sv both_) (str "f") both_ (doc_of env8 both_).
Proof. split; [reflexivity|]. exists (diags_of both_). vm_compute. reflexivity. Qed.
