(** A document for the examples. *)
From Verif Require Import Text Rope Chumsky Tokenizer Parser Numbers Index SemTok Diag Rename Cfg Backtrace Server.

(** The document of the examples: two functions with equal local names, a
    debug annotation, an undefined name and a syntax error. *)
Definition src1 : text := str "@v = 1
declare void @f(int1 %p) = 0x1f !d1
oops %x
define void @g(int1 %x) {
a:
  int1 %y = add %x, @v
  br a
}
define void @h() {
a:
  ptr %x = call @f(@w) !d1
  br a
}
!d1 = 'foo.cpp:7'".
(** (with double quotes around the value) *)
Definition quoted (t : text) : text := map (fun c => if (c =? ch "'")%N then DQUOTE else c) t.
Definition doc1 := quoted src1.
Definition u0 : uclass := Build_uclass (fun _ => false) (fun _ => false) (fun _ => false).
Definition pr_of (src : text) : parser_result := match parse_from_str u0 src with Val pr => pr | Panic => mkPR [] [] [] end.
Definition ix_of (src : text) : hir_index :=
  match create_index src (pr_tokens (pr_of src)) (pr_stmts (pr_of src)) with Val ix => ix | Panic => index_empty end.
Definition pr1 : parser_result := pr_of doc1.
Definition ix1 : hir_index := ix_of doc1.
Definition env0 : env := mkEnv u0 Debug (fun m => m) (fun _ => None) (fun _ => []) (fun _ => None) (fun _ => None) (fun l => l).
