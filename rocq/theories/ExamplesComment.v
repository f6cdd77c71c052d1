(** A document with lines that are commented out. *)
From Verif Require Import Text Rope Chumsky Tokenizer Parser Numbers Index SemTok Diag Rename Cfg Backtrace Server SpecText SpecLex SpecParse SpecIndex SpecDiag SpecBacktrace SpecCfg SpecView SpecLines SpecComment
  ExamplesIndex ExamplesCfg ExamplesView ExamplesSum.

Definition before76 : text := str "@g = 1
declare void @h(int8 %p) = 0x1f !d1
define void @f(int8 %x) {
a:
  call @h, %x
".
Definition lines76 : text := str "  store %y, %x

b:
".
Definition comment76 : text := str "  # store %y, %x

# b:
".
Definition after76 : text := quoted (str "  call @g, %z
  call @f, %x
}
@g = 2
!d1 = 'foo.cpp:7'
").
Definition toks76 : list stoken := match tokenize u0 before76 with Val (Some t, _) => t | _ => [] end.
Lemma full76 : full_lines before76.
Proof. right. exists (removelast before76). vm_compute. reflexivity. Qed.
Lemma lexed76 : tokenize u0 before76 = Val (Some toks76, []).
Proof. vm_compute. reflexivity. Qed.
Lemma place76 : place_after (without_comments toks76) = LineStart.
Proof. vm_compute. reflexivity. Qed.
Lemma commented76 : commented_out lines76 comment76.
Proof.
  exists [str "  store %y, %x" ++ [LF]; [LF]; str "b:" ++ [LF]], [str "  # store %y, %x" ++ [LF]; [LF]; str "# b:" ++ [LF]].
  split; [vm_compute; reflexivity|]. split; [vm_compute; reflexivity|]. constructor; [|constructor; [|constructor; [|constructor]]].
  - apply (cl_code (str "  ") (str "store %y, %x")); [repeat constructor|vm_compute; intuition discriminate].
  - apply (cl_blank [] [LF]); [constructor|left; reflexivity].
  - apply (cl_code [] (str "b:")); [constructor|vm_compute; intuition discriminate].
Qed.
Lemma parsed76 : parse_from_str u0 (before76 ++ after76) = Val (mkPR (pr_tokens (pr_of (before76 ++ after76))) (pr_stmts (pr_of (before76 ++ after76))) []) /\ pr_stmts (pr_of (before76 ++ after76)) <> [].
Proof. split; [vm_compute; reflexivity|]. vm_compute. discriminate. Qed.
Lemma plain76 : plain_document (before76 ++ after76) /\ plain_document (before76 ++ comment76 ++ after76).
Proof. split; (split; [|split]; vm_compute; reflexivity). Qed.
Lemma elsewhere76 ss : leads_elsewhere env8 (roots (sv (before76 ++ after76))) (str "f") ss.
Proof. intros f d y _ H. cbn in H. injection H as <-. vm_compute. discriminate. Qed.
Lemma opened76 t : analyze env8 (str "f") t <> Panic -> opened env8 (sv t) (str "f") t (doc_of env8 t).
Proof.
  intros H. split; [reflexivity|]. unfold doc_of. destruct (analyze env8 (str "f") t) as [[d l]|]; [|destruct (H eq_refl)]. exists l. reflexivity.
Qed.
Definition ask76 (t : text) (l c : nat) : list location := match goto_definition env8 (sv t) (str "f") (mkPos l c) with Val (Some (_, x)) => x | _ => [] end.
