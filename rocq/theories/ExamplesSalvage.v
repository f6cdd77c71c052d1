(** What is left of documents with errors. *)
From Verif Require Import Text Chumsky Tokenizer Parser SpecParse SpecExact SpecSalvage PSalvage ExamplesIndex.

(** an unfinished declaration, and the targets of an arithmetic branch after
    another mnemonic *)
Definition torn : text := str "declare @z
@q = 4
define void @f() {
  foo !1, cont=a, overflow=b
}
".
(** the same, then a line that cannot be read *)
Definition torn_end : text := torn ++ str "declare @z".
Definition toks_of (t : text) : list stoken := match tokenize u0 t with Val (Some ts, _) => ts | _ => [] end.
Lemma torn_toks : tokenize u0 torn = Val (Some (toks_of torn), []).
Proof. vm_compute. reflexivity. Qed.
Lemma torn_end_toks : tokenize u0 torn_end = Val (Some (toks_of torn_end), []).
Proof. vm_compute. reflexivity. Qed.
Lemma torn_left : exists x d kw sig body, salvage (without_comments (toks_of torn)) (Some [SGlobalVar x d; SFuncDef kw sig body]) 2 /\ fst x = str "@q" /\
  exists b i, fb_blocks body = [b] /\ bb_instrs b = [i] /\ map fst (i_refs i) = [str "a"; str "b"].
Proof.
  do 5 eexists. split; [apply (parse_salvage torn); eexists; split; vm_compute; reflexivity|]. split; [reflexivity|]. do 2 eexists. repeat split.
Qed.
Lemma torn_lost : salvage (without_comments (toks_of torn_end)) None 3.
Proof. apply (parse_salvage torn_end). eexists. split; vm_compute; reflexivity. Qed.
