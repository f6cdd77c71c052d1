(** A document with branches that cannot be read, and one that is rejected. *)
From Verif Require Import Text Chumsky Tokenizer Parser SpecParse SpecExact PExact.

Definition doc15 : text := str "define void @f() {
  br int1
  br a # wrong in the next block
a:
  addbr int8 1, cont=a
  subbr int8 1, cont=a, overflow=b !1
  phi
b:
  switch 1, default=a, int8 1 label=b
}
".
Definition u15 : uclass := Build_uclass (fun _ => false) (fun _ => false) (fun _ => false).
Definition parsed15 : parser_result := match parse_from_str u15 doc15 with Val pr => pr | Panic => mkPR [] [] [] end.
Definition refs15 : list (list text) :=
  flat_map (fun s => match s with SFuncDef _ _ body => flat_map (fun b => map (fun i => map fst (i_refs i)) (bb_instrs b)) (fb_blocks body) | _ => [] end) (pr_stmts parsed15).
Lemma parsed15_ok : parse_from_str u15 doc15 = Val (mkPR (pr_tokens parsed15) (pr_stmts parsed15) []).
Proof. vm_compute. reflexivity. Qed.
Lemma refs15_ok : refs15 = [[]; [str "a"]; []; [str "a"; str "b"]; []; [str "a"; str "b"]].
Proof. vm_compute. reflexivity. Qed.
Definition doc16 : text := str "define void @f() {
a: ret
}
".
Definition toks16 : list stoken := match tokenize u15 doc16 with Val (Some t, _) => t | _ => [] end.
Lemma rejected16 : tokenize u15 doc16 = Val (Some toks16, []) /\ ~ exists ss, module_at ss (without_comments toks16).
Proof.
  split; [vm_compute; reflexivity|]. apply (parse_rejects doc16). do 2 eexists. split; [vm_compute; reflexivity|]. discriminate.
Qed.
