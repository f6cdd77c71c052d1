(** Documents for the examples of PropertiesHelp.v. *)
From Verif Require Import Text Chumsky Tokenizer Parser Rope Numbers Index Diag SpecParse SpecFault SpecExact SpecViable SpecHelp PViableDoc ExamplesIndex ExamplesFault.

Definition say80 (src : text) : text := parser_error_message (fun l => l) (simple_map token_display (err66 src)).
(** a declaration with something behind it *)
Definition tail80 : text := lines66 [str "declare void @f() 5"].
(** a parameter instead of the number *)
Definition type80 : text := lines66 [str "declare void @f()"; str "declare void @g(int8 5) # no name"; str "foo"].
Lemma list_witness : exists u src a t w e tk sp, marked u src a t w e /\ viable (a ++ [(tk, sp)]) /\ e_reason e = Unexpected /\ ~ In (Some tk) (e_expected e) /\
  parser_error_message (fun l => l) (simple_map token_display e) = str "Unexpected token in input, expected )".
Proof.
  exists u0, bad66, (before66 10 bad66), (at66 10 bad66), (behind66 10 bad66), (err66 bad66), (TType (str "int8")), (mkSpan 34 38). split; [apply bad_marked|].
  split; [|split; [vm_compute; reflexivity|split; [vm_compute; intuition discriminate|vm_compute; reflexivity]]].
  replace (before66 10 bad66 ++ [(TType (str "int8"), mkSpan 34 38)]) with (before66 11 type80) by (vm_compute; reflexivity).
  apply (marked_viable u0 type80 _ (at66 11 type80) (behind66 11 type80) (err66 type80)). apply marked66; vm_compute; (reflexivity || exact I).
Qed.
Lemma tail_marked : marked u0 tail80 (before66 5 tail80) (at66 5 tail80) (behind66 5 tail80) (err66 tail80).
Proof. apply marked66; vm_compute; (reflexivity || exact I). Qed.
Lemma type_marked : marked u0 type80 (before66 11 type80) (at66 11 type80) (behind66 11 type80) (err66 type80).
Proof. apply marked66; vm_compute; (reflexivity || exact I). Qed.
