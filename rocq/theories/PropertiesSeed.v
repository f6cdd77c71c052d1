(** Property theorems C77: hash seeds. *)
From Verif Require Import Text Rope Chumsky Tokenizer Parser Numbers Index SemTok Diag Rename Cfg Backtrace Server Dispatch SpecText SpecDiag SpecRename SpecPatch SpecSeed
  PSeed ExamplesIndex ExamplesSeed.

(** C77: any texts opened and changed, then any request *)
Theorem C77_session : forall e e' s ns q, same_apart_from_order e e' ->
  res_alike (fun x y => Forall2 same_publish (snd x) (snd y) /\ fst x = fst y /\ res_alike same_response (handle e (fst x) q) (handle e' (fst y) q)) (receive e s ns) (receive e' s ns).
Proof. exact session_both. Qed.
Print Assumptions C77_session.
(** C77: any schedule of changes, publishes and graph requests *)
Theorem C77_schedule : forall e e' sh s evs, same_apart_from_order e e' -> opt_alike same_world (wrun e sh (world_init s) evs) (wrun e' sh (world_init s) evs).
Proof. exact world_both. Qed.
Print Assumptions C77_schedule.
(** C77: the order of the edits of a rename does not matter to the client *)
Theorem C77_edits : forall src new l edits edits', replaces src new l edits -> Permutation edits edits' -> patched src edits = patched src edits'.
Proof. exact patched_order. Qed.
Print Assumptions C77_edits.
(** the orders do differ *)
Example C77_ex : same_apart_from_order seed1 seed2 /\
  told77 seed1 = [(2, str "Unexpected token in input, expected =, depends"); (4, str "Use of undefined symbol `@x`"); (5, str "Use of undefined symbol `@y`")] /\
  told77 seed2 = [(2, str "Unexpected token in input, expected depends, ="); (5, str "Use of undefined symbol `@y`"); (4, str "Use of undefined symbol `@x`")] /\
  names77 seed1 = [str "@a"; str "@b"; str "@f"] /\ names77 seed2 = [str "@b"; str "@a"; str "@f"] /\
  edits77 seed1 = [str "%2"; str "%2"; str "%3"; str "%3"] /\ edits77 seed2 = [str "%3"; str "%3"; str "%2"; str "%2"].
Proof. split; [exact seeds|]. vm_compute. repeat split. Qed.
(** hence the order of the outline is not the order of the text *)
Theorem C77_outline_order_refuted : exists e uri src s ps l x y, visits_all (e_ord e) /\ receive e server_init [NOpen uri src 1] = Val (s, ps) /\
  document_symbol e s uri = Some (x :: y :: l) /\ p_line (r_start (ds_range y)) < p_line (r_start (ds_range x)).
Proof. exact outline_unordered. Qed.
Print Assumptions C77_outline_order_refuted.
