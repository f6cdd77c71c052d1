(** Two environments that differ in their iteration orders. *)
From Verif Require Import Text Rope Chumsky Tokenizer Parser Numbers Index SemTok Diag Rename Cfg Backtrace Server Dispatch SpecText SpecDiag SpecSeed
  ExamplesIndex.

Definition seed1 : env := mkEnv u0 Debug (fun m => m) (fun _ => Some true) (fun x => url_base x) (fun t => Some t) (fun _ => None) (fun l => l).
Definition seed2 : env := mkEnv u0 Debug (fun m => rev m) (fun _ => Some true) (fun x => url_base x) (fun t => Some t) (fun _ => None) (fun l => rev l).
Lemma seeds : same_apart_from_order seed1 seed2.
Proof.
  repeat (split; [reflexivity|]). split; [intros m; reflexivity|]. split; [intros m; apply Permutation_sym, Permutation_rev|]. split; intros l; [reflexivity|apply Permutation_sym, Permutation_rev].
Qed.
(** two variables, two uses without definition, a syntax error *)
Definition doc77 : text := str "@a = 1
@b = 2
@b 5
define void @f(int8 %1, int8 %2) {
  call @x, %1
  call @y, %2
}
".
Definition notes77 : list note := [NOpen (str "f") doc77 1].
Definition told77 (e : env) : list (nat * text) :=
  match receive e server_init notes77 with Val (_, [p]) => map (fun d => (p_line (r_start (d_range d)), d_message d)) (pub_diags p) | _ => [] end.
Definition answer77 (e : env) (q : request) : option response :=
  match receive e server_init notes77 with Val (s, _) => match handle e s q with Val r => Some r | Panic => None end | Panic => None end.
Definition names77 (e : env) : list text := match answer77 e (QSymbols (str "f")) with Some (RSymbols (Some l)) => map ds_name l | _ => [] end.
Definition edits77 (e : env) : list text := match answer77 e (QRename (str "f") (mkPos 4 12) (str "+1")) with Some (REdits l) => map te_text l | _ => [] end.
Lemma outline_unordered : exists e uri src s ps l x y, visits_all (e_ord e) /\ receive e server_init [NOpen uri src 1] = Val (s, ps) /\
  document_symbol e s uri = Some (x :: y :: l) /\ p_line (r_start (ds_range y)) < p_line (r_start (ds_range x)).
Proof.
  exists seed2, (str "f"), doc77. eexists _, _, _, _, _. split; [apply seeds|]. split; [vm_compute; reflexivity|]. split; [vm_compute; reflexivity|]. vm_compute. lia.
Qed.
