(** Documents for the examples of PropertiesCfg.v. *)
From Verif Require Import Text Rope Chumsky Tokenizer Parser Numbers Index SemTok Diag Rename Cfg Backtrace Server SpecText SpecIndex SpecDiag SpecBacktrace SpecCfg ExamplesIndex.

(** a loop over two blocks, an unlabelled first block, a function defined
    twice, an instruction with a backtrace *)
Definition src5 : text := str "define void @g(int1 %x) {
a:
  br b !1
b:
  br int1 %x, a, b
}
define void @h() {
  br a
a:
  br a
}
define void @k() {
  return
}
define void @k() {
  return
}
!1 = {}".
(** the parsed annotation *)
Definition trace5 : json := JObj [(str "backtrace", JArr [JArr [JStr (str "hyper::Translator::consume(x)"); JStr (str "a.cpp:7")]])].
Definition env5 : env := mkEnv u0 Debug (fun m => rev m) (fun _ => None) (fun _ => []) (fun _ => None) (fun _ => Some trace5) (fun l => l).
Definition d5 : doc := match analyze env5 (str "f") src5 with Val (d, _) => d | Panic => mkDoc [] [] [] index_empty end.
Definition s5 : server := mkServer [] false [(str "f", d5)].
Definition hints5 : list inlay_hint := match inlay_hint_handler env5 s5 (str "f") with Val (Some l) => l | _ => [] end.
Definition fs5 := function_defs (doc_stmts d5).
Definition fb5 : function_body := match function_bodies (doc_index d5) with f :: _ => f | [] => mkFB ([], mkSpan 0 0) (mkSpan 0 0) [] [] [] [] end.
Lemma opened5 : plain_document src5 /\ visits_all (e_ord env5) /\ opened env5 s5 (str "f") src5 d5.
Proof.
  split; [split; [|split]; vm_compute; reflexivity|]. split; [intros m; apply Permutation_sym, Permutation_rev|].
  split; [reflexivity|]. exists (match analyze env5 (str "f") src5 with Val (_, ds) => ds | Panic => [] end). vm_compute. reflexivity.
Qed.
(** a symbol whose 48th byte is inside a character *)
Definition trace6 : json := JObj [(str "backtrace", JArr [JArr [JStr (str "Translator::consumeaaaaaaaaaabbbbbbbbbbcccccccc" ++ [233%N; 97%N]); JStr (str "a.cpp:7")]])].
Definition env6 : env := mkEnv u0 Debug (fun m => m) (fun _ => None) (fun _ => []) (fun _ => None) (fun _ => Some trace6) (fun l => l).
Definition d6 : doc := match analyze env6 (str "f") src5 with Val (d, _) => d | Panic => mkDoc [] [] [] index_empty end.
Definition s6 : server := mkServer [] false [(str "f", d6)].
Lemma hint_panic : exists e s uri src d, plain_document src /\ opened e s uri src d /\ can_resolve (roots s) /\ inlay_hint_handler e s uri = Panic.
Proof.
  exists env6, s6, (str "f"), src5, d6. split; [split; [|split]; vm_compute; reflexivity|]. split.
  { split; [reflexivity|]. exists (match analyze env6 (str "f") src5 with Val (_, ds) => ds | Panic => [] end). vm_compute. reflexivity. }
  split; [intros r []|]. vm_compute. reflexivity.
Qed.
(** the branches of an unlabelled block are not in the graph *)
Definition src7 : text := str "define void @h() {
  br a
a:
  return
}".
Definition fb7 : function_body := match function_bodies (ix_of src7) with f :: _ => f | [] => fb5 end.

(** tooltips *)
Definition disp11 : url -> text := fun _ => str "file:///w".
Definition frames11 : list frame :=
  [mkFrame (str "f") (Some (str "b/c.cpp")) 7 (Some (mkUrl (str "file://") [str "w"] true));
   mkFrame (str "g(") (Some (str "d.cpp")) 8 None; mkFrame (str "h") None 0 None].
Definition tooltip_safe11 (frames : list frame) : Prop :=
  Forall (fun f => no_break (f_symbol f) /\ (forall fp, f_filepath f = Some fp -> no_break fp) /\ (forall r, f_resolved f = Some r -> no_break (disp11 r))) frames.
Lemma tooltip11 : tooltip_safe11 frames11 /\ inlay_hint_for_backtrace u0 disp11 (mkPos 1 2) frames11 = Val (mkHint (mkPos 1 2)
    [mkPart (str "f") None (Some (str "`f` @ [c.cpp:7](file:///w#7)")); mkPart (str ", ") None None;
     mkPart (str "Full backtrace") None (Some (str "* `f` @ [c.cpp:7](file:///w#7)" ++ [LF] ++ str "* `g" ++ [65533%N] ++ str "` @ d.cpp:8" ++ [LF] ++ str "* `h`"))]).
Proof.
  split; [|vm_compute; reflexivity].
  assert (forall x : text, existsb (N.eqb LF) x = false -> no_break x) as Hn.
  { intros x Hx Hi. assert (existsb (N.eqb LF) x = true) by (apply existsb_exists; exists LF; split; [exact Hi|apply N.eqb_refl]). congruence. }
  constructor; [|constructor; [|constructor; [|constructor]]]; (split; [apply Hn; vm_compute; reflexivity|]); (split; [intros fp E|intros r E]); try discriminate; apply Hn; cbn in E; try (injection E as <-); vm_compute; reflexivity.
Qed.
Lemma tooltip_break : exists u disp pos fs j f h parts tip a b, parse_frame fs [] j = Val f /\
  inlay_hint_for_backtrace u disp pos [f] = Val h /\ ih_parts h = parts ++ [mkPart (str "Full backtrace") None (Some tip)] /\
  pieces LF tip [a; b].
Proof.
  exists u0, disp11, (mkPos 0 0), (fun _ => None), (JArr [JStr (str "f" ++ [LF] ++ str "g"); JStr (str "x")]), (mkFrame (str "f" ++ [LF] ++ str "g") None 0 None).
  exists (mkHint (mkPos 0 0) [mkPart (str "Full backtrace") None (Some (str "* `f" ++ [LF] ++ str "g`"))]), [], (str "* `f" ++ [LF] ++ str "g`"), (str "* `f"), (str "g`").
  split; [vm_compute; reflexivity|]. split; [vm_compute; reflexivity|]. split; [reflexivity|].
  split; [discriminate|]. split; [vm_compute; reflexivity|]. intros w [<-|[<-|[]]] H; cbn in H; repeat destruct H as [H|H]; try discriminate H; exact H.
Qed.
Lemma tooltip_link : exists u disp pos fs j f h parts, parse_frame fs [] j = Val f /\ f_resolved f = None /\
  inlay_hint_for_backtrace u disp pos [f] = Val h /\
  ih_parts h = parts ++ [mkPart (str "Full backtrace") None (Some (str "* `f` @ [a](x.y):1"))].
Proof.
  exists u0, disp11, (mkPos 0 0), (fun _ => None), (JArr [JStr (str "f"); JStr (str "[a](x.y):1")]), (mkFrame (str "f") (Some (str "[a](x.y)")) 1 None).
  exists (mkHint (mkPos 0 0) [mkPart (str "f") None (Some (str "`f` @ [a](x.y):1")); mkPart (str ", ") None None; mkPart (str "Full backtrace") None (Some (str "* `f` @ [a](x.y):1"))]).
  exists [mkPart (str "f") None (Some (str "`f` @ [a](x.y):1")); mkPart (str ", ") None None].
  split; [vm_compute; reflexivity|]. split; [reflexivity|]. split; [vm_compute; reflexivity|reflexivity].
Qed.
