(** Documents for the examples of PropertiesLexFault.v. *)
From Verif Require Import Text Rope Chumsky Tokenizer Parser Numbers Index SemTok Diag Rename Cfg Backtrace Server SpecText SpecIndex SpecLex SpecDiag SpecLexFault
  PChumsky PLex PLexSpec PTokens PLexPlaces ExamplesIndex.

(** the runs of a concrete text *)
Fixpoint runs (fuel i : nat) (t : text) : option (list nat) :=
  match fuel with
  | 0 => None
  | S fuel =>
      match gfind u0 (skipn (lead t) t) with
      | Some (k, _, m) => option_map (app (if k =? 0 then [] else [i + lead t])) (runs fuel (i + lead t + (k + m)) (skipn (k + m) (skipn (lead t) t)))
      | None => Some (if forallb is_blank t then [] else [i + lead t])
      end
  end.
Lemma runs_faults fuel : forall i t offs, runs fuel i t = Some offs -> lex_faults u0 i t offs.
Proof.
  induction fuel as [|fuel IH]; intros i t offs H; [discriminate|]. cbn [runs] in H.
  destruct (gfind u0 (skipn (lead t) t)) as [[[k tok] m]|] eqn:E.
  - destruct (runs fuel _ _) as [l|] eqn:R; [|discriminate]. injection H as <-. eapply faults_intro; [exact E|]. apply IH. exact R.
  - assert (Hb : forallb is_blank t = true <-> Forall blank t).
    { rewrite forallb_forall, Forall_forall. split; intros G x Hx; specialize (G x Hx); apply is_blank_spec; exact G. }
    destruct (forallb is_blank t) eqn:B; injection H as <-.
    + apply lf_end. apply Hb. reflexivity.
    + apply faults_last; [exact E|]. intros F. apply Hb in F. congruence.
Qed.

(** two dollars, a carriage return, a string that is not closed, and what follows it on the next line *)
Definition src68 : text := str "declare void @f() $$ x" ++ [LF] ++ str "1" ++ [CR] ++ str "2 ""abc" ++ [LF] ++ str "~".
Definition toks68 : option (list (token * span)) := match tokenize u0 src68 with Val (o, _) => o | Panic => None end.
Definition errs68 : list (simple char) := match tokenize u0 src68 with Val (_, e) => e | Panic => [] end.
Lemma faults68 : lex_faults u0 0 src68 [18; 24; 27; 32].
Proof. apply (runs_faults 30). vm_compute. reflexivity. Qed.
Definition err68 : simple char := hd (mkSimple (mkSpan 0 0) Unexpected [] None) errs68.
Definition d68 : doc := match analyze env0 (str "f") src68 with Val (d, _) => d | Panic => mkDoc [] [] [] index_empty end.
Definition diags68 : list diagnostic := match analyze env0 (str "f") src68 with Val (_, ds) => ds | Panic => [] end.
Lemma plain68 : plain_document src68.
Proof. split; [|split]; vm_compute; reflexivity. Qed.
Lemma nonblank68 : src68 = [] \/ ~ Forall blank src68.
Proof. right. intros H. inversion_clear H as [|? ? [H1|H1] _]; vm_compute in H1; discriminate. Qed.
Lemma ord68 : visits_all (e_ord env0).
Proof. intros m. apply Permutation_refl. Qed.

(** a quote on a line of its own *)
Definition open68 : text := [DQUOTE; LF].
Definition dopen68 : doc := match analyze env0 (str "f") open68 with Val (d, _) => d | Panic => mkDoc [] [] [] index_empty end.
Lemma unclosed_witness : exists e uri src d off offs, plain_document src /\ visits_all (e_ord e) /\ ~ Forall blank src /\
  lex_faults (e_u e) 0 src (off :: offs) /\ analyze e uri src = Val (d, []).
Proof.
  exists env0, (str "f"), open68, dopen68, 0, []. split; [split; [|split]; vm_compute; reflexivity|]. split; [exact ord68|].
  split; [intros H; inversion_clear H as [|? ? [H1|H1] _]; vm_compute in H1; discriminate|].
  split; [apply (runs_faults 9); vm_compute; reflexivity|]. vm_compute. reflexivity.
Qed.
