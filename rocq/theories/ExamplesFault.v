(** Documents for the examples of PropertiesFault.v. *)
From Verif Require Import Text Chumsky Tokenizer Parser Rope Numbers Index Diag SpecParse SpecFault ExamplesIndex.

Definition lines66 (l : list text) : text := flat_map (fun x => x ++ [LF]) l.
Definition toks66 (src : text) : list stoken := match tokenize u0 src with Val (Some toks, _) => toks | _ => [] end.
Definition errs66 (src : text) : list (simple token) := match parse_tokens src (toks66 src) with Val (_, errs) => errs | _ => [] end.
Definition err66 (src : text) : simple token := hd (mkSimple (mkSpan 0 0) Unexpected [] None) (errs66 src).
Definition out66 (src : text) : option (list statement) := match parse_tokens src (toks66 src) with Val (o, _) => o | _ => None end.
(** the tokens before, at and behind the [n]-th *)
Definition before66 (n : nat) (src : text) : list stoken := firstn n (without_comments (toks66 src)).
Definition at66 (n : nat) (src : text) : stoken := nth n (without_comments (toks66 src)) (TComment, mkSpan 0 0).
Definition behind66 (n : nat) (src : text) : list stoken := skipn (S n) (without_comments (toks66 src)).

Fixpoint tidyb (l : list stoken) : bool :=
  match l with
  | x :: ((y :: _) as r) => negb ((match fst x with TPunct c => N.eqb c (ch ",") | TType _ => true | _ => false end) && match fst y with TNewline => true | _ => false end) && tidyb r
  | _ => true
  end.
Lemma tidyb_tidy l : tidyb l = true -> tidy l.
Proof.
  intros H p x y q -> O N. induction p as [|z p IH].
  - destruct x as [x sx], y as [y sy]. cbn [fst] in *. subst y. destruct O as [->|[k ->]]; cbn in H; discriminate.
  - apply IH. cbn [app tidyb] in H. destruct p; cbn [app] in *; apply andb_prop in H; exact (proj2 H).
Qed.

(** a number where a type should be; the word behind it is skipped *)
Definition bad66 : text := lines66 [str "declare void @f()"; str "declare void @g(5) # no type"; str "foo"].
(** "expected global name" at a global name *)
Definition global66 : text := lines66 [str "define void @f() {"; str "xbr !1, cont=@g"; str "}"].
Lemma global_witness : exists ord u src toks terrs o errs e g, tokenize u src = Val (Some toks, terrs) /\ parse_tokens src toks = Val (o, errs) /\ In e errs /\
  In (TGlobalName g, e_span e) toks /\ parser_error_message ord (simple_map token_display e) = str "expected global name".
Proof. exists (fun l => l), u0, global66, (toks66 global66), [], (out66 global66), (errs66 global66), (err66 global66), (str "@g"). vm_compute. repeat (split; [tauto|]). reflexivity. Qed.
(** a dependency list that ends with a comma *)
Definition comma66 : text := lines66 [str "@a depends on @b, 5"; str "declare void @f()"].
Definition comma66' : text := str "@a depends on @b, @c".
(** a line that ends with a comma is continued by the next line *)
Definition open66 : text := lines66 [str "define void @f() {"; str "foobr 1,"; str "2 x"; str "}"].
Definition open66' : text := lines66 [str "define void @f() {"; str "foobr 1,"; str "2, cont=a, overflow=b"; str "}"].
Definition pr66 (src : text) : parser_result := match parse_from_str u0 src with Val pr => pr | _ => mkPR [] [] [] end.
Lemma marked66 src n : tokenize u0 src = Val (Some (toks66 src), []) -> parse_tokens src (toks66 src) = Val (out66 src, err66 src :: tl (errs66 src)) ->
  without_comments (toks66 src) = before66 n src ++ at66 n src :: behind66 n src -> e_span (err66 src) = snd (at66 n src) ->
  match e_reason (err66 src) with CustomMsg m => text_eqb m not_overflow = false | _ => True end -> marked u0 src (before66 n src) (at66 n src) (behind66 n src) (err66 src).
Proof.
  intros H1 H2 H3 H4 H5. exists (toks66 src), [], (out66 src), (tl (errs66 src)). split; [exact H1|]. split; [exact H2|]. split; [exact H3|]. split; [exact H4|].
  intros E. rewrite E in H5. vm_compute in H5. discriminate.
Qed.
Lemma comma_witness : exists u src a t w e, marked u src a t w e /\ tidy (a ++ [t]) /\ repaired u a t.
Proof.
  exists u0, comma66, (before66 4 comma66), (at66 4 comma66), (behind66 4 comma66), (err66 comma66). split; [apply marked66; vm_compute; (reflexivity || exact I)|]. split.
  - apply tidyb_tidy. vm_compute. reflexivity.
  - exists comma66', (pr66 comma66'), (behind66 4 comma66'). vm_compute. repeat split; reflexivity.
Qed.
Lemma open_witness : exists u src a t w e, marked u src a t w e /\ fst t <> TPunct (ch ",") /\ repaired u a t.
Proof.
  exists u0, open66, (before66 11 open66), (at66 11 open66), (behind66 11 open66), (err66 open66). split; [apply marked66; vm_compute; (reflexivity || exact I)|]. split; [vm_compute; discriminate|].
  exists open66', (pr66 open66'), (behind66 11 open66'). vm_compute. repeat split; reflexivity.
Qed.
Lemma bad_marked : marked u0 bad66 (before66 10 bad66) (at66 10 bad66) (behind66 10 bad66) (err66 bad66) /\
  tidy (before66 10 bad66 ++ [at66 10 bad66]) /\ at66 10 bad66 = (TNum (str "5"), mkSpan 34 35).
Proof.
  split; [apply marked66; vm_compute; (reflexivity || exact I)|]. split; [apply tidyb_tidy; vm_compute; reflexivity|vm_compute; reflexivity].
Qed.
