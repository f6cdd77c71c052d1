(** Examples for PropertiesReformat.v. *)
From Verif Require Import Text Rope Chumsky Tokenizer Parser Numbers Index SemTok Diag Rename Cfg Backtrace Server SpecText SpecLex SpecParse SpecIndex SpecDiag SpecBacktrace SpecNumbers SpecCfg SpecView SpecSemTok SpecRename SpecPatch SpecSimilar SpecRebind SpecSteps SpecDot SpecComment SpecLayout SpecLines SpecRoom SpecAfter SpecAfterShift SpecAfterHints SpecReformat
  PLexProps PTokens PLocal PExact PIdle ExamplesIndex ExamplesCfg ExamplesView ExamplesRename ExamplesPatch ExamplesRebind ExamplesLabel ExamplesUndo ExamplesSteps ExamplesSum ExamplesComment ExamplesLayout ExamplesAfterShift ExamplesAfterHints.

(** doc88 laid out anew, the value of its annotation too *)
Definition doc90 : text := str "  define  void @g( int1 %x )   {
a_1:      # the loop
  br int1 %x,a_1,b !1
  b:
  br   int1 %x, a_1, b  
}
define void @h() {
a_1:
	br	a_1
}
!1 =   {   }
".
(** doc88 with a comment to vary *)
Definition doc90_before : text := str "define void @g(int1 %x) {
a_1: # old
  br int1 %x, a_1, b !1
b:
  br int1 %x, a_1, b
}
define void @h() {
a_1:
  br a_1
}
!1 = {}
".
Lemma respaced90 : respaced (e_u env5) None doc90_before doc90.
Proof.
  eapply relaid_ok with (toks := pr_tokens (pr_of doc90_before)) (toks' := pr_tokens (pr_of doc90)).
  - apply (tokenize_lexes _ _ _ []). vm_compute. reflexivity.
  - reflexivity.
  - apply (tokenize_lexes _ _ _ []). vm_compute. reflexivity.
  - vm_compute. reflexivity.
  - vm_compute. reflexivity.
Qed.
Lemma not_blank c t : c <> SPACE -> c <> TAB -> ~ Forall blank (c :: t).
Proof. intros A B H. inversion H as [|? ? [E|E] _]; auto. Qed.
Lemma full90 : plain_document doc90_before /\ plain_document doc90 /\ opened env5 (sv88 doc90_before) (str "f") doc90_before (doc_of env5 doc90_before) /\ opened env5 (sv88 doc90) (str "f") doc90 (doc_of env5 doc90) /\ ~ Forall blank doc90_before.
Proof.
  split; [split; [|split]; vm_compute; reflexivity|]. split; [split; [|split]; vm_compute; reflexivity|]. split; [apply opened88; vm_compute; discriminate|]. split; [apply opened88; vm_compute; discriminate|].
  apply not_blank; vm_compute; discriminate.
Qed.
(** whatever is read as the value of annotation 1, it is read from both *)
Lemma value90 n : ann_value doc90_before (doc_stmts (doc_of env5 doc90_before)) n = (if text_eqb n (str "!1") then Some (str "{}") else None) /\
  ann_value doc90 (doc_stmts (doc_of env5 doc90)) n = (if text_eqb n (str "!1") then Some (str "{   }") else None).
Proof. split; vm_compute; reflexivity. Qed.
Lemma values90 : values_alike env5 doc90_before doc90 (doc_stmts (doc_of env5 doc90_before)) (doc_stmts (doc_of env5 doc90)).
Proof. intros n. destruct (value90 n) as [-> ->]. destruct (text_eqb n _); reflexivity. Qed.
Lemma hints90 : shown_hints doc90_before = [
    (mkPos 1 4, [str "incoming: "; str "a_1"; str ", "; str "b"]); (mkPos 3 2, [str "incoming: "; str "a_1"; str ", "; str "b"]); (mkPos 7 4, [str "incoming: "; str "a_1"]);
    (mkPos 2 23, [str "hyper::Translator::consume(x)"; str ", "; str "Full backtrace"]); (mkPos 5 1, [str "@g"]); (mkPos 9 1, [str "@h"])] /\
  shown_hints doc90 = [
    (mkPos 1 4, [str "incoming: "; str "a_1"; str ", "; str "b"]); (mkPos 3 4, [str "incoming: "; str "a_1"; str ", "; str "b"]); (mkPos 7 4, [str "incoming: "; str "a_1"]);
    (mkPos 2 21, [str "hyper::Translator::consume(x)"; str ", "; str "Full backtrace"]); (mkPos 5 1, [str "@g"]); (mkPos 9 1, [str "@h"])].
Proof. split; vm_compute; reflexivity. Qed.

(** a document with a name that is not bound, one bound twice and a statement that cannot be read *)
Definition doc90_bad : text := str "define void @g(int1 %x) {
br a_1
a_1:
br b
}
define void @g() {
ret
}
define void @k(define 2) {
}
".
Definition doc90_bad_after : text := str "define void @g( int1   %x ){
   br a_1
 a_1:
	br	b
}
define	void	@g(){
 ret
}
   define   void @k( define   2 ) {
  }
".
Lemma respaced90_bad : respaced (e_u env5) None doc90_bad doc90_bad_after.
Proof.
  eapply relaid_ok with (toks := pr_tokens (pr_of doc90_bad)) (toks' := pr_tokens (pr_of doc90_bad_after)).
  - apply (tokenize_lexes _ _ _ []). vm_compute. reflexivity.
  - reflexivity.
  - apply (tokenize_lexes _ _ _ []). vm_compute. reflexivity.
  - vm_compute. reflexivity.
  - vm_compute. reflexivity.
Qed.
Definition diags90 (t : text) : list diagnostic := match analyze env5 (str "f") t with Val (_, ds) => ds | Panic => [] end.
Lemma bad90 : plain_document doc90_bad /\ plain_document doc90_bad_after /\ opened env5 (sv88 doc90_bad) (str "f") doc90_bad (doc_of env5 doc90_bad) /\
  opened env5 (sv88 doc90_bad_after) (str "f") doc90_bad_after (doc_of env5 doc90_bad_after) /\ ~ Forall blank doc90_bad /\
  analyze env5 (str "f") doc90_bad = Val (doc_of env5 doc90_bad, diags90 doc90_bad) /\ analyze env5 (str "f") doc90_bad_after = Val (doc_of env5 doc90_bad_after, diags90 doc90_bad_after).
Proof.
  split; [split; [|split]; vm_compute; reflexivity|]. split; [split; [|split]; vm_compute; reflexivity|]. split; [apply opened88; vm_compute; discriminate|]. split; [apply opened88; vm_compute; discriminate|].
  split; [apply not_blank; vm_compute; discriminate|]. split; vm_compute; reflexivity.
Qed.
Definition shown_diags (t : text) : list (range_ * text) := map (fun x => (d_range x, d_message x)) (diags90 t).
Definition at90 (l a b : nat) : range_ := mkRange (mkPos l a) (mkPos l b).
Lemma diags90_shown :
  shown_diags doc90_bad = [(at90 8 15 21, str "Unexpected token in input, expected )"); (at90 8 12 14, str "Use of undefined symbol `@k`"); (at90 0 12 14, str "Use of undefined symbol `@g`"); (at90 5 12 14, str "Use of undefined symbol `@g`")] /\
  shown_diags doc90_bad_after = [(at90 8 21 27, str "Unexpected token in input, expected )"); (at90 8 17 19, str "Use of undefined symbol `@k`"); (at90 0 12 14, str "Use of undefined symbol `@g`"); (at90 5 12 14, str "Use of undefined symbol `@g`")].
Proof. split; vm_compute; reflexivity. Qed.

(** idle lines between the blocks of doc88 and around an annotation *)
Definition head90 : text := str "define void @g(int1 %x) {
a_1:
  br int1 %x, a_1, b !1
".
Definition tail90 : text := str "b:
  br int1 %x, a_1, b
}
define void @h() {
a_1:
  br a_1
}
!1 = {}
".
Definition idle90 : list text := [str " # note, with a comma," ++ [LF]; [TAB; CR; LF]].
Definition doc90_lines : text := head90 ++ concat idle90 ++ tail90.
Definition toks88 : list stoken := pr_tokens (pr_of doc88).
Definition toks90 : list stoken := pr_tokens (pr_of doc90_lines).
Definition thead90 : list stoken := pr_tokens (pr_of head90).
Lemma parsed88 : parse_from_str (e_u env5) doc88 = Val (mkPR toks88 (pr_stmts (pr_of doc88)) []) /\ pr_stmts (pr_of doc88) <> [].
Proof. split; [vm_compute; reflexivity|]. vm_compute. discriminate. Qed.
Lemma relined90 : tokenize (e_u env5) doc90_lines = Val (Some toks90, []) /\ relined LineStart (without_comments toks88) (without_comments toks90).
Proof.
  assert (Et90 : tokenize (e_u env5) doc90_lines = Val (Some toks90, [])) by (vm_compute; reflexivity). split; [exact Et90|].
  destruct (proj1 (document_exact _ _ _ _) (proj1 parsed88)) as [Et _]. pose proof (tokenize_lexes0 _ _ _ Et) as L.
  assert (Hf : full_lines head90) by (right; exists (removelast head90); reflexivity).
  assert (Ht : tokenize (e_u env5) head90 = Val (Some thead90, [])) by (vm_compute; reflexivity).
  assert (Hpl : place_after (without_comments thead90) = LineStart) by (vm_compute; reflexivity).
  assert (Hi : Forall idle_line idle90).
  { constructor; [|constructor; [|constructor]].
    + apply (il_comment [SPACE] (str " note, with a comma,")); [constructor; [left; reflexivity|constructor]|]. vm_compute. intuition discriminate.
    + apply (il_blank [TAB] [CR; LF]); [constructor; [right; reflexivity|constructor]|right; reflexivity]. }
  change doc88 with (head90 ++ tail90) in L.
  destruct (lexes_app_inv _ _ _ _ _ (tokenize_lexes0 _ _ _ Ht) Hf _ _ L) as (tb & Lb).
  destruct (both_lex _ _ _ _ _ Hf Ht Hi _ Lb) as (tl & H1 & H2 & H3 & H4). destruct (lexes_det _ _ _ _ _ L _ _ H3) as [E _]. rewrite E.
  destruct (lexes_det _ _ _ _ _ (tokenize_lexes0 _ _ _ Et90) _ _ H4) as [E4 _]. rewrite E4.
  exact (proj1 (more_lines _ _ Hpl tb tl H2)).
Qed.
Lemma lines90 : plain_document doc88 /\ plain_document doc90_lines /\ opened env5 (sv88 doc88) (str "f") doc88 (doc_of env5 doc88) /\ opened env5 (sv88 doc90_lines) (str "f") doc90_lines (doc_of env5 doc90_lines) /\
  analyze env5 (str "f") doc88 = Val (doc_of env5 doc88, diags90 doc88) /\ analyze env5 (str "f") doc90_lines = Val (doc_of env5 doc90_lines, diags90 doc90_lines).
Proof.
  split; [split; [|split]; vm_compute; reflexivity|]. split; [split; [|split]; vm_compute; reflexivity|]. split; [apply opened88; vm_compute; discriminate|]. split; [apply opened88; vm_compute; discriminate|].
  split; vm_compute; reflexivity.
Qed.
Lemma value90_lines n : ann_value doc88 (doc_stmts (doc_of env5 doc88)) n = (if text_eqb n (str "!1") then Some (str "{}") else None) /\
  ann_value doc90_lines (doc_stmts (doc_of env5 doc90_lines)) n = (if text_eqb n (str "!1") then Some (str "{}") else None).
Proof. split; vm_compute; reflexivity. Qed.
Lemma values90_lines : values_alike env5 doc88 doc90_lines (doc_stmts (doc_of env5 doc88)) (doc_stmts (doc_of env5 doc90_lines)).
Proof. intros n. destruct (value90_lines n) as [-> ->]. destruct (text_eqb n _); reflexivity. Qed.
