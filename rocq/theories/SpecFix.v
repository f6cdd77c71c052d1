(** Reports that other parts of a document settle. *)
From Verif Require Import Text Rope Chumsky Tokenizer Parser Numbers Index SemTok Diag Rename Cfg Backtrace Server SpecText SpecLex SpecParse SpecIndex SpecDiag SpecSum SpecEdit.

Definition undefined_message (name : text) : text := str "Use of undefined symbol `" ++ name ++ str "`".
(** The report is not about a symbol without definition that [ss] declares or defines. *)
Definition unmet (ss : list statement) (x : diagnostic) : bool :=
  negb (existsb (fun y => text_eqb (d_message x) (undefined_message (snd y))) (flat_map offer ss)).
(** No symbol of the whole document is defined in both. *)
Definition no_clash (sa sb : list statement) : Prop := forall k n, In (k, true, n) (flat_map offer sa) -> ~ In (k, true, n) (flat_map offer sb).
Definition is_declaration (s : statement) : Prop := match s with SFuncDecl _ _ _ => True | _ => False end.
