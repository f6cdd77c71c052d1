(** The action offered in the document of ExamplesRenumber.v. *)
From Verif Require Import Text Rope Chumsky Tokenizer Parser Numbers Index SemTok Diag Rename Cfg Backtrace Server SpecText SpecLex SpecParse SpecIndex SpecDiag SpecBacktrace SpecCfg SpecView SpecNumbers SpecRename SpecServer SpecWritten SpecRenumber SpecActionWords
  ExamplesIndex ExamplesView ExamplesSum ExamplesRename ExamplesServer ExamplesSum ExamplesRenumber.

Lemma open_action98 : opened env11 (sv doc98) (str "f") doc98 (doc_of env8 doc98) /\ visits_all (e_ord env11) /\ e_url_parse env11 (str "f") = Some (str "f") /\ parse_from_str (e_u env11) doc98 = Val pr98.
Proof. split; [split; [reflexivity|]; exists (diags_of doc98); vm_compute; reflexivity|]. split; [exact visits98|]. split; vm_compute; reflexivity. Qed.
Definition offered98 (p : position_) : list (text * list (position_ * text)) :=
  match code_action env11 (with_lazy false (sv doc98)) (str "f") (mkRange p p) with
  | Val (Reply (Some l)) => map (fun a => (ca_title a, match ca_edit a with Some (_, es) => map (fun x => (r_start (te_range x), te_text x)) es | None => [] end)) l
  | _ => []
  end.
Lemma offer98 : offered98 (mkPos 5 16) = [(str "Shift variable numbering", [(mkPos 5 7, str "%3"); (mkPos 3 21, str "%2"); (mkPos 5 16, str "%2")])].
Proof. vm_compute. reflexivity. Qed.
