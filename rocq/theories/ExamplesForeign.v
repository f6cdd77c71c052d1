(** Documents with characters that are not ASCII. *)
From Verif Require Import Text Rope Chumsky Tokenizer Parser Numbers Index SemTok Diag Rename Cfg Backtrace Server SpecText SpecBytes SpecLex SpecParse SpecIndex SpecDiag SpecBacktrace SpecCfg SpecView SpecRename SpecPatch SpecSum SpecForeign
  ExamplesIndex ExamplesCfg ExamplesView ExamplesSum.

(** a comment with an accent between two uses of names *)
Definition accent_ : text := str "@v = 1
define void @f(int8 %x) {
entry:
  int8 %y = add %x, @v
  br entry # caf" ++ [233%N] ++ str "
more:
  br entry
  br nowhere
  call @v
}
".
Lemma bmp_accent : bmp_document accent_.
Proof. split; vm_compute; reflexivity. Qed.
Lemma open_accent : opened env8 (sv accent_) (str "f") accent_ (doc_of env8 accent_).
Proof. split; [reflexivity|]. exists (diags_of accent_). vm_compute. reflexivity. Qed.

(** a definition behind a comment with an accent *)
Definition lost_ : text := str "# " ++ [233%N; LF] ++ str "@x = 5" ++ [LF].
Lemma open_lost : opened env8 (sv lost_) (str "f") lost_ (doc_of env8 lost_).
Proof. split; [reflexivity|]. exists (diags_of lost_). vm_compute. reflexivity. Qed.
Lemma rename_lost : exists e s uri src d p edits, bmp_document src /\ opened e s uri src d /\ p <= length src /\
  rename e s uri (lsp_position src p) (str "y") = Val (Reply edits) /\
  src = str "# " ++ [233%N; LF] ++ str "@x = 5" ++ [LF] /\ patched src edits = str "# " ++ [233%N] ++ str "@yx = 5" ++ [LF].
Proof.
  exists env8, (sv lost_), (str "f"), lost_, (doc_of env8 lost_), 4, (match rename env8 (sv lost_) (str "f") (lsp_position lost_ 4) (str "y") with Val (Reply l) => l | _ => [] end).
  split; [split; vm_compute; reflexivity|]. split; [exact open_lost|]. split; [vm_compute; lia|]. split; [vm_compute; reflexivity|]. split; [reflexivity|]. vm_compute. reflexivity.
Qed.

(** all views behind an accent *)
Definition accents_ : text := str "# caf" ++ [233%N] ++ str "
@v = 1
define void @f(int8 %x) {
entry:
  br more !1
more:
  br entry
}
!1 = {}
".
Definition doca : doc := match analyze env5 (str "f") accents_ with Val (d, _) => d | Panic => mkDoc [] [] [] index_empty end.
Definition sva : server := mkServer [] false [(str "f", doca)].
Definition hintsa : list inlay_hint := match inlay_hint_handler env5 sva (str "f") with Val (Some l) => l | _ => [] end.
Lemma open_accents : bmp_document accents_ /\ visits_all (e_ord env5) /\ opened env5 sva (str "f") accents_ doca.
Proof.
  split; [split; vm_compute; reflexivity|]. split; [apply opened5|]. split; [reflexivity|].
  exists (match analyze env5 (str "f") accents_ with Val (_, ds) => ds | Panic => [] end). vm_compute. reflexivity.
Qed.
(** only [{}] is read as a backtrace *)
Definition enva : env := mkEnv u0 Debug (fun m => m) (fun _ => None) (fun _ => []) (fun _ => None) (fun v => if text_eqb v (str "{}") then Some trace5 else None) (fun l => l).
Lemma backtrace_lost : exists e t d d' l l',
  analyze e (str "f") (str "# cafe" ++ t) = Val d /\ analyze e (str "f") (str "# caf" ++ [233%N] ++ t) = Val d' /\ bmp_document (str "# caf" ++ [233%N] ++ t) /\
  inlay_hint_handler e (mkServer [] false [(str "f", fst d)]) (str "f") = Val (Some l) /\ inlay_hint_handler e (mkServer [] false [(str "f", fst d')]) (str "f") = Val (Some l') /\
  length l = 4 /\ length l' = 3 /\ map (fun h => map lp_value (ih_parts h)) (firstn 1 (skipn 2 l)) = [[str "hyper::Translator::consume(x)"; str ", "; str "Full backtrace"]] /\
  map (fun h => map lp_value (ih_parts h)) l' = [[str "incoming: "; str "more"]; [str "incoming: "; str "entry"]; [str "@f"]].
Proof.
  exists enva, (skipn 6 accents_).
  exists (match analyze enva (str "f") (str "# cafe" ++ skipn 6 accents_) with Val d => d | Panic => (doca, []) end), (match analyze enva (str "f") accents_ with Val d => d | Panic => (doca, []) end).
  do 2 eexists. split; [vm_compute; reflexivity|]. split; [vm_compute; reflexivity|]. split; [split; vm_compute; reflexivity|].
  split; [vm_compute; reflexivity|]. split; [vm_compute; reflexivity|]. split; [reflexivity|]. split; [reflexivity|]. split; vm_compute; reflexivity.
Qed.
