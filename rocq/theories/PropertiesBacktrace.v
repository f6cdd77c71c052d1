(** Property theorems C37-C41: backtraces. *)
From Verif Require Import Text Numbers Backtrace SpecBacktrace PBacktrace.

(** C37 *)
Theorem C37_basename : forall path, exists r, shorten_filepath path = Val r /\
  (forall r', basename_of path r' <-> r' = r).
Proof. exact basename_spec. Qed.
Print Assumptions C37_basename.
Example C37_basename_ex :
  shorten_filepath (str "a/b\" ++ [233]%N ++ str ".cpp") = Val ([233]%N ++ str ".cpp").
Proof. vm_compute. reflexivity. Qed.

(** C38 *)
Theorem C38_sanitize : forall u x,
  Forall2 (fun c d => (md_allowed u c -> d = c) /\ (~ md_allowed u c -> d = REPLACEMENT))
          x (sanitize_markdown_code u x).
Proof. exact sanitize_spec. Qed.
Print Assumptions C38_sanitize.
Theorem C38_idempotent : forall u x,
  sanitize_markdown_code u (sanitize_markdown_code u x) = sanitize_markdown_code u x.
Proof. exact sanitize_idem. Qed.
Print Assumptions C38_idempotent.
(** The code span of a frame is closed by the second back-tick only. *)
Theorem C38_code_span : forall u disp f, exists code rest,
  format_frame_as_md u disp f = Val (ch "`" :: code ++ ch "`" :: rest) /\
  ~ In (ch "`") code /\ code = sanitize_markdown_code u (f_symbol f).
Proof. exact format_frame_code. Qed.
Print Assumptions C38_code_span.
Example C38_ex : forall u, sanitize_markdown_code u (str "f`<int> _[x") =
  str "f" ++ [REPLACEMENT] ++ str "<int> _" ++ [REPLACEMENT] ++ str "x".
Proof. intros u. vm_compute. reflexivity. Qed.

(** C39 *)
Theorem C39_relevant_frame : forall frames, relevant_frame frames (identify_relevant_frames frames).
Proof. exact identify_spec. Qed.
Print Assumptions C39_relevant_frame.
Example C39_ex : identify_relevant_frames
  [mkFrame (str "x") (Some (str "hyper/ir/a.cpp")) 1%N None; mkFrame (str "y") (Some (str "q.cpp")) 2%N None;
   mkFrame (str "A::Translator::foo") None 0%N None; mkFrame (str "Translator::consume") None 0%N None] = Some 3.
Proof. vm_compute. reflexivity. Qed.

(** C40 *)
Theorem C40_backtrace : forall fs roots j, can_resolve roots ->
  (exists fields l frames, j = JObj fields /\ alookup (str "backtrace") fields = Some (JArr l) /\
       parse_backtrace_from_json fs roots j = Val (Some frames) /\ Forall2 (frame_reads fs roots) l frames)
  \/ ((forall fields l, j = JObj fields -> alookup (str "backtrace") fields <> Some (JArr l)) /\
      parse_backtrace_from_json fs roots j = Val None).
Proof. exact parse_backtrace_spec. Qed.
Print Assumptions C40_backtrace.
Example C40_ex : can_resolve [mkUrl (str "file://") [str "src"] true].
Proof. intros r [<-|[]]. reflexivity. Qed.
(** Without the hypothesis on the roots the parser can crash. *)
Theorem C40_roots_refuted : exists fs roots j, parse_backtrace_from_json fs roots j = Panic.
Proof. exact resolve_witness. Qed.
Print Assumptions C40_roots_refuted.

(** C41 *)
Theorem C41_short : forall x, byte_len x < 48 -> shorten_name x 50 = Val x.
Proof. exact shorten_name_short. Qed.
Print Assumptions C41_short.
Theorem C41_long : forall x y, 48 <= byte_len x ->
  (shorten_name x 50 = Val y <->
   exists pre post, x = pre ++ post /\ byte_len pre = 48 /\ y = pre ++ [ELLIPSIS]).
Proof. exact shorten_name_long. Qed.
Print Assumptions C41_long.
Theorem C41_ascii : forall x, ascii_text x = true ->
  shorten_name x 50 = Val (if length x <? 48 then x else firstn 48 x ++ [ELLIPSIS]).
Proof. exact shorten_name_ascii. Qed.
Print Assumptions C41_ascii.
Example C41_ex : byte_len (str "Translator::consume") < 48 /\ 48 <= byte_len (repeat 97%N 60) /\
  ascii_text (repeat 97%N 60) = true.
Proof. vm_compute. repeat split; lia. Qed.
Theorem C41_panic_refuted : exists x, byte_len x < 100 /\ shorten_name x 50 = Panic.
Proof. exact shorten_name_witness. Qed.
Print Assumptions C41_panic_refuted.
Theorem C41_ellipsis_refuted : exists x, byte_len x = 48 /\ shorten_name x 50 = Val (x ++ [ELLIPSIS]).
Proof. exact ellipsis_witness. Qed.
Print Assumptions C41_ellipsis_refuted.
