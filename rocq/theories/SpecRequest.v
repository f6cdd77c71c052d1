(** What makes a request crash, what clients are told, and what they may rely on. *)
From Verif Require Import Text Rope Chumsky Tokenizer Parser Numbers Index SemTok Diag Rename Cfg Backtrace Server Dispatch SpecText SpecParse SpecIndex SpecDiag SpecBacktrace SpecNumbers SpecCfg SpecView SpecRename SpecServer.

(** A number that cannot be moved up. *)
Definition last_number (pr : parser_result) : Prop :=
  exists x, In x (recorded (pr_stmts pr) (pr_tokens pr)) /\ has_number (o_name x) max_i64.
(** The reasons for which a request crashes the server; [texts] are the documents. *)
Definition crash_cause (e : env) (rs : list url) (texts : text -> option text) (q : request) : Prop :=
  match q with
  | QDefinition u _ =>
      (* a definition in line 0 of a source file *)
      e_pf e = Debug /\ exists src pr f x, texts u = Some src /\ parse_from_str (e_u e) src = Val pr /\ In x (ext_defs [] (pr_stmts pr) f) /\ ext_line x = 0%N
  | QRename u _ new =>
      (* an empty name, or numbers beyond 64 bits *)
      (exists k, without_sigil k new []) \/
      (e_pf e = Debug /\ exists src pr z, texts u = Some src /\ parse_from_str (e_u e) src = Val pr /\ asks_shift new z /\
        (~ fits_i64 z \/ exists x n, In x (recorded (pr_stmts pr) (pr_tokens pr)) /\ has_number (o_name x) n /\ ~ fits_i64 (Z.of_N n + z)))
  | QAction u _ => e_pf e = Debug /\ exists src pr, texts u = Some src /\ parse_from_str (e_u e) src = Val pr /\ last_number pr
  | QResolve a =>
      (* data made for another text *)
      exists j ad src pr, ca_data a = Some j /\ action_data_of_json e j = Some ad /\ texts (ad_uri ad) = Some src /\ parse_from_str (e_u e) src = Val pr /\
        (~ scope_exists (length (function_defs (pr_stmts pr))) (ad_kind ad) (ad_body ad) \/ (e_pf e = Debug /\ last_number pr))
  | QHints u =>
      (* the name in a backtrace cannot be cut *)
      exists src pr i j frames n f, texts u = Some src /\ parse_from_str (e_u e) src = Val pr /\ In i (instructions (pr_stmts pr)) /\
        instr_json e src (pr_stmts pr) i = Some j /\ backtrace_frames (e_fs e) rs j frames /\ relevant_frame frames (Some n) /\
        nth_error frames n = Some f /\ forall y, ~ shortened (f_symbol f) y
  | _ => False
  end.
Definition note_plain (n : note) : Prop := exists t, note_text n = Some t /\ plain_document t.

(** A client that can work with actions whose edits come later. *)
Definition can_wait (c : option action_caps) : Prop :=
  exists c' ps, c = Some c' /\ resolve_properties c' = Some ps /\ In (str "edit") ps /\ data_support c' = Some true.

(** What the client shows for the action that moves numbers. *)
Definition numbering_of (k : symbol_kind) : text :=
  match k with
  | KGlobalVar => str "global variable"
  | KFunction => str "function"
  | KDbgAnnotation => str "debug"
  | KLabel => str "basic block"
  | KLocalVar => str "variable"
  end.
Definition offer_title (k : symbol_kind) : text := str "Shift " ++ numbering_of k ++ str " numbering".
(** The titles of the actions for a cursor at [p]: one if the name there ends in a number. *)
Definition offers (l : list occurrence) (p : nat) (titles : list text) : Prop :=
  (exists o n, In o l /\ covers (o_span o) p /\ has_number (o_name o) n /\ titles = [offer_title (o_kind o)]) \/
  ((forall o n, In o l -> covers (o_span o) p -> ~ has_number (o_name o) n) /\ titles = []).
