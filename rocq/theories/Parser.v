(** src/hir_parser.rs *)
From Verif Require Import Text Chumsky Tokenizer.

(** src/hir_tokenizer.rs:7 [Spanned<String>] *)
Definition spanned := (text * span)%type.
Definition stoken := (token * span)%type.

(** src/hir_parser.rs:5-9 *)
Record func_arg := mkArg { fa_type : spanned; fa_name : spanned }.

(** src/hir_parser.rs:11-17 *)
Record func_sig := mkSig {
  fs_modifiers : list spanned;
  fs_ret : spanned;
  fs_name : spanned;
  fs_args : list func_arg;
}.

(** src/hir_parser.rs:60-67 *)
Record instruction := mkInstr {
  i_target : option spanned;
  i_instr : spanned;
  i_refs : list spanned;
  i_dbg : option spanned;
  i_span : span;
}.

(** src/hir_parser.rs:52-58 *)
Record basic_block := mkBB {
  bb_label : option spanned;
  bb_label_comma : option span;
  bb_instrs : list instruction;
  bb_span : span;
}.

(** src/hir_parser.rs:45-50 *)
Record func_body := mkBody {
  fb_open : span;
  fb_close : span;
  fb_blocks : list basic_block;
}.

(** src/hir_parser.rs:19-43 *)
Inductive statement :=
| SGlobalVar (name : spanned) (def : list stoken)
| SFuncDecl (sig : func_sig) (addr : option spanned) (dbgref : option spanned)
| SFuncDef (define_kw : span) (sig : func_sig) (body : func_body)
| SFuncDeps (dependent : spanned) (dependencies : list spanned)
| SDbgAnnotation (name : spanned) (def : list stoken).

(** src/hir_parser.rs:69-73 [Instruction::is_branching] *)
Definition is_branching (i : instruction) : bool :=
  ends_with (fst (i_instr i)) (str "br") || text_eqb (fst (i_instr i)) (str "switch").

Section Parser.
Variable eoi : span.

Notation just := (p_just token_eqb eoi).
Notation one_of := (p_one_of token_eqb eoi).
Notation none_of := (p_none_of token_eqb eoi).
Notation punct c := (just (TPunct (ch c))).
Notation kw x := (just (TIdent (str x))).

(** src/hir_parser.rs:76 *)
Definition g_eol : parser token := p_or (just TNewline) (p_to (p_end eoi) TNewline).

(** src/hir_parser.rs:77-104 *)
Definition g_func_modifier : parser spanned := p_filter_map eoi (fun sp t =>
  match t with TFuncModifier x => inl (x, sp) | _ => inr (str "expected function modifier") end).
Definition g_global_name : parser spanned := p_filter_map eoi (fun sp t =>
  match t with TGlobalName x => inl (x, sp) | _ => inr (str "expected global name") end).
Definition g_local_name : parser spanned := p_filter_map eoi (fun sp t =>
  match t with TLocalName x => inl (x, sp) | _ => inr (str "expected local name") end).
Definition g_type : parser spanned := p_filter_map eoi (fun sp t =>
  match t with TType x => inl (x, sp) | _ => inr (str "expected type name") end).
Definition g_ident : parser spanned := p_filter_map eoi (fun sp t =>
  match t with TIdent x => inl (x, sp) | _ => inr (str "expected global name") end).
Definition g_dbg_ref : parser spanned := p_filter_map eoi (fun sp t =>
  match t with TDebugRef x => inl (x, sp) | _ => inr (str "expected dbgref") end).
Definition g_hexnum : parser spanned := p_filter_map eoi (fun sp t =>
  match t with THexNum x => inl (x, sp) | _ => inr (str "expected a hexadecimal number") end).

(** src/hir_parser.rs:107-109 *)
Definition g_token_soup : parser (list stoken) :=
  p_repeated (p_map_with_span eoi (none_of [TNewline]) (fun t sp => (t, sp))).

(** src/hir_parser.rs:112-116 *)
Definition g_global_var : parser statement :=
  p_map (p_then_ignore
           (p_then (p_then_ignore g_global_name (punct "=")) g_token_soup)
           g_eol)
        (fun '(n, d) => SGlobalVar n d).

(** src/hir_parser.rs:119-124 *)
Definition g_func_arg : parser func_arg :=
  p_map (p_then g_type g_local_name) (fun '(t, n) => mkArg t n).
Definition g_func_args : parser (list func_arg) := p_separated_by g_func_arg (punct ",").

(** src/hir_parser.rs:127-138 *)
Definition g_func_signature : parser func_sig :=
  p_map (p_then (p_then (p_then (p_repeated g_func_modifier) g_type) g_global_name)
                (p_delimited_by g_func_args (punct "(") (punct ")")))
        (fun '(((m, r), n), a) => mkSig m r n a).

(** src/hir_parser.rs:141 *)
Definition g_func_addr : parser spanned := p_ignore_then (punct "=") g_hexnum.

(** src/hir_parser.rs:144-153 *)
Definition g_func_decl : parser statement :=
  p_map (p_then_ignore
           (p_then (p_then (p_ignore_then (just TDeclare) g_func_signature)
                           (p_or_not g_func_addr))
                   (p_or_not g_dbg_ref))
           g_eol)
        (fun '((sig, addr), dbg) => SFuncDecl sig addr dbg).

(** [just(Token::Newline).rewind()] *)
Definition g_nl_ahead : parser token := p_rewind (just TNewline).

(** src/hir_parser.rs:156-157, 170-171, 230-231, 267-268 *)
Definition g_kw_spanned (k : text) : parser spanned :=
  p_map_with_span eoi (just (TIdent k)) (fun _ sp => (k, sp)).

(** src/hir_parser.rs:156-167 *)
Definition g_br : parser instruction :=
  p_map_with_span eoi
    (p_then_ignore
       (p_then (p_then (g_kw_spanned (str "br")) g_ident) (p_or_not g_dbg_ref))
       g_nl_ahead)
    (fun '((i, target), dbg) sp => mkInstr None i [target] dbg sp).

(** src/hir_parser.rs:170-188 *)
Definition g_condbr : parser instruction :=
  p_map_with_span eoi
    (p_then_ignore
       (p_then
          (p_then
             (p_then_ignore
                (p_then
                   (p_then_ignore
                      (p_then_ignore
                         (p_then_ignore (g_kw_spanned (str "br")) (just (TType (str "int1"))))
                         (p_any eoi))
                      (punct ","))
                   g_ident)
                (punct ","))
             g_ident)
          (p_or_not g_dbg_ref))
       g_nl_ahead)
    (fun '(((i, t1), t2), dbg) sp => mkInstr None i [t1; t2] dbg sp).

(** src/hir_parser.rs:203-206, 233-236: skip to the last token before
    [, word]: anything but a comma or newline, or a comma followed by a token
    other than [word]. *)
Definition g_skip_to (word : text) : parser (list token) :=
  p_repeated
    (p_or (none_of [TPunct (ch ","); TNewline])
          (p_then_ignore (punct ",") (none_of [TIdent word]))).

(** src/hir_parser.rs:192-226 *)
Definition g_overflowbr : parser instruction :=
  p_map_with_span eoi
    (p_then_ignore
       (p_then
          (p_then
             (p_then_ignore
                (p_then_ignore
                   (p_then_ignore
                      (p_then
                         (p_then_ignore
                            (p_then_ignore
                               (p_then_ignore
                                  (p_then_ignore
                                     (p_validate eoi g_ident (fun x =>
                                        if ends_with (fst x) (str "br") then None
                                        else Some (str "Instruction is not a overflow-branch instruction.")))
                                     (g_skip_to (str "cont")))
                                  (punct ","))
                               (kw "cont"))
                            (punct "="))
                         g_ident)
                      (punct ","))
                   (kw "overflow"))
                (punct "="))
             g_ident)
          (p_or_not g_dbg_ref))
       g_nl_ahead)
    (fun '(((i, t1), t2), dbg) sp => mkInstr None i [t1; t2] dbg sp).

(** src/hir_parser.rs:244-249: one [type value label=target] entry *)
Definition g_switch_case : parser spanned :=
  p_ignore_then
    (p_then (p_then (p_then g_type (p_any eoi)) (kw "label")) (punct "="))
    g_ident.

(** src/hir_parser.rs:230-264 *)
Definition g_switch : parser instruction :=
  p_map_with_span eoi
    (p_then_ignore
       (p_then
          (p_then
             (p_then_ignore
                (p_then
                   (p_then_ignore
                      (p_then_ignore
                         (p_then_ignore
                            (p_then_ignore (g_kw_spanned (str "switch"))
                                           (g_skip_to (str "default")))
                            (punct ","))
                         (kw "default"))
                      (punct "="))
                   g_ident)
                (punct ","))
             (p_separated_by g_switch_case (punct ",")))
          (p_or_not g_dbg_ref))
       g_nl_ahead)
    (fun '(((i, dflt), targets), dbg) sp => mkInstr None i (dflt :: targets) dbg sp).

(** src/hir_parser.rs:270-274: one [[label, value]] entry *)
Definition g_phi_entry : parser spanned :=
  p_delimited_by
    (p_then_ignore (p_then_ignore g_ident (punct ","))
                   (p_repeated (none_of [TPunct (ch "]"); TNewline])))
    (punct "[") (punct "]").

(** src/hir_parser.rs:267-284 *)
Definition g_phi : parser instruction :=
  p_map_with_span eoi
    (p_then_ignore
       (p_then
          (p_then (g_kw_spanned (str "phi")) (p_separated_by g_phi_entry (punct ",")))
          (p_or_not g_dbg_ref))
       g_nl_ahead)
    (fun '((i, targets), dbg) sp => mkInstr None i targets dbg sp).

(** src/hir_parser.rs:287-303 *)
Definition g_any_instr : parser instruction :=
  p_map_with_span eoi
    (p_then_ignore
       (p_then
          (p_then_ignore
             (p_then_ignore g_ident (p_rewind (none_of [TPunct (ch ":")])))
             (p_repeated
                (p_not eoi (p_or (p_to (just TNewline) tt) (p_to g_dbg_ref tt)))))
          (p_or_not g_dbg_ref))
       g_nl_ahead)
    (fun '(i, dbg) sp => mkInstr None i [] dbg sp).

(** src/hir_parser.rs:311-316 *)
Definition g_instr_alternatives : parser instruction :=
  p_or (p_or (p_or (p_or (p_or g_br g_condbr) g_overflowbr) g_switch) g_phi) g_any_instr.

(** src/hir_parser.rs:306-322 *)
Definition g_instruction : parser instruction :=
  p_map_with_span eoi
    (p_then
       (p_or_not (p_then_ignore (p_ignore_then g_type g_local_name) (punct "=")))
       g_instr_alternatives)
    (fun '(target, i) sp => mkInstr target (i_instr i) (i_refs i) (i_dbg i) sp).

(** [just(Token::Newline).repeated()] *)
Definition g_nls : parser (list token) := p_repeated (just TNewline).
Definition g_nls1 : parser (list token) := p_repeated_at_least 1 (just TNewline).

(** [Vec::last] as an option *)
Definition olast {A} (l : list A) : option A :=
  match rev l with [] => None | x :: _ => Some x end.

(** src/hir_parser.rs:336-345 *)
Definition mk_labelled_bb (label : spanned) (comma : span) (is_ : list instruction) : basic_block :=
  mkBB (Some label) (Some comma) is_
       (mkSpan (sp_start (snd label))
               (match olast is_ with Some i => sp_end (i_span i) | None => sp_end (snd label) end)).

(** src/hir_parser.rs:325-346 *)
Definition g_basic_block : parser basic_block :=
  p_map
    (p_then
       (p_then_ignore
          (p_then g_ident (p_map_with_span eoi (punct ":") (fun _ sp => sp)))
          g_nls1)
       (p_repeated (p_padded_by g_instruction g_nls)))
    (fun '((label, comma), is_) => mk_labelled_bb label comma is_).

(** src/hir_parser.rs:358-369.  [first().unwrap()]/[last().unwrap()] are safe
    after [at_least(1)]; the model gives the empty list an arbitrary span,
    see [g_initial_bb_nonempty] in the proofs. *)
Definition mk_initial_bb (is_ : list instruction) : basic_block :=
  mkBB None None is_
       (mkSpan (match is_ with i :: _ => sp_start (i_span i) | [] => 0 end)
               (match olast is_ with Some i => sp_end (i_span i) | None => 0 end)).

(** src/hir_parser.rs:349-387 *)
Definition g_func_body : parser func_body :=
  p_map
    (p_then
       (p_then
          (p_then
             (p_then_ignore (p_map_with_span eoi (punct "{") (fun _ sp => sp)) g_nls1)
             (p_or_not
                (p_map (p_repeated_at_least 1 (p_padded_by g_instruction g_nls))
                       mk_initial_bb)))
          (p_repeated g_basic_block))
       (p_map_with_span eoi (punct "}") (fun _ sp => sp)))
    (fun '(((o, init), bbs), c) =>
       mkBody o c (match init with Some b => b :: bbs | None => bbs end)).

(** src/hir_parser.rs:390-399 *)
Definition g_func_def : parser statement :=
  p_map (p_then_ignore
           (p_then (p_then (p_map_with_span eoi (just TDefine) (fun _ sp => sp))
                           g_func_signature)
                   g_func_body)
           g_eol)
        (fun '((d, sig), body) => SFuncDef d sig body).

(** src/hir_parser.rs:402-409 *)
Definition g_func_deps : parser statement :=
  p_map (p_then (p_then_ignore (p_then_ignore g_global_name (kw "depends")) (kw "on"))
                (p_separated_by g_global_name (punct ",")))
        (fun '(d, ds) => SFuncDeps d ds).

(** src/hir_parser.rs:412-416 *)
Definition g_dbg_annotation : parser statement :=
  p_map (p_then_ignore
           (p_then (p_then_ignore g_dbg_ref (punct "=")) g_token_soup)
           g_eol)
        (fun '(n, d) => SDbgAnnotation n d).

(** src/hir_parser.rs:418-423 *)
Definition g_statement : parser statement :=
  p_padded_by
    (p_or (p_or (p_or (p_or g_global_var g_func_decl) g_func_def) g_func_deps) g_dbg_annotation)
    g_nls.

(** src/hir_parser.rs:418-427 *)
Definition g_module : parser (list statement) :=
  p_then_ignore (p_repeated (p_recover g_statement)) (p_end eoi).

End Parser.

(** src/hir_parser.rs:429-433; errors are Simple<String> there: the items of
    the expected set and the found item are rendered with [to_string] *)
Record parser_result := mkPR {
  pr_tokens : list stoken;
  pr_stmts : list statement;
  pr_errors : list (simple text);
}.

(** chumsky Simple::map *)
Definition simple_map {A B} (f : A -> B) (e : simple A) : simple B :=
  mkSimple (e_span e) (e_reason e) (map (option_map f) (e_expected e)) (option_map f (e_found e)).

(** src/hir_parser.rs:445: comments are dropped before parsing *)
Definition not_comment (t : stoken) : bool := negb (token_eqb (fst t) TComment).

(** src/hir_parser.rs:441-446: the end-of-input span uses the BYTE length *)
Definition parse_tokens (src : text) (toks : list stoken)
  : res (option (list statement) * list (simple token)) :=
  let strlen := byte_len src in
  parse_recovery (g_module (mkSpan strlen (strlen + 1))) (filter not_comment toks).

(** src/hir_parser.rs:435-463 *)
Definition parse_from_str (u : uclass) (src : text) : res parser_result :=
  rbind (tokenize u src) (fun '(tokens, tok_errs) =>
  rbind (match tokens with
         | Some toks => parse_tokens src toks
         | None => Val (None, [])
         end) (fun '(stmts, parse_errs) =>
  Val (mkPR (match tokens with Some t => t | None => [] end)
            (match stmts with Some x => x | None => [] end)
            (map (simple_map (fun c => [c])) tok_errs
             ++ map (simple_map token_display) parse_errs)))).
