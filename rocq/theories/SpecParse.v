(** Declarative grammar of modules: which token segments a syntax tree covers.
    Written without the combinators of Chumsky.v / Parser.v; it only shares the
    syntax-tree types. *)
From Verif Require Import Text Tokenizer Parser.

Definition tglobal (x : spanned) : stoken := (TGlobalName (fst x), snd x).
Definition tlocal (x : spanned) : stoken := (TLocalName (fst x), snd x).
Definition ttype (x : spanned) : stoken := (TType (fst x), snd x).
Definition tident (x : spanned) : stoken := (TIdent (fst x), snd x).
Definition tdbg (x : spanned) : stoken := (TDebugRef (fst x), snd x).
Definition thex (x : spanned) : stoken := (THexNum (fst x), snd x).
Definition tmod (x : spanned) : stoken := (TFuncModifier (fst x), snd x).
Definition tp (c : char) (sp : span) : stoken := (TPunct c, sp).
Definition tnl (sp : span) : stoken := (TNewline, sp).
Definition tkw (k : text) (sp : span) : stoken := (TIdent k, sp).

Definition opt_seg {A} (f : A -> stoken) (o : option A) : list stoken :=
  match o with Some x => [f x] | None => [] end.

Definition newlines (l : list stoken) : Prop := Forall (fun t => fst t = TNewline) l.
Definition no_newline (l : list stoken) : Prop := Forall (fun t => fst t <> TNewline) l.
Definition is_dbg (t : token) : Prop := exists x, t = TDebugRef x.

(** Comments are ignored by the grammar. *)
Definition without_comments (toks : list stoken) : list stoken :=
  filter (fun t => match fst t with TComment => false | _ => true end) toks.

(** The source range covered by a segment. *)
Definition cover (seg : list stoken) : span :=
  match seg, rev seg with
  | (_, a) :: _, (_, b) :: _ => mkSpan (sp_start a) (sp_end b)
  | _, _ => mkSpan 0 0
  end.

Inductive comma_sep {A} (item : A -> list stoken -> Prop) : list A -> list stoken -> Prop :=
| cs_nil : comma_sep item [] []
| cs_one a x : item a x -> comma_sep item [a] x
| cs_more a x sp b l xs : item a x -> comma_sep item (b :: l) xs ->
    comma_sep item (a :: b :: l) (x ++ tp (ch ",") sp :: xs).

(** Function headers *)
Definition arg_seg (a : func_arg) (seg : list stoken) : Prop := seg = [ttype (fa_type a); tlocal (fa_name a)].
Definition sig_seg (s : func_sig) (seg : list stoken) : Prop :=
  exists o c args, comma_sep arg_seg (fs_args s) args /\
    seg = map tmod (fs_modifiers s) ++
          [ttype (fs_ret s); tglobal (fs_name s); tp (ch "(") o] ++ args ++ [tp (ch ")") c].

(** Arbitrary operands up to [, word]; a comma is taken together with the token
    after it, whatever that is. *)
Inductive skip_seg (word : text) : list stoken -> Prop :=
| sk_nil : skip_seg word []
| sk_tok t r : fst t <> TPunct (ch ",") -> fst t <> TNewline -> skip_seg word r -> skip_seg word (t :: r)
| sk_comma sp t r : fst t <> TIdent word -> skip_seg word r -> skip_seg word (tp (ch ",") sp :: t :: r).

(** [type value label=target] *)
Definition case_seg (t : spanned) (seg : list stoken) : Prop :=
  exists ty v k e, seg = [ttype ty; v; tkw (str "label") k; tp (ch "=") e; tident t].
(** [[label, value]] *)
Definition phi_seg (t : spanned) (seg : list stoken) : Prop :=
  exists o comma v c,
    Forall (fun x => fst x <> TPunct (ch "]") /\ fst x <> TNewline) v /\
    seg = tp (ch "[") o :: tident t :: tp (ch ",") comma :: v ++ [tp (ch "]") c].

(** Instructions: the five forms with targets, and all others. *)
Inductive form := FBr | FCond | FOverflow | FSwitch | FPhi | FOther.
Inductive body_seg : form -> spanned -> list spanned -> list stoken -> Prop :=
| bs_br m t : fst m = str "br" -> body_seg FBr m [t] [tident m; tident t]
| bs_cond m ty v c1 t1 c2 t2 : fst m = str "br" ->
    body_seg FCond m [t1; t2]
      [tident m; (TType (str "int1"), ty); v; tp (ch ",") c1; tident t1; tp (ch ",") c2; tident t2]
| bs_overflow m soup c1 k1 e1 t1 c2 k2 e2 t2 : skip_seg (str "cont") soup ->
    body_seg FOverflow m [t1; t2]
      (tident m :: soup ++ [tp (ch ",") c1; tkw (str "cont") k1; tp (ch "=") e1; tident t1;
                            tp (ch ",") c2; tkw (str "overflow") k2; tp (ch "=") e2; tident t2])
| bs_switch m soup c1 k1 e1 d c2 cases cs : fst m = str "switch" -> skip_seg (str "default") soup ->
    comma_sep case_seg cases cs ->
    body_seg FSwitch m (d :: cases)
      (tident m :: soup ++ [tp (ch ",") c1; tkw (str "default") k1; tp (ch "=") e1; tident d;
                            tp (ch ",") c2] ++ cs)
| bs_phi m entries es : fst m = str "phi" -> comma_sep phi_seg entries es ->
    body_seg FPhi m entries (tident m :: es)
| bs_other m soup : Forall (fun t => fst t <> TNewline /\ ~ is_dbg (fst t)) soup ->
    (forall t r, soup = t :: r -> fst t <> TPunct (ch ":")) ->
    body_seg FOther m [] (tident m :: soup).

(** Number of errors of an instruction: the overflow form needs a mnemonic that
    ends with [br]. *)
Definition form_errors (f : form) (m : text) : nat :=
  match f with FOverflow => if ends_with m (str "br") then 0 else 1 | _ => 0 end.

Definition target_seg (t : option spanned) (seg : list stoken) : Prop :=
  match t with
  | Some x => exists ty e, seg = [ttype ty; tlocal x; tp (ch "=") e]
  | None => seg = []
  end.

Definition last_end_of (l : list instruction) (dflt : nat) : nat :=
  match rev l with i :: _ => sp_end (i_span i) | [] => dflt end.

(** End of line: a newline, or nothing at the end of the input. *)
Definition eol_seg (e rest : list stoken) : Prop :=
  (exists sp, e = [tnl sp]) \/ (e = [] /\ rest = []).

(** A dependency list goes on as long as it can. *)
Definition deps_stop (deps : list spanned) (rest : list stoken) : Prop :=
  match deps with
  | [] => forall x q, rest <> tglobal x :: q
  | _ => forall sp x q, rest <> tp (ch ",") sp :: tglobal x :: q
  end.

Section Grammar.
(** Which mnemonics are allowed in which form. *)
Variable ok : form -> text -> Prop.

Definition instr_seg (i : instruction) (n : nat) (seg : list stoken) : Prop :=
  exists f tgt body, target_seg (i_target i) tgt /\ body_seg f (i_instr i) (i_refs i) body /\
    seg = tgt ++ body ++ opt_seg tdbg (i_dbg i) /\ i_span i = cover seg /\
    n = form_errors f (fst (i_instr i)) /\ ok f (fst (i_instr i)).

(** Each instruction ends its line. *)
Inductive instrs_seg : list instruction -> nat -> list stoken -> Prop :=
| is_nil : instrs_seg [] 0 []
| is_cons i l n m pre seg post rest : newlines pre -> instr_seg i n seg -> newlines post -> post <> [] ->
    instrs_seg l m rest -> instrs_seg (i :: l) (n + m) (pre ++ seg ++ post ++ rest).

Definition block_seg (b : basic_block) (n : nat) (seg : list stoken) : Prop :=
  exists label comma nls rest,
    bb_label b = Some label /\ bb_label_comma b = Some comma /\ newlines nls /\ nls <> [] /\
    instrs_seg (bb_instrs b) n rest /\
    seg = tident label :: tp (ch ":") comma :: nls ++ rest /\
    bb_span b = mkSpan (sp_start (snd label)) (last_end_of (bb_instrs b) (sp_end (snd label))).
Inductive blocks_seg : list basic_block -> nat -> list stoken -> Prop :=
| bks_nil : blocks_seg [] 0 []
| bks_cons b l n m seg rest : block_seg b n seg -> blocks_seg l m rest ->
    blocks_seg (b :: l) (n + m) (seg ++ rest).

(** The unlabelled first block, if any. *)
Definition first_block_seg (o : option basic_block) (n : nat) (seg : list stoken) : Prop :=
  match o with
  | None => seg = [] /\ n = 0
  | Some b => bb_label b = None /\ bb_label_comma b = None /\ instrs_seg (bb_instrs b) n seg /\
      exists i r, bb_instrs b = i :: r /\
        bb_span b = mkSpan (sp_start (i_span i)) (last_end_of (bb_instrs b) 0)
  end.
Definition fbody_seg (b : func_body) (n : nat) (seg : list stoken) : Prop :=
  exists nls o n1 seg1 bbs n2 seg2,
    newlines nls /\ nls <> [] /\ first_block_seg o n1 seg1 /\ blocks_seg bbs n2 seg2 /\
    fb_blocks b = match o with Some x => x :: bbs | None => bbs end /\ n = n1 + n2 /\
    seg = tp (ch "{") (fb_open b) :: nls ++ seg1 ++ seg2 ++ [tp (ch "}") (fb_close b)].

(** [stmt_seg s n seg rest]: [s] is written as [seg] in front of [rest]. *)
Inductive stmt_seg : statement -> nat -> list stoken -> list stoken -> Prop :=
| ss_var x d eq e rest : no_newline d -> eol_seg e rest ->
    stmt_seg (SGlobalVar x d) 0 (tglobal x :: tp (ch "=") eq :: d ++ e) rest
| ss_decl kw sig sseg addr aseg dbg e rest : sig_seg sig sseg ->
    match addr with Some a => exists eq, aseg = [tp (ch "=") eq; thex a] | None => aseg = [] end ->
    eol_seg e rest ->
    stmt_seg (SFuncDecl sig addr dbg) 0
      ((TDeclare, kw) :: sseg ++ aseg ++ opt_seg tdbg dbg ++ e) rest
| ss_def kw sig sseg body n bseg e rest : sig_seg sig sseg -> fbody_seg body n bseg -> eol_seg e rest ->
    stmt_seg (SFuncDef kw sig body) n ((TDefine, kw) :: sseg ++ bseg ++ e) rest
| ss_deps x k1 k2 deps dseg rest : comma_sep (fun a s => s = [tglobal a]) deps dseg -> deps_stop deps rest ->
    stmt_seg (SFuncDeps x deps) 0
      (tglobal x :: tkw (str "depends") k1 :: tkw (str "on") k2 :: dseg) rest
| ss_dbg x d eq e rest : no_newline d -> eol_seg e rest ->
    stmt_seg (SDbgAnnotation x d) 0 (tdbg x :: tp (ch "=") eq :: d ++ e) rest.

(** Statements one after the other, in front of [rest]. *)
Inductive stmts_seg : list statement -> nat -> list stoken -> list stoken -> Prop :=
| sts_nil rest : stmts_seg [] 0 [] rest
| sts_cons s n ss m pre seg post toks rest : newlines pre -> newlines post ->
    stmt_seg s n seg (post ++ toks ++ rest) -> stmts_seg ss m toks rest ->
    stmts_seg (s :: ss) (n + m) (pre ++ seg ++ post ++ toks) rest.

(** A module: statements separated by newlines; each run of skipped tokens in
    front of a statement is an error (plus the errors of the statement that was
    tried first). *)
Inductive module_seg : list statement -> nat -> list stoken -> Prop :=
| ms_nil : module_seg [] 0 []
| ms_cons s n ss m pre seg post rest : newlines pre -> newlines post ->
    stmt_seg s n seg (post ++ rest) -> module_seg ss m rest ->
    module_seg (s :: ss) (n + m) (pre ++ seg ++ post ++ rest)
| ms_skip g k s n ss m pre seg post rest : g <> [] -> newlines pre -> newlines post ->
    stmt_seg s n seg (post ++ rest) -> module_seg ss m rest ->
    module_seg (s :: ss) (1 + k + n + m) (g ++ pre ++ seg ++ post ++ rest).
End Grammar.

Definition any_form (f : form) (m : text) : Prop := True.
(** Well-formed instructions: branch mnemonics only with their targets. *)
Definition proper_form (f : form) (m : text) : Prop :=
  match f with
  | FOverflow => ends_with m (str "br") = true /\ m <> str "br"
  | FOther => ends_with m (str "br") = false /\ m <> str "switch" /\ m <> str "phi"
  | _ => True
  end.

(** Tokens a statement can start with. *)
Definition starts_statement (t : token) : Prop :=
  match t with TGlobalName _ | TDeclare | TDefine | TDebugRef _ => True | _ => False end.
(** Junk: no token of it starts a statement, and it is not just newlines. *)
Definition junk (g : list stoken) : Prop :=
  Forall (fun t => ~ starts_statement (fst t)) g /\ exists t, In t g /\ fst t <> TNewline.

(** ** Contents of a syntax tree *)

(** The tokens a tree claims to contain, in document order. *)
Definition sig_tokens (s : func_sig) : list stoken :=
  map tmod (fs_modifiers s) ++ [ttype (fs_ret s); tglobal (fs_name s)] ++
  flat_map (fun a => [ttype (fa_type a); tlocal (fa_name a)]) (fs_args s).
Definition instr_tokens (i : instruction) : list stoken :=
  opt_seg tlocal (i_target i) ++ [tident (i_instr i)] ++ map tident (i_refs i) ++ opt_seg tdbg (i_dbg i).
Definition bb_tokens (b : basic_block) : list stoken :=
  opt_seg tident (bb_label b) ++ opt_seg (tp (ch ":")) (bb_label_comma b) ++ flat_map instr_tokens (bb_instrs b).
Definition stmt_tokens (s : statement) : list stoken :=
  match s with
  | SGlobalVar x d => tglobal x :: d
  | SFuncDecl sig addr dbg => sig_tokens sig ++ opt_seg thex addr ++ opt_seg tdbg dbg
  | SFuncDef kw sig body =>
      (TDefine, kw) :: sig_tokens sig ++ [tp (ch "{") (fb_open body)] ++
      flat_map bb_tokens (fb_blocks body) ++ [tp (ch "}") (fb_close body)]
  | SFuncDeps x deps => tglobal x :: map tglobal deps
  | SDbgAnnotation x d => tdbg x :: d
  end.

Inductive subseq {A} : list A -> list A -> Prop :=
| sub_nil : subseq [] []
| sub_skip l x r : subseq l r -> subseq l (x :: r)
| sub_keep x l r : subseq l r -> subseq (x :: l) (x :: r).

(** Non-empty ranges one after the other. *)
Inductive ranges_in_order : nat -> list span -> Prop :=
| ro_nil n : ranges_in_order n []
| ro_cons n s l : n <= sp_start s -> sp_start s < sp_end s -> ranges_in_order (sp_end s) l ->
    ranges_in_order n (s :: l).

Definition inside (s outer : span) : Prop := sp_start outer <= sp_start s /\ sp_end s <= sp_end outer.

(** Range of a function: from the keyword to the closing brace. *)
Definition func_ranges (s : statement) : list span :=
  match s with SFuncDef kw _ body => [mkSpan (sp_start kw) (sp_end (fb_close body))] | _ => [] end.
Definition label_spans (b : basic_block) : list span :=
  match bb_label b, bb_label_comma b with Some l, Some c => [snd l; c] | _, _ => [] end.
(** A function is laid out in order: keyword, name, opening brace, blocks,
    closing brace; in each block the label and the instructions; in each
    instruction its names. *)
Definition well_nested (s : statement) : Prop :=
  match s with
  | SFuncDef kw sig body =>
      ranges_in_order 0 ([kw; snd (fs_name sig); fb_open body] ++ map bb_span (fb_blocks body) ++ [fb_close body]) /\
      forall b, In b (fb_blocks body) ->
        ranges_in_order (sp_start (bb_span b)) (label_spans b ++ map i_span (bb_instrs b)) /\
        Forall (fun i => inside (i_span i) (bb_span b)) (bb_instrs b) /\
        forall i, In i (bb_instrs b) ->
          ranges_in_order (sp_start (i_span i)) (map snd (instr_tokens i)) /\
          Forall (fun t => inside (snd t) (i_span i)) (instr_tokens i)
  | _ => True
  end.
