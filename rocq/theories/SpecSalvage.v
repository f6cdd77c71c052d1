(** The grammar for documents with errors: what is read of them and how many
    errors are reported.  It extends SpecExact.v by the one construct that is
    read with a complaint and by what happens to tokens that cannot be read.
    Independent of the combinators. *)
From Verif Require Import Text Tokenizer Parser SpecParse SpecExact.

(** As [reads], with [n] complaints: the targets of an arithmetic branch after
    another mnemonic are one. *)
Definition reads_with (f : form) (n : nat) (m : spanned) (refs : list spanned) (dbg : option spanned) (st rest : list stoken) : Prop :=
  exists body, body_seg f m refs body /\ n = form_errors f (fst m) /\
    st = body ++ opt_seg tdbg dbg ++ rest /\ exists sp q, rest = tnl sp :: q.
(** Fewer complaints count more than the order of the forms. *)
Definition best (f : form) (n : nat) (st : list stoken) : Prop :=
  forall f' n' m refs dbg rest, reads_with f' n' m refs dbg st rest -> n < n' \/ n = n' /\ rank f <= rank f'.

Definition instr_in (i : instruction) (n : nat) (seg rest : list stoken) : Prop :=
  exists f tgt st, target_seg (i_target i) tgt /\ seg ++ rest = tgt ++ st /\
    reads_with f n (i_instr i) (i_refs i) (i_dbg i) st rest /\ best f n st /\ i_span i = cover seg.

Inductive instrs_in : list instruction -> nat -> list stoken -> list stoken -> Prop :=
| ii_nil rest : instrs_in [] 0 [] rest
| ii_cons i l n m pre seg post more rest : newlines pre -> newlines post -> post <> [] ->
    instr_in i n seg (post ++ more ++ rest) -> instrs_in l m more rest ->
    instrs_in (i :: l) (n + m) (pre ++ seg ++ post ++ more) rest.

Definition block_in (b : basic_block) (n : nat) (seg rest : list stoken) : Prop :=
  exists label comma nls more,
    bb_label b = Some label /\ bb_label_comma b = Some comma /\ newlines nls /\ nls <> [] /\
    instrs_in (bb_instrs b) n more rest /\
    seg = tident label :: tp (ch ":") comma :: nls ++ more /\
    bb_span b = mkSpan (sp_start (snd label)) (last_end_of (bb_instrs b) (sp_end (snd label))).
Inductive blocks_in : list basic_block -> nat -> list stoken -> list stoken -> Prop :=
| bi_nil rest : blocks_in [] 0 [] rest
| bi_cons b l n m seg more rest : block_in b n seg (more ++ rest) -> blocks_in l m more rest ->
    blocks_in (b :: l) (n + m) (seg ++ more) rest.

Definition first_block_in (o : option basic_block) (n : nat) (seg rest : list stoken) : Prop :=
  match o with
  | None => seg = [] /\ n = 0
  | Some b => bb_label b = None /\ bb_label_comma b = None /\ instrs_in (bb_instrs b) n seg rest /\
      exists i r, bb_instrs b = i :: r /\
        bb_span b = mkSpan (sp_start (i_span i)) (last_end_of (bb_instrs b) 0)
  end.
Definition fbody_in (b : func_body) (n : nat) (seg rest : list stoken) : Prop :=
  exists nls o n1 seg1 bbs n2 seg2,
    newlines nls /\ nls <> [] /\ first_block_in o n1 seg1 (seg2 ++ tp (ch "}") (fb_close b) :: rest) /\
    blocks_in bbs n2 seg2 (tp (ch "}") (fb_close b) :: rest) /\
    fb_blocks b = match o with Some x => x :: bbs | None => bbs end /\ n = n1 + n2 /\
    seg = tp (ch "{") (fb_open b) :: nls ++ seg1 ++ seg2 ++ [tp (ch "}") (fb_close b)].

(** [stmt_in s n seg rest]: [s] is written as [seg] in front of [rest], with [n]
    complaints. *)
Definition stmt_in (s : statement) (n : nat) (seg rest : list stoken) : Prop :=
  match s with
  | SFuncDef kw sig body => exists sseg bseg e, sig_seg sig sseg /\ fbody_in body n bseg (e ++ rest) /\ eol_seg e rest /\
      seg = (TDefine, kw) :: sseg ++ bseg ++ e
  | _ => n = 0 /\ stmt_seg any_form s 0 seg rest
  end.

(** [next st s n rest]: [s] stands at the start of [st], between blank lines. *)
Definition next (st : list stoken) (s : statement) (n : nat) (rest : list stoken) : Prop :=
  exists pre seg post, newlines pre /\ newlines post /\ (forall sp q, rest <> tnl sp :: q) /\
    stmt_in s n seg (post ++ rest) /\ st = pre ++ seg ++ post ++ rest.
Definition unreadable (st : list stoken) : Prop := forall s n rest, ~ next st s n rest.

(** [salvage toks o n]: [o] is what is read of [toks], with [n] errors.  Where no
    statement can be read, tokens are dropped until one can, at the price of one
    error.  If none ever can, everything is lost, also what was read before. *)
Inductive salvage : list stoken -> option (list statement) -> nat -> Prop :=
| sv_end : salvage [] (Some []) 0
| sv_next st s n rest o m : next st s n rest -> salvage rest o m ->
    salvage st (option_map (cons s) o) (n + m)
| sv_skip g st s n rest o m : g <> [] ->
    (forall g1 g2, g = g1 ++ g2 -> g2 <> [] -> unreadable (g2 ++ st)) ->
    next st s n rest -> salvage rest o m ->
    salvage (g ++ st) (option_map (cons s) o) (1 + n + m)
| sv_lost st : st <> [] -> (forall g r, st = g ++ r -> unreadable r) -> salvage st None 1.
