(** The grammar with its rules of preference: what the document has to look like
    to be accepted without errors, and which of several readings of an
    instruction counts.  Independent of the combinators, like SpecParse.v. *)
From Verif Require Import Text Tokenizer Parser SpecParse.

(** [st] begins with an instruction of form [f], without complaint, in front of
    the line break at the start of [rest]. *)
Definition reads (f : form) (m : spanned) (refs : list spanned) (dbg : option spanned) (st rest : list stoken) : Prop :=
  exists body, body_seg f m refs body /\ form_errors f (fst m) = 0 /\
    st = body ++ opt_seg tdbg dbg ++ rest /\ exists sp q, rest = tnl sp :: q.

(** Forms with targets come first, in this order. *)
Definition rank (f : form) : nat :=
  match f with FBr => 0 | FCond => 1 | FOverflow => 2 | FSwitch => 3 | FPhi => 4 | FOther => 5 end.
Definition preferred (f : form) (st : list stoken) : Prop :=
  forall f' m refs dbg rest, reads f' m refs dbg st rest -> rank f <= rank f'.

(** [instr_at i seg rest]: [i] is written as [seg] in front of [rest]. *)
Definition instr_at (i : instruction) (seg rest : list stoken) : Prop :=
  exists f tgt st, target_seg (i_target i) tgt /\ seg ++ rest = tgt ++ st /\
    reads f (i_instr i) (i_refs i) (i_dbg i) st rest /\ preferred f st /\ i_span i = cover seg.

Inductive instrs_at : list instruction -> list stoken -> list stoken -> Prop :=
| ia_nil rest : instrs_at [] [] rest
| ia_cons i l pre seg post more rest : newlines pre -> newlines post -> post <> [] ->
    instr_at i seg (post ++ more ++ rest) -> instrs_at l more rest ->
    instrs_at (i :: l) (pre ++ seg ++ post ++ more) rest.

Definition block_at (b : basic_block) (seg rest : list stoken) : Prop :=
  exists label comma nls more,
    bb_label b = Some label /\ bb_label_comma b = Some comma /\ newlines nls /\ nls <> [] /\
    instrs_at (bb_instrs b) more rest /\
    seg = tident label :: tp (ch ":") comma :: nls ++ more /\
    bb_span b = mkSpan (sp_start (snd label)) (last_end_of (bb_instrs b) (sp_end (snd label))).
Inductive blocks_at : list basic_block -> list stoken -> list stoken -> Prop :=
| ba_nil rest : blocks_at [] [] rest
| ba_cons b l seg more rest : block_at b seg (more ++ rest) -> blocks_at l more rest ->
    blocks_at (b :: l) (seg ++ more) rest.

Definition first_block_at (o : option basic_block) (seg rest : list stoken) : Prop :=
  match o with
  | None => seg = []
  | Some b => bb_label b = None /\ bb_label_comma b = None /\ instrs_at (bb_instrs b) seg rest /\
      exists i r, bb_instrs b = i :: r /\
        bb_span b = mkSpan (sp_start (i_span i)) (last_end_of (bb_instrs b) 0)
  end.
Definition fbody_at (b : func_body) (seg rest : list stoken) : Prop :=
  exists nls o seg1 bbs seg2,
    newlines nls /\ nls <> [] /\ first_block_at o seg1 (seg2 ++ tp (ch "}") (fb_close b) :: rest) /\
    blocks_at bbs seg2 (tp (ch "}") (fb_close b) :: rest) /\
    fb_blocks b = match o with Some x => x :: bbs | None => bbs end /\
    seg = tp (ch "{") (fb_open b) :: nls ++ seg1 ++ seg2 ++ [tp (ch "}") (fb_close b)].

Definition stmt_at (s : statement) (seg rest : list stoken) : Prop :=
  match s with
  | SFuncDef kw sig body => exists sseg bseg e, sig_seg sig sseg /\ fbody_at body bseg (e ++ rest) /\ eol_seg e rest /\
      seg = (TDefine, kw) :: sseg ++ bseg ++ e
  | _ => stmt_seg any_form s 0 seg rest
  end.

(** A module; blank lines are allowed around statements (but nothing else than
    blank lines is not a module). *)
Inductive module_at : list statement -> list stoken -> Prop :=
| ma_nil : module_at [] []
| ma_cons s ss pre seg post rest : newlines pre -> newlines post ->
    stmt_at s seg (post ++ rest) -> module_at ss rest ->
    module_at (s :: ss) (pre ++ seg ++ post ++ rest).
