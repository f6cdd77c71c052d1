(** The parts of chumsky 0.9.3 (Cargo.lock) used by src/hir_tokenizer.rs and
    src/hir_parser.rs.

    A stream is the list of remaining (item, span) pairs: an offset into the
    buffer of chumsky's [Stream] is represented by the corresponding suffix,
    so [save]/[revert] are just keeping the old list.  [eoi] is the
    end-of-input span of the stream.

    [PResult] = (secondary errors, Ok (output, alternative error) | Err error).
    The stream position after [Err] is not represented: every combinator that
    goes on after an error reverts the stream first.

    Panics ([repeated] over an iteration that consumes nothing) are the
    explicit outcome [PPanic]; it is also what running out of the model's fuel
    gives, so a theorem that excludes [PPanic] excludes both.

    chumsky is a dependency, not part of /repo: this file is its contract, as
    remembered from version 0.9; see DESIGN.md, "Trusted base". *)
From Verif Require Import Text.

Inductive reason := Unexpected | CustomMsg (msg : text).

(** chumsky::error::Simple (label is never set by this project;
    SimpleReason::Unclosed is only created by nested_delimiters, unused). *)
Record simple (I : Type) := mkSimple {
  e_span : span;
  e_reason : reason;
  e_expected : list (option I);      (* HashSet<Option<I>>: order irrelevant *)
  e_found : option I;
}.
Arguments mkSimple {I}. Arguments e_span {I}. Arguments e_reason {I}.
Arguments e_expected {I}. Arguments e_found {I}.

(** Located error.  chumsky stores the offset [at]; here the number of
    remaining items at that offset, so "further" means fewer remaining. *)
Record located (I : Type) := mkLoc { l_rem : nat; l_err : simple I }.
Arguments mkLoc {I}. Arguments l_rem {I}. Arguments l_err {I}.

Inductive pres (I O : Type) :=
| POk (errs : list (located I)) (out : O) (alt : option (located I)) (rest : list (I * span))
| PErr (errs : list (located I)) (err : located I)
| PPanic.
Arguments POk {I O}. Arguments PErr {I O}. Arguments PPanic {I O}.

Section Combinators.
Context {I : Type}.
Variable eqb : I -> I -> bool.     (* PartialEq *)
Variable eoi : span.               (* Stream::eoi *)

Definition stream := list (I * span).
Definition parser (O : Type) := stream -> pres I O.

(** Simple::merge: reasons and span of [self] win, expected sets are united. *)
Definition merge (a b : simple I) : simple I :=
  mkSimple (e_span a) (e_reason a) (e_expected a ++ e_expected b) (e_found a).

(** Located::max: the error further into the input, merged on a tie. *)
Definition loc_max (a : located I) (b : option (located I)) : located I :=
  match b with
  | None => a
  | Some b =>
      if l_rem a <? l_rem b then a
      else if l_rem b <? l_rem a then b
      else mkLoc (l_rem a) (merge (l_err a) (l_err b))
  end.

(** merge_alts *)
Definition merge_alts (a b : option (located I)) : option (located I) :=
  match a with
  | None => b
  | Some a => Some (loc_max a b)
  end.

(** Error at the current item: span of the item, or eoi at the end. *)
Definition err_here (st : stream) (expected : list (option I)) : located I :=
  match st with
  | [] => mkLoc 0 (mkSimple eoi Unexpected expected None)
  | (x, sp) :: _ => mkLoc (length st) (mkSimple sp Unexpected expected (Some x))
  end.

(** Stream::span_since *)
Definition last_end (dflt : nat) (l : stream) : nat :=
  match rev l with [] => dflt | (_, sp) :: _ => sp_end sp end.
Definition span_since (from now : stream) : span :=
  match from with
  | [] => mkSpan (sp_start eoi) (sp_end eoi)
  | (_, sp) :: _ =>
      mkSpan (sp_start sp)
             (last_end (sp_end sp) (firstn (length from - length now) from))
  end.

(** filter *)
Definition p_filter (f : I -> bool) : parser I := fun st =>
  match st with
  | (x, _) :: r => if f x then POk [] x None r else PErr [] (err_here st [])
  | [] => PErr [] (err_here st [])
  end.

(** any *)
Definition p_any : parser I := p_filter (fun _ => true).

(** filter_map: the closure returns the output or a custom message. *)
Definition p_filter_map {O} (f : span -> I -> O + text) : parser O := fun st =>
  match st with
  | (x, sp) :: r =>
      match f sp x with
      | inl o => POk [] o None r
      | inr m => PErr [] (mkLoc (length st) (mkSimple sp (CustomMsg m) [] None))
      end
  | [] => PErr [] (err_here st [])
  end.

(** just (single item) *)
Definition p_just (x : I) : parser I := fun st =>
  match st with
  | (y, _) :: r => if eqb y x then POk [] x None r else PErr [] (err_here st [Some x])
  | [] => PErr [] (err_here st [Some x])
  end.

(** just (sequence) *)
Fixpoint p_just_seq (xs : list I) : parser unit := fun st =>
  match xs with
  | [] => POk [] tt None st
  | x :: xs' =>
      match p_just x st with
      | POk _ _ _ r => p_just_seq xs' r
      | PErr es e => PErr es e
      | PPanic => PPanic
      end
  end.

(** one_of / none_of *)
Definition p_one_of (xs : list I) : parser I := fun st =>
  match st with
  | (y, _) :: r => if existsb (eqb y) xs then POk [] y None r
                   else PErr [] (err_here st (map Some xs))
  | [] => PErr [] (err_here st (map Some xs))
  end.
Definition p_none_of (xs : list I) : parser I := fun st =>
  match st with
  | (y, _) :: r => if existsb (eqb y) xs then PErr [] (err_here st []) else POk [] y None r
  | [] => PErr [] (err_here st [])
  end.

(** end *)
Definition p_end : parser unit := fun st =>
  match st with
  | [] => POk [] tt None st
  | _ => PErr [] (err_here st [None])
  end.

(** map / to / ignored *)
Definition p_map {A B} (p : parser A) (f : A -> B) : parser B := fun st =>
  match p st with
  | POk es a alt r => POk es (f a) alt r
  | PErr es e => PErr es e
  | PPanic => PPanic
  end.
Definition p_to {A B} (p : parser A) (b : B) : parser B := p_map p (fun _ => b).

(** map_with_span *)
Definition p_map_with_span {A B} (p : parser A) (f : A -> span -> B) : parser B := fun st =>
  match p st with
  | POk es a alt r => POk es (f a (span_since st r)) alt r
  | PErr es e => PErr es e
  | PPanic => PPanic
  end.

(** then / ignore_then / then_ignore *)
Definition p_then {A B} (p : parser A) (q : parser B) : parser (A * B) := fun st =>
  match p st with
  | PPanic => PPanic
  | PErr es e => PErr es e
  | POk es a alt r =>
      match q r with
      | PPanic => PPanic
      | PErr es' e => PErr (es ++ es') (loc_max e alt)
      | POk es' b alt' r' => POk (es ++ es') (a, b) (merge_alts alt alt') r'
      end
  end.
Definition p_ignore_then {A B} (p : parser A) (q : parser B) : parser B :=
  p_map (p_then p q) snd.
Definition p_then_ignore {A B} (p : parser A) (q : parser B) : parser A :=
  p_map (p_then p q) fst.

(** padded_by / delimited_by *)
Definition p_padded_by {A B} (p : parser A) (pad : parser B) : parser A :=
  p_then_ignore (p_ignore_then pad p) pad.
Definition p_delimited_by {A B C} (p : parser A) (l : parser B) (r : parser C) : parser A :=
  p_then_ignore (p_ignore_then l p) r.

(** or.  The second alternative is tried when the first one fails or succeeds
    with secondary errors; an alternative that succeeds without secondary
    errors wins at once; success beats failure; if both succeed with errors
    the one whose last error is further in the input wins. *)
Definition p_or {A} (p q : parser A) : parser A := fun st =>
  match p st with
  | PPanic => PPanic
  | POk [] a alt r => POk [] a alt r
  | a_res =>
      match q st with
      | PPanic => PPanic
      | POk [] b alt r => POk [] b alt r
      | b_res =>
          match a_res, b_res with
          | POk aes a aalt ar, POk bes b balt br =>
              let ra := match rev aes with [] => 0 | e :: _ => l_rem e end in
              let rb := match rev bes with [] => 0 | e :: _ => l_rem e end in
              if rb <? ra then POk bes b balt br else POk aes a aalt ar
          | POk aes a aalt ar, PErr _ be => POk aes a (merge_alts aalt (Some be)) ar
          | PErr _ ae, POk bes b balt br => POk bes b (merge_alts balt (Some ae)) br
          | PErr aes ae, PErr bes be =>
              if l_rem be <? l_rem ae then PErr bes be
              else if l_rem ae <? l_rem be then PErr aes ae
              else PErr aes (loc_max ae (Some be))
          | _, _ => PPanic
          end
      end
  end.

(** choice over a tuple: the first alternative that succeeds; the errors of
    the alternatives before it are forgotten. *)
Fixpoint p_choice_from {A} (alt : option (located I)) (ps : list (parser A)) : parser A := fun st =>
  match ps with
  | [] => match alt with
          | Some e => PErr [] e
          | None => PErr [] (err_here st [])      (* empty choice: does not occur *)
          end
  | p :: ps' =>
      match p st with
      | PPanic => PPanic
      | POk es a a_alt r => POk es a a_alt r
      | PErr _ e => p_choice_from (merge_alts alt (Some e)) ps' st
      end
  end.
Definition p_choice {A} (ps : list (parser A)) : parser A := p_choice_from None ps.

(** or_not *)
Definition p_or_not {A} (p : parser A) : parser (option A) := fun st =>
  match p st with
  | POk es a alt r => POk es (Some a) alt r
  | PErr _ e => POk [] None (Some e) st
  | PPanic => PPanic
  end.

(** not: one item, provided [p] fails here *)
Definition p_not {A} (p : parser A) : parser I := fun st =>
  match p st with
  | PPanic => PPanic
  | POk _ _ _ _ => PErr [] (err_here st [])
  | PErr _ _ =>
      match st with
      | (x, _) :: r => POk [] x None r
      | [] => PErr [] (err_here st [])
      end
  end.

(** rewind *)
Definition p_rewind {A} (p : parser A) : parser A := fun st =>
  match p st with
  | POk es a alt _ => POk es a alt st
  | PErr es e => PErr es e
  | PPanic => PPanic
  end.

(** repeated().at_least(n).  [old] is the remaining length after the previous
    iteration: an iteration that ends where the previous one ended panics. *)
Fixpoint p_rep {A} (fuel : nat) (p : parser A) (at_least : nat) (old : option nat)
    (errs : list (located I)) (outs : list A) (alt : option (located I)) : parser (list A) := fun st =>
  match fuel with
  | 0 => PPanic
  | S fuel' =>
      match p st with
      | PPanic => PPanic
      | POk es a a_alt r =>
          if match old with Some n => n =? length r | None => false end then PPanic
          else p_rep fuel' p at_least (Some (length r)) (errs ++ es) (outs ++ [a])
                     (merge_alts alt a_alt) r
      | PErr es e =>
          if length outs <? at_least then PErr (errs ++ es) (loc_max e alt)
          else POk errs outs (merge_alts alt (Some e)) st
      end
  end.
Definition p_repeated_at_least {A} (n : nat) (p : parser A) : parser (list A) := fun st =>
  p_rep (length st + 3) p n None [] [] None st.
Definition p_repeated {A} (p : parser A) : parser (list A) := p_repeated_at_least 0 p.

(** separated_by (no leading or trailing separator, no minimum).  A separator
    that is not followed by an item is not consumed. *)
Fixpoint p_sep_tail {A B} (fuel : nat) (item : parser A) (sep : parser B)
    (errs : list (located I)) (outs : list A) (alt : option (located I)) : parser (list A) := fun st =>
  match fuel with
  | 0 => PPanic
  | S fuel' =>
      match sep st with
      | PPanic => PPanic
      | PErr es e => POk (errs ++ es) outs (merge_alts alt (Some e)) st
      | POk es _ d_alt r =>
          match item r with
          | PPanic => PPanic
          | PErr es' e => POk (errs ++ es ++ es') outs (merge_alts (merge_alts alt d_alt) (Some e)) st
          | POk es' a a_alt r' =>
              p_sep_tail fuel' item sep (errs ++ es ++ es') (outs ++ [a])
                         (merge_alts (merge_alts alt d_alt) a_alt) r'
          end
      end
  end.
Definition p_separated_by {A B} (item : parser A) (sep : parser B) : parser (list A) := fun st =>
  match item st with
  | PPanic => PPanic
  | PErr es e => POk es [] (Some e) st
  | POk es a alt r => p_sep_tail (length st + 3) item sep es [a] alt r
  end.

(** validate: the closure may emit one custom error (located at the position
    after the parsed input). *)
Definition p_validate {A} (p : parser A) (f : A -> option text) : parser A := fun st =>
  match p st with
  | POk es a alt r =>
      match f a with
      | None => POk es a alt r
      | Some m =>
          POk (es ++ [mkLoc (length r) (mkSimple (span_since st r) (CustomMsg m) [] None)]) a alt r
      end
  | PErr es e => PErr es e
  | PPanic => PPanic
  end.

(** take_until: items up to the first place where [p] succeeds. *)
Fixpoint p_take_until_from {B} (p : parser B) (outs : list I) (alt : option (located I))
    (st : stream) : pres I (list I * B) :=
  match p st with
  | PPanic => PPanic
  | POk es b a_alt r => POk es (outs, b) (merge_alts alt a_alt) r
  | PErr es e =>
      match st with
      | [] => PErr es (loc_max e (Some (err_here st [])))
      | (x, _) :: r => p_take_until_from p (outs ++ [x]) (merge_alts alt (Some e)) r
      end
  end.
Definition p_take_until {B} (p : parser B) : parser (list I * B) :=
  p_take_until_from p [] None.

(** recover_with(skip_then_retry_until([])).  On failure the stream is back at
    the start of the failed parser; items are skipped one at a time and the
    parser retried, until it succeeds or the input ends.  The errors of a
    successful retry come before the error of the failed attempt, whose
    secondary errors [errs] are only kept if no retry succeeds. *)
Fixpoint p_retry {A} (p : parser A) (errs : list (located I)) (fatal : located I)
    (st : stream) : pres I A :=
  match p st with
  | PPanic => PPanic
  | POk es a alt r => POk (es ++ [fatal]) a alt r
  | PErr _ _ =>
      match st with
      | [] => PErr errs fatal
      | _ :: r => p_retry p errs fatal r
      end
  end.
Definition p_recover {A} (p : parser A) : parser A := fun st =>
  match p st with
  | PPanic => PPanic
  | POk es a alt r => POk es a alt r
  | PErr es e =>
      (* the first item is always skipped before retrying; at the end of the
         input there is nothing to skip *)
      p_retry p es e (match st with [] => [] | _ :: r => r end)
  end.

(** parse_recovery: output if any, and all errors. *)
Definition parse_recovery {A} (p : parser A) (st : stream) : res (option A * list (simple I)) :=
  match p st with
  | POk es a _ _ => Val (Some a, map l_err es)
  | PErr es e => Val (None, map l_err (es ++ [e]))
  | PPanic => Panic
  end.

End Combinators.
