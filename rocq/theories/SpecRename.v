(** What renaming should do. *)
From Verif Require Import Text Rope Chumsky Tokenizer Parser Numbers Index SemTok Diag Rename Cfg Backtrace Server SpecText SpecParse SpecIndex SpecDiag SpecBacktrace SpecNumbers SpecCfg SpecView.

(** The character that marks names of a kind. *)
Definition sigil (k : symbol_kind) : text :=
  match k with
  | KGlobalVar | KFunction => [64%N]      (* @ *)
  | KDbgAnnotation => [33%N]              (* ! *)
  | KLocalVar => [37%N]                   (* % *)
  | KLabel => []
  end.
Definition name_char (u : uclass) (c : char) : Prop := is_alphanumeric u c = true \/ c = ch "_" \/ c = ch ":".
(** The user may leave out the sigil. *)
Definition without_sigil (k : symbol_kind) (new body : text) : Prop :=
  new = sigil k ++ body \/ (new = body /\ forall r, new <> sigil k ++ r).
(** [new] is accepted and stands for the name [final]. *)
Definition accepted (u : uclass) (k : symbol_kind) (new final : text) : Prop :=
  exists c body, without_sigil k new (c :: body) /\ final = sigil k ++ c :: body /\
    Forall (name_char u) (c :: body) /\ (is_numeric u c = true -> k = KDbgAnnotation).
(** Requests for relative renames start with a sign. *)
Definition signed (new : text) : Prop := exists r, new = ch "+" :: r \/ new = ch "-" :: r.

(** Ranges without common character. *)
Definition separate (a b : range_) : Prop := pos_le (r_end a) (r_start b) \/ pos_le (r_end b) (r_start a).
Definition pos_lt (a b : position_) : Prop := p_line a < p_line b \/ (p_line a = p_line b /\ p_char a < p_char b).
Definition nonempty (a : range_) : Prop := pos_lt (r_start a) (r_end a).
(** The edits replace the occurrences [x] for which [new x y] by [y], each once. *)
Definition replaces (src : text) (new : occurrence -> text -> Prop) (l : list occurrence) (edits : list text_edit) : Prop :=
  (forall ed, In ed edits <-> exists x y, In x l /\ new x y /\ ed = mkEdit (lsp_range src (o_span x)) y) /\
  ForallOrdPairs (fun a b => separate (te_range a) (te_range b)) edits /\
  Forall (fun a => nonempty (te_range a)) edits.
Definition renamed (o : occurrence) (final : text) (x : occurrence) (y : text) : Prop := same_symbol o x /\ y = final.

(** ** Relative renames *)
(** [x] is an optionally signed decimal literal of the i64 [z]. *)
Definition is_i64 (x : text) (z : Z) : Prop :=
  exists ds, ds <> [] /\ all_digits ds /\ (- 9223372036854775808 <= z < 9223372036854775808)%Z /\
    ((x = ds /\ z = Z.of_N (decimal_value ds)) \/ (x = ch "+" :: ds /\ z = Z.of_N (decimal_value ds)) \/
     (x = ch "-" :: ds /\ z = (- Z.of_N (decimal_value ds))%Z)).
Definition fits_i64 (z : Z) : Prop := (- 9223372036854775808 <= z < 9223372036854775808)%Z.
(** The shift a request asks for. *)
Definition asks_shift (new : text) (z : Z) : Prop :=
  exists r n, is_i64 r n /\ ((new = ch "+" :: r /\ z = n) \/ (new = ch "-" :: r /\ z = (- n)%Z)).
(** [name] has a number [n]. *)
Definition has_number (name : text) (n : N) : Prop := exists p ds, numbered name p ds n /\ (n <= max_i64)%N.
(** [name] is numbered from [n0] on; [name'] has the number moved by [z].  (A
    negative number loses its sign.) *)
Definition moves (n0 : N) (z : Z) (name name' : text) : Prop :=
  exists p ds n ds', numbered name p ds n /\ (n <= max_i64)%N /\ (n0 <= n)%N /\
    canonical_decimal (Z.abs_N (Z.of_N n + z)) ds' /\ name' = p ++ ds'.
(** All others keep their name. *)
Definition moves_or_stays (n0 : N) (z : Z) (name name' : text) : Prop :=
  moves n0 z name name' \/ ((forall n, has_number name n -> (n < n0)%N) /\ name' = name).
Definition in_scope (o x : occurrence) : Prop := o_kind x = o_kind o /\ o_body x = o_body o.
Definition moved (o : occurrence) (n0 : N) (z : Z) (x : occurrence) (y : text) : Prop :=
  in_scope o x /\ moves n0 z (o_name x) y.
(** No number or its absolute value leaves the 64 bit range. *)
Definition no_overflow (l : list occurrence) (o : occurrence) (n0 : N) (z : Z) : Prop :=
  fits_i64 z /\ forall x n, In x l -> in_scope o x -> has_number (o_name x) n -> (n0 <= n)%N -> fits_i64 (Z.abs (Z.of_N n + z)).
Definition no_leading_zeros (name : text) : Prop := forall p ds n, numbered name p ds n -> canonical_decimal n ds.
