(** Specifications for src/backtrace.rs, independent of the model functions. *)
From Verif Require Import Text Backtrace.

(** [r] is the part of [path] after the last separator. *)
Definition is_separator (c : char) : Prop := c = ch "/" \/ c = ch "\".
Definition basename_of (path r : text) : Prop :=
  exists pre, path = pre ++ r /\ (forall c, In c r -> ~ is_separator c) /\
              (pre = [] \/ exists pre' c, pre = pre' ++ [c] /\ is_separator c).

(** [pat] occurs in [t]. *)
Definition occurs_in (pat t : text) : Prop := exists a b, t = a ++ pat ++ b.

(** Characters that may appear in a Markdown code span. *)
Definition md_allowed (u : uclass) (c : char) : Prop :=
  is_alphabetic u c = true \/ is_numeric u c = true \/ is_whitespace u c = true \/
  In c (str ".,:+-=/*<>_").

(** Value of a decimal digit string. *)
Definition decimal_value (ds : text) : N := fold_left (fun a c => (10 * a + (c - 48))%N) ds 0%N.

(** [x] is a decimal u32 literal (optional plus sign, at least one digit). *)
Definition is_u32 (x : text) (n : N) : Prop :=
  exists ds, (x = ds \/ x = ch "+" :: ds) /\ ds <> [] /\
             (forall c, In c ds -> (48 <= c <= 57)%N) /\ n = decimal_value ds /\ (n < 4294967296)%N.

(** [x] has the form path:line with exactly one colon. *)
Definition is_file_line (x fp : text) (n : N) : Prop :=
  exists l, x = fp ++ ch ":" :: l /\ ~ In (ch ":") fp /\ ~ In (ch ":") l /\ is_u32 l n.

(** The elements of a JSON frame. *)
Definition frame_name (j : json) : option text :=
  match j with JArr (JStr x :: _) => Some x | _ => None end.
Definition frame_link (j : json) : option text :=
  match j with JArr (_ :: JStr x :: _) => Some x | _ => None end.

(** [t] is cut at each [sep] into the pieces [l]. *)
Fixpoint glued (sep : char) (l : list text) : text :=
  match l with [] => [] | [x] => x | x :: r => x ++ sep :: glued sep r end.
Definition pieces (sep : char) (t : text) (l : list text) : Prop :=
  l <> [] /\ t = glued sep l /\ forall w, In w l -> ~ In sep w.
(** The URL [x] of [path] below the root [r]; the pieces [.] and [..] are left
    out (the url crate does so), and so are empty ones directly below the top. *)
Definition dots (x : text) : bool := text_eqb x (str ".") || text_eqb x (str "..").
Fixpoint skip_empty (l : list text) : list text :=
  match l with [] :: r => skip_empty r | _ => l end.
Definition below (r : url) (path : text) (x : url) : Prop :=
  exists l, pieces (ch "/") path l /\ url_base x = url_base r /\ url_can_be_base x = true /\
    url_segments x = match url_segments r, filter (fun n => negb (dots n)) l with
                     | segs, [] => segs
                     | [], names | [[]], names => match skip_empty names with [] => [[]] | s => s end
                     | segs, names => segs ++ names
                     end.
(** The first root below which [path] exists. *)
Definition found_below (fs : filesystem) (rs : list url) (path : text) (o : option url) : Prop :=
  match o with
  | Some x => exists pre r post, rs = pre ++ r :: post /\ below r path x /\ fs x = Some true /\
      forall r' x', In r' pre -> below r' path x' -> fs x' <> Some true
  | None => forall r' x', In r' rs -> below r' path x' -> fs x' <> Some true
  end.

(** Frame [f] is the reading of [j]. *)
Definition frame_reads (fs : filesystem) (roots : list url) (j : json) (f : frame) : Prop :=
  (match frame_name j, frame_link j with
   | Some (c :: n), _ => f_symbol f = c :: n
   | _, Some link => basename_of link (f_symbol f)
   | _, None => f_symbol f = str "<invalid>"
   end) /\
  (forall fp n, (f_filepath f = Some fp /\ f_line f = n) <->
                (exists link, frame_link j = Some link /\ is_file_line link fp n)) /\
  match f_filepath f with
  | Some fp => found_below fs roots fp (f_resolved f)
  | None => f_line f = 0%N /\ f_resolved f = None
  end.

(** The patterns in order of preference. *)
Definition preferred : list text :=
  [str "Translator::consume"; str "Translator::produceMaterializedResult";
   str "Translator::drivePipeline"; str "Translator::deriveValue"; str "Translator::"].
Definition internal_path (fp : text) : Prop :=
  occurs_in (str "hyper/ir/") fp \/ occurs_in (str "hyper/codegen") fp.

(** [i] is the first index of [l] satisfying [P]. *)
Definition first_index {A} (P : A -> Prop) (l : list A) (i : nat) : Prop :=
  (exists a, nth_error l i = Some a /\ P a) /\
  (forall j a, j < i -> nth_error l j = Some a -> ~ P a).

Definition relevant_frame (frames : list frame) (o : option nat) : Prop :=
  match o with
  | Some i =>
      (exists k p, nth_error preferred k = Some p /\
         first_index (fun f => occurs_in p (f_symbol f)) frames i /\
         (forall k' p' f, k' < k -> nth_error preferred k' = Some p' -> In f frames ->
                          ~ occurs_in p' (f_symbol f)))
      \/ ((forall p f, In p preferred -> In f frames -> ~ occurs_in p (f_symbol f)) /\
          first_index (fun f => exists fp, f_filepath f = Some fp /\ ~ internal_path fp) frames i)
  | None =>
      (forall p f, In p preferred -> In f frames -> ~ occurs_in p (f_symbol f)) /\
      (forall f fp, In f frames -> f_filepath f = Some fp -> internal_path fp)
  end.

(** Workspace roots that can have path segments (file URLs and the like). *)
Definition can_resolve (roots : list url) : Prop := forall r, In r roots -> url_can_be_base r = true.
