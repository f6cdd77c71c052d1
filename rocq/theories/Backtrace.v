(** src/backtrace.rs *)
From Verif Require Import Text Rope Numbers Index Diag Parser.

(** serde_json::Value; only integers are needed as numbers *)
Inductive json :=
| JNull
| JBool (b : bool)
| JInt (z : Z)
| JFloat                       (* any non-integer number *)
| JStr (x : text)
| JArr (l : list json)
| JObj (l : list (text * json)).

Definition json_field (k : text) (j : json) : option json :=
  match j with JObj l => alookup k l | _ => None end.
Definition json_index (i : nat) (j : json) : option json :=
  match j with JArr l => nth_error l i | _ => None end.
Definition json_as_str (j : json) : option text := match j with JStr x => Some x | _ => None end.
Definition json_as_array (j : json) : option (list json) := match j with JArr l => Some l | _ => None end.

(** url::Url: everything before the path is [url_base]; the path is a list of
    segments ("/" is the one empty segment).  Percent-encoding is not
    modelled: segments are kept decoded.  [url_can_be_base] is false for
    cannot-be-a-base URLs such as [untitled:x]. *)
Record url := mkUrl { url_base : text; url_segments : list text; url_can_be_base : bool }.

(** PathSegmentsMut::extend: [.] and [..] are skipped *)
Definition push_segment (segs : list text) (x : text) : list text :=
  if text_eqb x (str ".") || text_eqb x (str "..") then segs
  else match segs with
       | [[]] => [x]
       | _ => segs ++ [x]
       end.
Definition extend_segments (segs : list text) (xs : list text) : list text :=
  fold_left push_segment xs segs.

(** The file system: None if the URL is not a local file path
    ([to_file_path] fails), otherwise whether the path exists. *)
Definition filesystem := url -> option bool.

(** src/backtrace.rs:8-18; [path_segments_mut().unwrap()] panics for a
    cannot-be-a-base root.  [find_map]: the first root that matches; roots
    after it are not touched. *)
Fixpoint resolve_relative_path (fs : filesystem) (roots : list url) (path : text) : res (option url) :=
  match roots with
  | [] => Val None
  | r :: rs =>
      if url_can_be_base r then
        let uri := mkUrl (url_base r) (extend_segments (url_segments r) (split_on (ch "/") path)) true in
        match fs uri with
        | Some true => Val (Some uri)
        | _ => resolve_relative_path fs rs path
        end
      else Panic
  end.

(** src/backtrace.rs:20-26 *)
Record frame := mkFrame {
  f_symbol : text;
  f_filepath : option text;
  f_line : N;
  f_resolved : option url;
}.

(** [str::rfind] of a one-byte character: byte offset of the last occurrence *)
Fixpoint rfind_byte (c : char) (t : text) (off : nat) : option nat :=
  match t with
  | [] => None
  | x :: r =>
      match rfind_byte c r (off + utf8_len x) with
      | Some i => Some i
      | None => if (x =? c)%N then Some off else None
      end
  end.

(** [std::cmp::max] on Option<usize>: None is smallest *)
Definition opt_max (a b : option nat) : option nat :=
  match a, b with
  | None, _ => b
  | _, None => a
  | Some x, Some y => Some (Nat.max x y)
  end.

Definition BACKSLASH : char := 92%N.

(** src/backtrace.rs:28-31; [split_at(..).1] panics off a char boundary *)
Definition shorten_filepath (path : text) : res text :=
  let sep := opt_max (rfind_byte (ch "/") path 0) (rfind_byte BACKSLASH path 0) in
  match drop_bytes (match sep with Some p => p + 1 | None => 0 end) path with
  | Some r => Val r
  | None => Panic
  end.

(** src/backtrace.rs:40-77, one frame *)
Definition parse_frame (fs : filesystem) (roots : list url) (j : json) : res frame :=
  let json_name := obind (json_index 0 j) json_as_str in
  let json_link := obind (json_index 1 j) json_as_str in
  rbind (match json_name, json_link with
         | Some (c :: n), _ => Val (c :: n)
         | _, Some link => shorten_filepath link
         | _, None => Val (str "<invalid>")
         end) (fun name =>
  let file_line := obind json_link parse_file_line in
  rbind (match file_line with
         | Some (fp, _) => resolve_relative_path fs roots fp
         | None => Val None
         end) (fun resolved =>
  Val (mkFrame name (option_map fst file_line)
               (match file_line with Some (_, n) => n | None => 0%N end) resolved))).

Fixpoint rmapM {A B} (f : A -> res B) (l : list A) : res (list B) :=
  match l with
  | [] => Val []
  | a :: r => rbind (f a) (fun b => rbind (rmapM f r) (fun bs => Val (b :: bs)))
  end.

(** src/backtrace.rs:33-80 *)
Definition parse_backtrace_from_json (fs : filesystem) (roots : list url) (j : json)
  : res (option (list frame)) :=
  match obind (json_field (str "backtrace") j) json_as_array with
  | None => Val None
  | Some l => rmap Some (rmapM (parse_frame fs roots) l)
  end.

(** src/backtrace.rs:84-90 *)
Definition symbol_preferences : list text :=
  map str ["Translator::consume"; "Translator::produceMaterializedResult";
           "Translator::drivePipeline"; "Translator::deriveValue"; "Translator::"]%string.

(** src/backtrace.rs:91-96 *)
Fixpoint find_preferred (prefs : list text) (frames : list frame) : option nat :=
  match prefs with
  | [] => None
  | p :: ps =>
      match position (fun f => contains (f_symbol f) p) frames with
      | Some i => Some i
      | None => find_preferred ps frames
      end
  end.

(** src/backtrace.rs:101-104 *)
Definition non_internal (f : frame) : bool :=
  match f_filepath f with
  | Some fp => negb (contains fp (str "hyper/ir/")) && negb (contains fp (str "hyper/codegen"))
  | None => false
  end.

(** src/backtrace.rs:82-105 *)
Definition identify_relevant_frames (frames : list frame) : option nat :=
  match find_preferred symbol_preferences frames with
  | Some i => Some i
  | None => position non_internal frames
  end.

(** src/backtrace.rs:109-137 *)
Definition markdown_safe : text := str ".,:+-=/*<>_".
Definition REPLACEMENT : char := 65533%N.
Definition sanitize_char (u : uclass) (c : char) : char :=
  if is_alphanumeric u c || is_whitespace u c then c
  else if existsb (N.eqb c) markdown_safe then c
  else REPLACEMENT.
Definition sanitize_markdown_code (u : uclass) (x : text) : text := map (sanitize_char u) x.

(** src/backtrace.rs:139-164.  [url_display] renders a URL. *)
Definition format_frame_as_md (u : uclass) (url_display : url -> text) (f : frame) : res text :=
  let sym := str "`" ++ sanitize_markdown_code u (f_symbol f) ++ str "`" in
  match f_filepath f with
  | None => Val sym
  | Some fp =>
      rbind (shorten_filepath fp) (fun short =>
      match f_resolved f with
      | Some r =>
          Val (sym ++ str " @ [" ++ short ++ str ":" ++ render_N (f_line f) ++ str "]("
               ++ url_display r ++ str "#" ++ render_N (f_line f) ++ str ")")
      | None => Val (sym ++ str " @ " ++ short ++ str ":" ++ render_N (f_line f))
      end)
  end.

(** src/backtrace.rs:166-172 *)
Definition backtrace_json_to_md (u : uclass) (url_display : url -> text) (frames : list frame) : res text :=
  rmap (fun l => join [LF] (map (fun x => str "* " ++ x) l))
       (rmapM (format_frame_as_md u url_display) frames).

Definition ELLIPSIS : char := 8230%N.

(** src/backtrace.rs:174-180; called with len = 50 only, so [len - 2] does not
    underflow; [s[..len-2]] panics off a char boundary *)
Definition shorten_name (x : text) (len : nat) : res text :=
  if byte_len x <? len - 2 then Val x
  else rmap (fun p => p ++ [ELLIPSIS]) (byte_slice x 0 (len - 2)).

(** lsp_types::InlayHintLabelPart: value, location, markdown tooltip *)
Record label_part := mkPart {
  lp_value : text;
  lp_location : option location;
  lp_tooltip : option text;
}.
(** lsp_types::InlayHint (padding_left/right are always true) *)
Record inlay_hint := mkHint { ih_pos : position_; ih_parts : list label_part }.

(** src/backtrace.rs:182-225; [&frames[idx]] *)
Definition inlay_hint_for_backtrace (u : uclass) (url_display : url -> text) (pos : position_)
    (frames : list frame) : res inlay_hint :=
  rbind (match identify_relevant_frames frames with
         | None => Val []
         | Some idx =>
             match nth_error frames idx with
             | None => Panic
             | Some f =>
                 rbind (shorten_name (f_symbol f) 50) (fun symbol =>
                 rbind (format_frame_as_md u url_display f) (fun tip =>
                 Val [mkPart symbol None (Some tip); mkPart (str ", ") None None]))
             end
         end) (fun parts =>
  rbind (backtrace_json_to_md u url_display frames) (fun tip =>
  Val (mkHint pos (parts ++ [mkPart (str "Full backtrace") None (Some tip)])))).
