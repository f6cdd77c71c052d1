(** Property theorems C01-C04: positions. *)
From Verif Require Import Text Rope SpecText SpecBytes PRope PBytes PCursor.

(** C01 *)
Theorem C01_round_trip : forall t p, ascii_text t = true -> small t -> p <= length t ->
  exists pos, offset_to_lsp_pos t p = Some pos /\ lsp_pos_to_offset t pos = Some p.
Proof. exact round_trip_ascii. Qed.
Print Assumptions C01_round_trip.
Example C01_round_trip_ex : let t := str "ab" ++ [CR; LF] ++ str "c" in
  ascii_text t = true /\ small t /\ 3 <= length t /\ offset_to_lsp_pos t 4 = Some (mkPos 1 0).
Proof. vm_compute. repeat split; lia. Qed.

Theorem C01_round_trip_unicode : forall t b, small t -> b <= byte_len t ->
  exists pos q, offset_to_lsp_pos t b = Some pos /\ lsp_pos_to_offset t pos = Some q /\ byte_in_char t b q.
Proof. exact round_trip_any. Qed.
Print Assumptions C01_round_trip_unicode.
Example C01_round_trip_unicode_ex : let t := [97; 233; 10; 120]%N in
  small t /\ 2 <= byte_len t /\ offset_to_lsp_pos t 2 = Some (mkPos 0 1).
Proof. vm_compute. repeat split; lia. Qed.

(** offsets count the bytes of the UTF-8 encoding *)
Theorem C01_bytes : forall t, byte_len t = length (utf8_text t).
Proof. exact bytes_length. Qed.
Print Assumptions C01_bytes.
Example C01_bytes_ex : utf8_text [36; 163; 8364; 66376]%N = [36; 194; 163; 226; 130; 172; 240; 144; 141; 136]%N.
Proof. reflexivity. Qed.
(** which determines the text *)
Theorem C01_bytes_text : forall t t', utf8_text t = utf8_text t' -> t = t'.
Proof. exact utf8_inj. Qed.
Print Assumptions C01_bytes_text.

(** C02: documents in which line ends are LSP line ends and all characters are
    in the basic multilingual plane; offsets are byte offsets *)
Theorem C02_lsp_positions : forall t p, lsp_plain t = true -> small t -> p <= length t ->
  offset_to_lsp_pos t (byte_len (firstn p t)) = Some (lsp_position t p).
Proof. exact positions_are_lsp. Qed.
Print Assumptions C02_lsp_positions.
Theorem C02_lsp_positions_ascii : forall t p, ascii_text t = true -> lsp_plain t = true -> small t ->
  p <= length t -> offset_to_lsp_pos t p = Some (lsp_position t p).
Proof. exact positions_are_lsp_ascii. Qed.
Print Assumptions C02_lsp_positions_ascii.
Example C02_lsp_positions_ex : let t := str "ab" ++ [CR] ++ str "c" ++ [CR; LF] ++ str "d" in
  ascii_text t = true /\ lsp_plain t = true /\ small t /\ 7 <= length t /\ lsp_position t 6 = mkPos 2 0.
Proof. vm_compute. repeat split; lia. Qed.

(** [lsp_position] counts UTF-16 units *)
Theorem C02_units : forall c, utf16_len c = length (utf16 c).
Proof. exact utf16_length. Qed.
Print Assumptions C02_units.
Example C02_units_ex : utf16 36 = [36]%N /\ utf16 66376 = [55296; 57160]%N.
Proof. split; reflexivity. Qed.

(** For every document: Unicode line ends and characters are what is counted. *)
Theorem C02_all_documents : forall t p, small t -> p <= length t ->
  offset_to_lsp_pos t (byte_len (firstn p t)) = Some (unicode_position t p).
Proof. exact positions_are_unicode. Qed.
Print Assumptions C02_all_documents.
Example C02_all_documents_ex : let t := [97; 8232; 128512; 98]%N in
  small t /\ 3 <= length t /\ unicode_position t 3 = mkPos 1 1.
Proof. vm_compute. repeat split; lia. Qed.

(** The full claim fails: VT in an ASCII document, and a character outside the
    basic multilingual plane. *)
Theorem C02_ascii_refuted : exists t p, ascii_text t = true /\ p <= length t /\
  offset_to_lsp_pos t p <> Some (lsp_position t p).
Proof. exact vt_witness. Qed.
Print Assumptions C02_ascii_refuted.
Theorem C02_utf16_refuted : exists t p, p <= length t /\
  offset_to_lsp_pos t (byte_len (firstn p t)) <> Some (lsp_position t p).
Proof. exact utf16_witness. Qed.
Print Assumptions C02_utf16_refuted.

(** C03 *)
Theorem C03_range_ordered : forall t sp r, sp_start sp <= sp_end sp -> range_to_lsp t sp = Some r ->
  pos_le (r_start r) (r_end r) /\ p_line (r_end r) < unicode_lines t.
Proof. exact range_spec. Qed.
Print Assumptions C03_range_ordered.
Theorem C03_monotone : forall t p q a b, p <= q ->
  offset_to_lsp_pos t p = Some a -> offset_to_lsp_pos t q = Some b -> pos_le a b.
Proof. exact position_mono. Qed.
Print Assumptions C03_monotone.
Theorem C03_defined : forall t sp, small t -> sp_start sp <= sp_end sp ->
  (range_to_lsp t sp = None <-> byte_len t < sp_end sp).
Proof. exact range_defined_iff. Qed.
Print Assumptions C03_defined.
Example C03_ex : let t := [97; 233; 10; 120]%N in
  small t /\ range_to_lsp t (mkSpan 1 5) = Some (mkRange (mkPos 0 1) (mkPos 1 1)) /\
  range_to_lsp t (mkSpan 1 6) = None.
Proof. vm_compute. repeat split; lia. Qed.

(** C04 *)
Theorem C04_cursor_in_line : forall t pos l, lsp_plain t = true -> small t ->
  nth_error (lsp_split t) (p_line pos) = Some l -> p_char pos <= length l ->
  exists p, p <= length t /\ lsp_pos_to_offset t pos = Some p /\ lsp_position t p = pos.
Proof. exact cursor_in_line. Qed.
Print Assumptions C04_cursor_in_line.
Theorem C04_cursor_no_line : forall t pos, lsp_plain t = true ->
  (lsp_lines t < p_line pos -> lsp_pos_to_offset t pos = None) /\
  (lsp_lines t = p_line pos -> lsp_pos_to_offset t pos = Some (length t + p_char pos)).
Proof. exact cursor_no_line. Qed.
Print Assumptions C04_cursor_no_line.
Example C04_ex : let t := str "ab" ++ [CR; LF] ++ str "cd" in
  lsp_plain t = true /\ small t /\ nth_error (lsp_split t) 0 = Some (str "ab") /\
  lsp_pos_to_offset t (mkPos 1 2) = Some 6 /\ lsp_lines t = 2.
Proof. vm_compute. repeat split; lia. Qed.

(** C04: a column behind the end of the line is that many characters behind it, line ends and later lines included *)
Theorem C04_behind : forall t pos l, lsp_plain t = true -> small t -> nth_error (lsp_split t) (p_line pos) = Some l -> length l <= p_char pos ->
  exists p, lsp_position t p = mkPos (p_line pos) (length l) /\ lsp_pos_to_offset t pos = Some (p + (p_char pos - length l)).
Proof. exact cursor_behind. Qed.
Print Assumptions C04_behind.
Example C04_behind_ex : let t := str "ab" ++ [CR; LF] ++ str "cd" in
  lsp_plain t = true /\ small t /\ nth_error (lsp_split t) 0 = Some (str "ab") /\ lsp_position t 2 = mkPos 0 2 /\ lsp_pos_to_offset t (mkPos 0 5) = Some 5.
Proof. vm_compute. repeat split; lia. Qed.
(** Not clamped: column 2 of the one-character first line is a character of the
    second line. *)
Theorem C04_clamp_refuted : exists t pos l p, ascii_text t = true /\
  nth_error (lsp_split t) (p_line pos) = Some l /\ length l < p_char pos /\
  lsp_pos_to_offset t pos = Some p /\ p_line (lsp_position t p) <> p_line pos.
Proof. exact clamp_witness. Qed.
Print Assumptions C04_clamp_refuted.
