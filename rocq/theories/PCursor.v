(** Columns behind the end of a line (C04). *)
From Verif Require Import Text Rope SpecText PRope.

Lemma cursor_behind t pos l : lsp_plain t = true -> small t -> nth_error (lsp_split t) (p_line pos) = Some l -> length l <= p_char pos ->
  exists p, lsp_position t p = mkPos (p_line pos) (length l) /\ lsp_pos_to_offset t pos = Some (p + (p_char pos - length l)).
Proof.
  intros Hp Hs Hn Hc. destruct (cursor_in_line t (mkPos (p_line pos) (length l)) l Hp Hs Hn (le_n _)) as (p & _ & H & E). exists p. split; [exact E|].
  unfold lsp_pos_to_offset in *. cbn [p_line p_char] in H. destruct (try_line_to_char t (p_line pos)) as [c|]; [|discriminate]. cbn [obind] in *. inversion H; subst. f_equal. lia.
Qed.
