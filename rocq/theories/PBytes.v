(** Byte and unit lengths are those of the encodings. *)
From Verif Require Import Text SpecBytes.

Lemma utf8_length c : utf8_len c = length (utf8 c).
Proof. unfold utf8_len, utf8. destruct (c <? 128)%N, (c <? 2048)%N, (c <? 65536)%N; reflexivity. Qed.
Lemma utf16_length c : utf16_len c = length (utf16 c).
Proof. unfold utf16_len, utf16. destruct (c <? 65536)%N; reflexivity. Qed.
Lemma bytes_length t : byte_len t = length (utf8_text t).
Proof. induction t as [|c t IH]; [reflexivity|]. cbn [byte_len]. unfold utf8_text. cbn [flat_map]. rewrite app_length, utf8_length, IH. reflexivity. Qed.

(** ** The encoding can be read back *)
Lemma split64 c : exists q r, (c / 64 = q /\ c mod 64 = r /\ c = 64 * q + r /\ r < 64)%N.
Proof. exists (c / 64)%N, (c mod 64)%N. pose proof (N.div_mod c 64 ltac:(discriminate)). pose proof (N.mod_lt c 64 ltac:(discriminate)). auto. Qed.
Lemma digits c : exists a b d e, (c / 64 = 64 * (64 * a + b) + d /\ c / 4096 = 64 * a + b /\ c / 262144 = a /\
  c mod 64 = e /\ (c / 64) mod 64 = d /\ (c / 4096) mod 64 = b /\ c = 64 * (64 * (64 * a + b) + d) + e /\ b < 64 /\ d < 64 /\ e < 64)%N.
Proof.
  change 4096%N with (64 * 64)%N. change 262144%N with (64 * (64 * 64))%N. rewrite <- !N.div_div by discriminate.
  destruct (split64 c) as (q & e & -> & -> & H1 & L1). destruct (split64 q) as (q2 & d & -> & -> & H2 & L2). destruct (split64 q2) as (a & b & E & -> & H3 & L3).
  exists a, b, d, e. subst q2 q. repeat split; try assumption; try lia. 
Qed.
Lemma utf8_shape c : exists a b d e, (b < 64 /\ d < 64 /\ e < 64 /\
  ((utf8 c = [c] /\ c < 128) \/
   (utf8 c = [192 + d; 128 + e] /\ c = 64 * d + e /\ d < 32) \/
   (utf8 c = [224 + b; 128 + d; 128 + e] /\ c = 64 * (64 * b + d) + e /\ b < 16) \/
   (utf8 c = [240 + a; 128 + b; 128 + d; 128 + e] /\ c = 64 * (64 * (64 * a + b) + d) + e)))%N.
Proof.
  destruct (digits c) as (a & b & d & e & H1 & H2 & H3 & H4 & H5 & H6 & H7 & L1 & L2 & L3). exists a, b, d, e. split; [exact L1|]. split; [exact L2|]. split; [exact L3|].
  unfold utf8. rewrite H2, H3, H4, H5. rewrite H2 in H6. rewrite H6, H1. clear H1 H2 H3 H4 H5 H6.
  destruct (N.ltb_spec c 128); [left; split; [reflexivity|assumption]|]. destruct (N.ltb_spec c 2048).
  { right. left. assert (a = 0 /\ b = 0)%N as [-> ->] by lia. split; [repeat f_equal; lia|]. split; lia. }
  destruct (N.ltb_spec c 65536); [|right; right; right; split; [reflexivity|exact H7]].
  right. right. left. assert (a = 0)%N as -> by lia. split; [repeat f_equal; lia|]. split; lia.
Qed.
Lemma cons_eq (a b : N) l m : a :: l = b :: m -> a = b /\ l = m.
Proof. intros E. injection E. auto. Qed.
Lemma utf8_first c c' r r' : utf8 c ++ r = utf8 c' ++ r' -> c = c' /\ r = r'.
Proof.
  destruct (utf8_shape c) as (a & b & d & e & L1 & L2 & L3 & H). destruct (utf8_shape c') as (a' & b' & d' & e' & L1' & L2' & L3' & H').
  destruct H as [[-> H]|[(-> & H & K)|[(-> & H & K)|[-> H]]]]; destruct H' as [[-> H']|[(-> & H' & K')|[(-> & H' & K')|[-> H']]]]; cbn [app]; intros E; repeat match goal with G : _ :: _ = _ :: _ |- _ => apply cons_eq in G as [? G] end; (split; [lia|]); try assumption; exfalso; lia.
Qed.
Lemma utf8_nonempty c : utf8 c <> [].
Proof. unfold utf8. destruct (c <? 128)%N, (c <? 2048)%N, (c <? 65536)%N; discriminate. Qed.
Lemma utf8_inj t : forall t', utf8_text t = utf8_text t' -> t = t'.
Proof.
  unfold utf8_text. induction t as [|c t IH]; intros [|c' t'] E; cbn [flat_map] in E; [reflexivity| | |].
  - symmetry in E. apply app_eq_nil in E as [E _]. contradiction (utf8_nonempty _ E).
  - apply app_eq_nil in E as [E _]. contradiction (utf8_nonempty _ E).
  - apply utf8_first in E as [-> E]. f_equal. apply IH, E.
Qed.
Lemma utf8_range c : scalar c -> Forall (fun b => b < 256)%N (utf8 c).
Proof.
  intros S. assert (c < 1114112)%N as L by (destruct S as [S|[_ S]]; lia). destruct (utf8_shape c) as (a & b & d & e & L1 & L2 & L3 & H).
  destruct H as [[-> H]|[(-> & H & K)|[(-> & H & K)|[-> H]]]]; repeat (apply Forall_cons; [lia|]); constructor.
Qed.
Lemma utf8_bytes t : Forall scalar t -> Forall (fun b => b < 256)%N (utf8_text t).
Proof. intros H. apply Forall_flat_map. eapply Forall_impl; [|exact H]. exact utf8_range. Qed.
