(** Property C20: CRC-32. *)
From Verif Require Import Base CrcModel CrcSpec CrcProofs.
Open Scope N_scope.

(** For every byte string the table-driven code computes the IEEE 802.3 CRC. *)
Theorem C20_crc_is_ieee m : bytes_ok m -> crc32 0 m = crc_ieee m.
Proof.
  intros H. unfold crc32, crc_ieee. rewrite N.lxor_0_l. f_equal. apply crc_bytes_bits, H.
Qed.

(** Continuing over a split buffer gives the CRC of the whole. *)
Theorem C20_crc_composes crc a b : crc32 (crc32 crc a) b = crc32 crc (a ++ b).
Proof. unfold crc32. rewrite fold_xor_twice, fold_left_app. reflexivity. Qed.

(** Any change confined to 32 consecutive bits changes the CRC. *)
Theorem C20_crc_detects_bursts m m' pre x y post :
  bytes_ok m -> bytes_ok m' ->
  message_bits m = pre ++ x ++ post -> message_bits m' = pre ++ y ++ post ->
  length x = length y -> (length x <= 32)%nat -> x <> y ->
  crc32 0 m <> crc32 0 m'.
Proof.
  intros H H' E E' Hl H32 Hne Hc. rewrite !C20_crc_is_ieee in Hc by assumption.
  unfold crc_ieee in Hc. apply (f_equal (fun v => N.lxor v ones32)) in Hc.
  rewrite !fold_xor_twice, E, E' in Hc. revert Hc. apply burst_detected_bits; assumption.
Qed.

Example C20_case : crc32 0 [49;50;51;52;53;54;55;56;57] = 3421780262 (* 0xCBF43926 *) /\
  crc32 (crc32 0 [49;50;51]) [52;53;54;55;56;57] = 3421780262.
Proof. split; vm_compute; reflexivity. Qed.

Print Assumptions C20_crc_is_ieee.
Print Assumptions C20_crc_composes.
Print Assumptions C20_crc_detects_bursts.
