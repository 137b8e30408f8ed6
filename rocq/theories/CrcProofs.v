From Verif Require Import Base BaseFacts CrcModel CrcSpec.
Open Scope N_scope.

Definition bit_step (x : N) : N := shift_bit x false.
Definition byte_steps (x : N) : N := Nat.iter 8 bit_step x.

Lemma iter_S n x : Nat.iter (S n) bit_step x = bit_step (Nat.iter n bit_step x).
Proof. reflexivity. Qed.

Lemma bit_step_linear x y : bit_step (N.lxor x y) = N.lxor (bit_step x) (bit_step y).
Proof.
  unfold bit_step, shift_bit. rewrite !xorb_false_r, N.lxor_spec, N.shiftr_lxor.
  set (p := N.shiftr x 1). set (q := N.shiftr y 1). set (G := generator).
  destruct (N.testbit x 0), (N.testbit y 0); cbn [xorb].
  - rewrite (N.lxor_assoc p G), <- (N.lxor_assoc G q), (N.lxor_comm G q), (N.lxor_assoc q G G).
    rewrite N.lxor_nilpotent, N.lxor_0_r. reflexivity.
  - rewrite !N.lxor_assoc, (N.lxor_comm q G). reflexivity.
  - rewrite N.lxor_assoc. reflexivity.
  - reflexivity.
Qed.

Lemma iter_linear n x y :
  Nat.iter n bit_step (N.lxor x y) = N.lxor (Nat.iter n bit_step x) (Nat.iter n bit_step y).
Proof. induction n as [|n IH]; [reflexivity|]. rewrite !iter_S, IH. apply bit_step_linear. Qed.

(** Shifting in a bit is xoring it into the register first. *)
Lemma shift_bit_xor r b : shift_bit r b = bit_step (N.lxor r (N.b2n b)).
Proof.
  unfold bit_step, shift_bit. rewrite xorb_false_r, N.lxor_spec, N.shiftr_lxor.
  replace (N.shiftr (N.b2n b) 1) with 0 by (destruct b; reflexivity).
  replace (N.testbit (N.b2n b) 0) with b by (destruct b; reflexivity).
  rewrite N.lxor_0_r. reflexivity.
Qed.

Lemma bit_step_even x : bit_step (N.shiftl x 1) = x.
Proof.
  unfold bit_step, shift_bit. rewrite xorb_false_r.
  rewrite N.shiftl_spec_low by reflexivity. rewrite N.shiftr_shiftl_l by lia.
  cbn. apply N.shiftl_0_r.
Qed.

Lemma iter_shiftl n x : Nat.iter n bit_step (N.shiftl x (N.of_nat n)) = x.
Proof.
  revert x; induction n as [|n IH]; intros x; [apply N.shiftl_0_r|].
  rewrite Nat2N.inj_succ, iter_S.
  replace (N.shiftl x (N.succ (N.of_nat n))) with (N.shiftl (N.shiftl x 1) (N.of_nat n))
    by (rewrite N.shiftl_shiftl; f_equal; lia).
  rewrite IH. apply bit_step_even.
Qed.

Lemma iter_comm n x : Nat.iter n bit_step (bit_step x) = bit_step (Nat.iter n bit_step x).
Proof. induction n as [|n IH]; [reflexivity|]. rewrite !iter_S. congruence. Qed.

(** Shifting [n] message bits in equals xoring them in as a number, then [n]
    plain steps. *)
Lemma shift_bits_xor n : forall r c,
  fold_left shift_bit (map (fun i => N.testbit c (N.of_nat i)) (seq 0 n)) r =
  Nat.iter n bit_step (N.lxor r (N.land c (N.ones (N.of_nat n)))).
Proof.
  induction n as [|n IH]; intros r c.
  - cbn. rewrite N.land_0_r, N.lxor_0_r. reflexivity.
  - cbn [seq map fold_left]. rewrite <- seq_shift, map_map.
    rewrite (map_ext _ (fun i => N.testbit (N.shiftr c 1) (N.of_nat i))).
    2:{ intros i. rewrite N.shiftr_spec'. f_equal. lia. }
    change (N.of_nat 0) with 0. rewrite IH, shift_bit_xor. rewrite iter_S, <- iter_comm. f_equal.
    rewrite <- (bit_step_even (N.land (N.shiftr c 1) (N.ones (N.of_nat n)))) at 1.
    rewrite <- bit_step_linear. f_equal. rewrite N.lxor_assoc. f_equal.
    apply N.bits_inj. intros k. rewrite N.lxor_spec, N.land_spec.
    destruct (N.eq_dec k 0) as [->|Hk].
    + rewrite N.shiftl_spec_low by reflexivity. rewrite N.ones_spec_low by lia.
      rewrite xorb_false_r, andb_true_r. destruct (N.testbit c 0); reflexivity.
    + rewrite N.shiftl_spec_high' by lia. rewrite N.land_spec, N.shiftr_spec'.
      replace (N.testbit (N.b2n (N.testbit c 0)) k) with false
        by (destruct (N.testbit c 0); [|symmetry; apply N.bits_0];
            destruct k as [|p]; [lia|destruct p; reflexivity]).
      rewrite xorb_false_l. f_equal; [f_equal; lia|].
      destruct (N.lt_ge_cases k (N.of_nat (S n))).
      * rewrite !N.ones_spec_low by lia. reflexivity.
      * rewrite !N.ones_spec_high by lia. reflexivity.
Qed.

Lemma table_ok : forall i, i < 256 -> nth (N.to_nat i) crc32_table 0 = byte_steps i.
Proof.
  assert (H : forallb (fun i => nth i crc32_table 0 =? byte_steps (N.of_nat i)) (seq 0 256) = true)
    by (vm_compute; reflexivity).
  intros i Hi. rewrite forallb_forall in H.
  specialize (H (N.to_nat i)). rewrite N2Nat.id in H. apply N.eqb_eq, H, in_seq. lia.
Qed.

Lemma byte_steps_split x : byte_steps x = N.lxor (byte_steps (N.land x 255)) (N.shiftr x 8).
Proof.
  unfold byte_steps. rewrite <- (iter_shiftl 8 (N.shiftr x 8)) at 1.
  rewrite <- iter_linear. f_equal.
  change 255 with (N.ones 8). change (N.of_nat 8) with 8.
  apply N.bits_inj. intros k. rewrite N.lxor_spec, N.land_spec.
  destruct (N.lt_ge_cases k 8).
  - rewrite N.ones_spec_low, N.shiftl_spec_low by lia. rewrite andb_true_r, xorb_false_r. reflexivity.
  - rewrite N.ones_spec_high, N.shiftl_spec_high' by lia. rewrite andb_false_r, xorb_false_l.
    rewrite N.shiftr_spec'. f_equal. lia.
Qed.

Lemma crc_byte_steps crc c : c < 256 -> crc_byte crc c = byte_steps (N.lxor crc c).
Proof.
  intros Hc. unfold crc_byte. rewrite table_ok.
  - rewrite (byte_steps_split (N.lxor crc c)). f_equal. rewrite N.shiftr_lxor.
    replace (N.shiftr c 8) with 0; [rewrite N.lxor_0_r; reflexivity|].
    rewrite N.shiftr_div_pow2. symmetry. apply N.div_small. exact Hc.
  - change 255 with (N.ones 8). rewrite N.land_ones. apply N.mod_lt. discriminate.
Qed.

Lemma byte_bits r c : c < 256 ->
  fold_left shift_bit (bits_of_byte c) r = byte_steps (N.lxor r c).
Proof.
  intros Hc. unfold bits_of_byte. rewrite shift_bits_xor. unfold byte_steps.
  change (N.of_nat 8) with 8. rewrite N.land_ones, N.mod_small by exact Hc. reflexivity.
Qed.

Lemma crc_bytes_bits m : forall r, bytes_ok m ->
  fold_left crc_byte m r = fold_left shift_bit (message_bits m) r.
Proof.
  induction m as [|c m IH]; intros r H; [reflexivity|].
  inversion H as [|? ? Hc Hm]; subst. unfold message_bits in *. cbn [flat_map fold_left].
  rewrite fold_left_app, <- IH by exact Hm. f_equal.
  rewrite byte_bits, crc_byte_steps by exact Hc. reflexivity.
Qed.

Lemma fold_xor_twice x y : N.lxor (N.lxor x y) y = x.
Proof. rewrite N.lxor_assoc, N.lxor_nilpotent. apply N.lxor_0_r. Qed.

(** ** Error detection *)
Lemma gen_top : generator = 3988292384 /\ N.testbit generator 31 = true.
Proof. split; vm_compute; reflexivity. Qed.

Lemma bit_step_zero x : x < 2 ^ 32 -> bit_step x = 0 -> x = 0.
Proof.
  intros Hx H. unfold bit_step, shift_bit in H. rewrite xorb_false_r in H.
  destruct (N.testbit x 0) eqn:E.
  - apply (f_equal (fun n => N.testbit n 31)) in H.
    rewrite N.lxor_spec, (proj2 gen_top), N.bits_0, N.shiftr_spec' in H.
    rewrite N.bits_above_log2 in H; [discriminate|].
    destruct (N.eq_dec x 0) as [->|]; [discriminate|].
    change (31 + 1) with 32. apply N.log2_lt_pow2; lia.
  - rewrite N.shiftr_div_pow2 in H. change (2 ^ 1) with 2 in H.
    pose proof (N.div_mod x 2). rewrite <- N.bit0_mod, E in H0. cbn [N.b2n] in H0. lia.
Qed.

Lemma bit_step_bound x : x < 2 ^ 32 -> bit_step x < 2 ^ 32.
Proof.
  intros Hx. unfold bit_step, shift_bit. rewrite xorb_false_r.
  assert (Hs : N.shiftr x 1 < 2 ^ 32).
  { rewrite N.shiftr_div_pow2. change (2 ^ 1) with 2.
    eapply N.le_lt_trans; [apply N.div_le_upper_bound with (q := x)|]; lia. }
  destruct (N.testbit x 0); [|exact Hs].
  destruct (N.eq_dec (N.lxor (N.shiftr x 1) generator) 0) as [E|E]; [rewrite E; reflexivity|].
  apply N.log2_lt_pow2; [lia|].
  eapply N.le_lt_trans; [apply N.log2_lxor|].
  apply N.max_lub_lt; [|vm_compute; reflexivity].
  destruct (N.eq_dec (N.shiftr x 1) 0) as [->|]; [reflexivity|]. apply N.log2_lt_pow2; lia.
Qed.

Lemma iter_zero n : forall x, x < 2 ^ 32 -> Nat.iter n bit_step x = 0 -> x = 0.
Proof.
  induction n as [|n IH]; intros x Hx H; [exact H|].
  rewrite iter_S, <- iter_comm in H.
  apply bit_step_zero; [exact Hx|]. apply IH; [apply bit_step_bound, Hx|exact H].
Qed.

Lemma iter_bound n x : x < 2 ^ 32 -> Nat.iter n bit_step x < 2 ^ 32.
Proof. intros Hx. induction n as [|n IH]; [exact Hx|]. rewrite iter_S. apply bit_step_bound, IH. Qed.

Lemma iter_0 n : Nat.iter n bit_step 0 = 0.
Proof. induction n as [|n IH]; [reflexivity|]. rewrite iter_S, IH. reflexivity. Qed.

(** Register difference after two equally long bit strings. *)
Lemma lxor_swap a b c d : N.lxor (N.lxor a b) (N.lxor c d) = N.lxor (N.lxor a c) (N.lxor b d).
Proof. rewrite !N.lxor_assoc. f_equal. rewrite <- !N.lxor_assoc. f_equal. apply N.lxor_comm. Qed.

Lemma shift_diff r1 r2 b1 b2 :
  N.lxor (shift_bit r1 b1) (shift_bit r2 b2) = shift_bit (N.lxor r1 r2) (xorb b1 b2).
Proof.
  rewrite !shift_bit_xor, <- bit_step_linear. f_equal. rewrite lxor_swap. f_equal.
  destruct b1, b2; reflexivity.
Qed.

Lemma fold_diff m1 : forall m2 r1 r2, length m1 = length m2 ->
  N.lxor (fold_left shift_bit m1 r1) (fold_left shift_bit m2 r2) =
  fold_left shift_bit (map (fun p => xorb (fst p) (snd p)) (combine m1 m2)) (N.lxor r1 r2).
Proof.
  induction m1 as [|b1 m1 IH]; intros [|b2 m2] r1 r2 H; try discriminate; [reflexivity|].
  cbn [fold_left combine map fst snd]. rewrite IH by (cbn in H; congruence).
  rewrite shift_diff. reflexivity.
Qed.

(** A bit list as a number, first bit least significant. *)
Fixpoint num (l : list bool) : N :=
  match l with [] => 0 | b :: l' => N.b2n b + 2 * num l' end.

Lemma num_bound l : num l < 2 ^ N.of_nat (length l).
Proof.
  induction l as [|b l IH]; [reflexivity|]. cbn [num length].
  rewrite Nat2N.inj_succ, N.pow_succ_r'. destruct b; cbn [N.b2n]; lia.
Qed.
Lemma num_zero l : num l = 0 -> Forall (fun b => b = false) l.
Proof.
  induction l as [|b l IH]; intros H; [constructor|]. cbn [num] in H.
  destruct b; cbn [N.b2n] in H; [lia|]. constructor; [reflexivity|]. apply IH. lia.
Qed.
Lemma num_bits l : l = map (fun i => N.testbit (num l) (N.of_nat i)) (seq 0 (length l)).
Proof.
  induction l as [|b l IH]; [reflexivity|]. cbn [length seq map num].
  f_equal.
  - change (N.of_nat 0) with 0. destruct b; cbn [N.b2n].
    + rewrite N.add_comm, N.testbit_odd_0. reflexivity.
    + rewrite N.add_0_l, N.testbit_even_0. reflexivity.
  - rewrite <- seq_shift, map_map. rewrite IH at 1. apply map_ext. intros i.
    rewrite Nat2N.inj_succ. destruct b; cbn [N.b2n].
    + rewrite N.add_comm, N.testbit_odd_succ by lia. reflexivity.
    + rewrite N.add_0_l, N.testbit_even_succ by lia. reflexivity.
Qed.

Lemma burst_nonzero l r : (length l <= 32)%nat -> r < 2 ^ 32 ->
  fold_left shift_bit l r = 0 -> N.lxor r (num l) = 0.
Proof.
  intros Hl Hr H. rewrite (num_bits l), shift_bits_xor in H.
  rewrite N.land_ones, N.mod_small in H by apply num_bound.
  apply iter_zero in H; [exact H|].
  assert (Hn : num l < 2 ^ 32).
  { eapply N.lt_le_trans; [apply num_bound|]. apply N.pow_le_mono_r; lia. }
  destruct (N.eq_dec (N.lxor r (num l)) 0) as [E|E]; [rewrite E; reflexivity|].
  apply N.log2_lt_pow2; [lia|]. eapply N.le_lt_trans; [apply N.log2_lxor|].
  apply N.max_lub_lt.
  - destruct (N.eq_dec r 0) as [->|]; [reflexivity|]. apply N.log2_lt_pow2; lia.
  - destruct (N.eq_dec (num l) 0) as [->|]; [reflexivity|]. apply N.log2_lt_pow2; lia.
Qed.

Lemma zeros_keep n : forall r, fold_left shift_bit (repeat false n) r = Nat.iter n bit_step r.
Proof.
  induction n as [|n IH]; intros r; [reflexivity|]. cbn [repeat fold_left].
  rewrite IH, iter_S. apply iter_comm.
Qed.

Lemma fold_bound l : forall r, r < 2 ^ 32 -> fold_left shift_bit l r < 2 ^ 32.
Proof.
  induction l as [|b l IH]; intros r Hr; [exact Hr|]. cbn [fold_left]. apply IH.
  rewrite shift_bit_xor. apply bit_step_bound.
  destruct (N.eq_dec (N.lxor r (N.b2n b)) 0) as [E|E]; [rewrite E; reflexivity|].
  apply N.log2_lt_pow2; [lia|]. eapply N.le_lt_trans; [apply N.log2_lxor|].
  apply N.max_lub_lt.
  - destruct (N.eq_dec r 0) as [->|]; [reflexivity|]. apply N.log2_lt_pow2; lia.
  - destruct b; reflexivity.
Qed.

Lemma map_xorb_same (l : list bool) :
  map (fun p => xorb (fst p) (snd p)) (combine l l) = repeat false (length l).
Proof.
  induction l as [|b l IH]; [reflexivity|]. cbn [combine map fst snd length repeat].
  rewrite xorb_nilpotent, IH. reflexivity.
Qed.

Lemma xor_all_false m1 : forall m2, length m1 = length m2 ->
  Forall (fun b => b = false) (map (fun p => xorb (fst p) (snd p)) (combine m1 m2)) -> m1 = m2.
Proof.
  induction m1 as [|b1 m1 IH]; intros [|b2 m2] H F; try discriminate; [reflexivity|].
  cbn in F. inversion F as [|? ? E F']; subst.
  assert (b1 = b2) by (destruct b1, b2; cbn in E; congruence). subst. f_equal. apply IH; [cbn in H; congruence|exact F'].
Qed.

Theorem burst_detected_bits pre x y post :
  length x = length y -> (length x <= 32)%nat -> x <> y ->
  fold_left shift_bit (pre ++ x ++ post) ones32 <> fold_left shift_bit (pre ++ y ++ post) ones32.
Proof.
  intros Hl H32 Hne E. apply Hne.
  rewrite !fold_left_app in E. apply N.lxor_eq_0_iff in E.
  rewrite fold_diff, map_xorb_same, zeros_keep in E by reflexivity.
  apply iter_zero in E.
  2:{ rewrite fold_diff by exact Hl. apply fold_bound. rewrite N.lxor_nilpotent. reflexivity. }
  rewrite fold_diff, N.lxor_nilpotent in E by exact Hl.
  apply burst_nonzero in E; [|rewrite map_length, combine_length; lia|reflexivity].
  rewrite N.lxor_0_l in E. apply num_zero in E. apply xor_all_false; assumption.
Qed.
