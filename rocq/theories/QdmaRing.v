(** A driver that polls the colour of an interrupt ring. *)
From Verif Require Import Base LeFacts BaseFacts QdmaModel QdmaSpec QdmaBits QdmaDefs QdmaProofs QdmaRun.
From Coq Require Import ZifyN ZifyNat ZifyBool.
Open Scope N_scope.

Lemma slots_pos cpm4 c : 512 <= rg_slots (ring_of cpm4 c) /\ rg_slots (ring_of cpm4 c) <= 4096.
Proof.
  unfold ring_of. destruct cpm4; cbn [rg_slots].
  - pose proof (field_bound c 61 3) as B. change (2 ^ 3) with 8 in B. lia.
  - pose proof (field_bound c 67 3) as B. change (2 ^ 3) with 8 in B. lia.
Qed.

Lemma value_local m m' a k :
  (forall j, j < N.of_nat k -> m' (a64 (a + j)) = m (a64 (a + j))) ->
  value m' a k = value m a k.
Proof.
  revert a. induction k as [|k IH]; intros a E; cbn [value]; [reflexivity|].
  assert (E0 : m' (a64 a) = m (a64 a)).
  { specialize (E 0 ltac:(lia)). now rewrite N.add_0_r in E. }
  unfold a64 in E0 at 1 2. rewrite E0. rewrite (IH (a + 1)); [reflexivity|].
  intros j J. replace (a + 1 + j) with (a + (1 + j)) by lia. apply E. lia.
Qed.

Lemma slot_same m b i e : e < 2 ^ 64 -> value (placed m (b + 8 * i) (le_enc 8 e)) (b + 8 * i) 8 = e.
Proof.
  intro E. set (a := b + 8 * i). rewrite value_rd.
  assert (R : rd (placed m a (le_enc 8 e)) a 8 = le_enc 8 e).
  { apply (nth_ext _ _ 0 0); [now rewrite rd_length, le_enc_length|]. rewrite rd_length.
    intros n L. rewrite nth_rd by assumption. unfold placed. rewrite le_enc_length.
    rewrite past_at by (change (2 ^ 64) with 18446744073709551616; lia).
    destruct (N.ltb_spec (N.of_nat n) (N.of_nat 8)); [|lia]. f_equal. lia. }
  rewrite R, le_dec_enc. apply N.mod_small. exact E.
Qed.
Lemma slot_other m b i j d : i <> j -> i < 4096 -> j < 4096 -> length d = 8%nat ->
  value (placed m (b + 8 * i) d) (b + 8 * j) 8 = value m (b + 8 * j) 8.
Proof.
  intros D I J L. apply value_local. intros k K. unfold placed. rewrite L.
  assert (P : N.of_nat 8 <= past (b + 8 * i) (a64 (b + 8 * j + k))).
  { unfold past, a64. change (2 ^ 64) with 18446744073709551616. dm. }
  destruct (N.ltb_spec (past (b + 8 * i) (a64 (b + 8 * j + k))) (N.of_nat 8)); [lia|reflexivity].
Qed.

Lemma next_mod n slots : 1 < slots ->
  (if n mod slots + 1 =? slots then 0 else n mod slots + 1) = (n + 1) mod slots /\
  awaited slots (n + 1) = (if n mod slots + 1 =? slots then negb (awaited slots n) else awaited slots n).
Proof.
  intro S. pose proof (N.mod_lt n slots ltac:(lia)) as B. unfold awaited.
  pose proof (N.div_mod' n slots) as DM. set (q := n / slots) in *. set (r := n mod slots) in *. clearbody q r.
  destruct (N.eqb_spec (r + 1) slots) as [E|E].
  - assert (N1 : n + 1 = (q + 1) * slots) by nia. rewrite N1, N.mod_mul, N.div_mul by lia.
    split; [reflexivity|]. rewrite N.add_1_r, N.even_succ. now rewrite <- N.negb_even.
  - assert (N1 : n + 1 = q * slots + (r + 1)) by nia. rewrite N1. split.
    + rewrite (N.add_comm (q * slots)), N.mod_add by lia. symmetry. apply N.mod_small. lia.
    + rewrite N.div_add_l, (N.div_small (r + 1)) by lia. now rewrite N.add_0_r.
Qed.

Lemma mod_window k n S : k < n -> n < k + S -> k mod S <> n mod S.
Proof.
  intros L U X. assert (NZ : S <> 0) by lia.
  pose proof (N.div_mod k S NZ) as A. pose proof (N.div_mod n S NZ) as B.
  rewrite <- X in B. set (a := k / S) in *. set (b := n / S) in *. set (r := k mod S) in *.
  clearbody a b r. clear X. destruct (N.le_gt_cases b a) as [C|C].
  - pose proof (N.mul_le_mono_l b a S C). lia.
  - pose proof (N.mul_le_mono_l (a + 1) b S ltac:(lia)) as M. rewrite N.mul_add_distr_l, N.mul_1_r in M. lia.
Qed.

Definition inv (cpm4 : bool) (r : N) (s0 : st) (l : list notice) (s : st) : Prop :=
  let R0 := ring cpm4 s0 r in let R := ring cpm4 s r in
  let n := N.of_nat (length l) in
  rg_base R = rg_base R0 /\ rg_slots R = rg_slots R0 /\
  q_ring s r = n mod rg_slots R0 /\ rg_color R = awaited (rg_slots R0) n /\
  (forall k, k < n -> n <= k + rg_slots R0 ->
     color_of (slot (q_host s) (rg_base R0) (rg_slots R0) k) = awaited (rg_slots R0) k /\
     nth_error l (N.to_nat k) = Some (read_notice cpm4 (slot (q_host s) (rg_base R0) (rg_slots R0) k))) /\
  (forall k, n <= k -> k < rg_slots R0 ->
     color_of (slot (q_host s) (rg_base R0) (rg_slots R0) k) = false).

Lemma elsewhere_inv cpm4 r s0 l s1 s2 : inv cpm4 r s0 l s1 -> elsewhere cpm4 r s1 s2 -> inv cpm4 r s0 l s2.
Proof.
  intros (A & B & C & D & E & F) (X & Y & Z). unfold inv. rewrite X, Y.
  pose proof (slots_pos cpm4 (q_ctx s0 r 8)) as [S1 S2]. fold (ring cpm4 s0 r) in S1, S2.
  assert (SL : forall k, slot (q_host s2) (rg_base (ring cpm4 s0 r)) (rg_slots (ring cpm4 s0 r)) k
                       = slot (q_host s1) (rg_base (ring cpm4 s0 r)) (rg_slots (ring cpm4 s0 r)) k).
  { intro k. unfold slot. apply value_local. intros j J. apply Z. rewrite A, B.
    pose proof (N.mod_lt k (rg_slots (ring cpm4 s0 r)) ltac:(lia)) as KB.
    set (i := k mod rg_slots (ring cpm4 s0 r)) in *.
    replace (rg_base (ring cpm4 s0 r) + 8 * i + j) with (rg_base (ring cpm4 s0 r) + (8 * i + j)) by lia.
    rewrite past_at by (change (2 ^ 64) with 18446744073709551616; lia). lia. }
  split; [exact A|]. split; [exact B|]. split; [exact C|]. split; [exact D|]. split.
  - intros k K1 K2. rewrite SL. now apply E.
  - intros k K1 K2. rewrite SL. now apply F.
Qed.

Lemma fed_inv cpm4 junk hbad r s0 l s : junk < 2 ^ 64 ->
  rg_color (ring cpm4 s0 r) = true -> q_ring s0 r = 0 ->
  (forall k, k < rg_slots (ring cpm4 s0 r) ->
     color_of (slot (q_host s0) (rg_base (ring cpm4 s0 r)) (rg_slots (ring cpm4 s0 r)) k) = false) ->
  fed cpm4 junk hbad r s0 l s -> inv cpm4 r s0 l s.
Proof.
  intros J C0 I0 Z0 H.
  pose proof (slots_pos cpm4 (q_ctx s0 r 8)) as [S1 S2]. fold (ring cpm4 s0 r) in S1, S2.
  induction H as [s0|s0 l s1 s2 t s3 FD IH EL Q P V AG].
  - unfold inv. cbn [length]. change (N.of_nat 0) with 0. rewrite N.mod_0_l by lia.
    split; [reflexivity|]. split; [reflexivity|]. split; [exact I0|].
    split; [rewrite C0; unfold awaited; now rewrite N.div_0_l by lia|].
    split; [intros; lia|]. intros k _ K. now apply Z0.
  - specialize (IH C0 I0 Z0 S1 S2). apply (elsewhere_inv _ _ _ _ _ s2) in IH; [|exact EL].
    destruct IH as (A & B & C & D & E & F).
    destruct (aggregate_spec _ _ _ _ _ _ AG Q J) as (_ & _ & EN & _). rewrite V in EN.
    destruct EN as ((e & E1 & E2 & E3 & E4) & W2 & W3 & W4 & _).
    unfold inv. rewrite app_length. cbn [length].
    set (S := rg_slots (ring cpm4 s0 r)) in *. set (b := rg_base (ring cpm4 s0 r)) in *.
    set (n := N.of_nat (length l)) in *.
    assert (N1 : N.of_nat (length l + 1) = n + 1) by (unfold n; lia). rewrite N1.
    destruct (next_mod n S ltac:(lia)) as [M1 M2].
    pose proof (N.mod_lt n S ltac:(lia)) as NB.
    assert (SL : forall k, slot (q_host s3) b S k =
       if k mod S =? n mod S then e else slot (q_host s2) b S k).
    { intro k. unfold slot. rewrite (value_ext (q_host s3) _ _ _ E4). rewrite A, C.
      pose proof (N.mod_lt k S ltac:(lia)) as KB.
      destruct (N.eqb_spec (k mod S) (n mod S)) as [KE|KE].
      - rewrite KE. now apply slot_same.
      - apply slot_other; [congruence|clear - NB S2; lia|clear - KB S2; lia|apply le_enc_length]. }
    assert (KM : forall k, k < n -> n + 1 <= k + S -> k mod S <> n mod S).
    { intros k K1 K2. apply mod_window; clear - K1 K2; lia. }
    clear Z0.
    split; [rewrite W4; unfold next_ring; destruct (q_ring s2 r + 1 =? rg_slots (ring cpm4 s2 r)); exact A|].
    split; [rewrite W4; unfold next_ring; destruct (q_ring s2 r + 1 =? rg_slots (ring cpm4 s2 r)); exact B|].
    split; [rewrite W2; unfold next_slot; rewrite B, C; exact M1|].
    split; [rewrite W4; unfold next_ring; rewrite B, C; rewrite M2;
            destruct (n mod S + 1 =? S); cbn [rg_color]; now rewrite D|].
    split.
    + intros k K1 K2. rewrite SL. destruct (N.eq_dec k n) as [->|KN].
      * rewrite N.eqb_refl. split; [rewrite E2; exact D|].
        unfold n. rewrite Nnat.Nat2N.id, nth_error_app2, Nat.sub_diag by lia. cbn [nth_error].
        rewrite E1. f_equal. f_equal.
        -- unfold consumed, hardware, hw_of, hw_cidx. rewrite bf_field. reflexivity.
        -- symmetry. apply N.mod_small. exact P.
      * destruct (N.eqb_spec (k mod S) (n mod S)) as [X|X]; [elim (KM k); [lia|lia|exact X]|].
        destruct (E k ltac:(lia) ltac:(lia)) as [G1 G2]. split; [exact G1|].
        rewrite nth_error_app1; [exact G2|]. unfold n in *. lia.
    + intros k K1 K2. rewrite SL. destruct (N.eqb_spec (k mod S) (n mod S)) as [X|X].
      * rewrite !N.mod_small in X by lia. lia.
      * apply F; lia.
Qed.
