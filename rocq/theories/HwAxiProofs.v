(** Lemmas for C110. *)
From Coq Require Import ZArith.
From Verif Require Import Base RegapiModel RegapiSpec RegapiProofs HwAxiModel HwAxiSpec.
From Coq Require Import Lia ZifyN ZifyNat ZifyBool.
Open Scope N_scope.
Ltac dml := zify; Z.to_euclidean_division_equations; lia.

(** ** one word of strobes *)
Lemma byte_of_bits v k (c : bool) :
  (forall b, b < 8 -> N.testbit v (8 * k + b) = c) ->
  N.shiftr v (8 * k) mod 256 = if c then 255 else 0.
Proof.
  intros H. apply N.bits_inj. intros b. change 256 with (2 ^ 8).
  rewrite mod_pow2_bit, N.shiftr_spec'. rewrite (N.add_comm b).
  destruct (N.ltb_spec b 8) as [Hb|Hb].
  - rewrite (H b Hb), andb_true_r. destruct c.
    + change 255 with (N.ones 8). rewrite ones_bit. symmetry. apply N.ltb_lt, Hb.
    + symmetry. apply N.bits_0.
  - rewrite andb_false_r. destruct c; [|symmetry; apply N.bits_0].
    change 255 with (N.ones 8). rewrite ones_bit. symmetry. apply N.ltb_ge, Hb.
Qed.
Lemma bit_ff j k b : b < 8 -> N.testbit (N.shiftl 255 (j * 8)) (8 * k + b) = (j =? k).
Proof.
  intros Hb. change 255 with (N.ones 8).
  destruct (N.leb_spec (j * 8) (8 * k + b)).
  - rewrite N.shiftl_spec_high' by assumption. rewrite ones_bit. lia.
  - rewrite N.shiftl_spec_low by assumption. lia.
Qed.
Lemma be_word_bit n off size bit be L k b : b < 8 -> forall j v,
  N.testbit (be_word n j v off size bit be L) (8 * k + b)
  = N.testbit v (8 * k + b)
    || ((j <=? k) && (k <? j + N.of_nat n) && (off <=? bit + k) && (bit + k <? off + size)
        && be ((bit + k - off) mod L)).
Proof.
  intros Hb. induction n as [|n IH]; intros j v; cbn [be_word].
  { destruct (N.testbit v (8 * k + b)); [reflexivity|]. cbn [orb]. symmetry.
    destruct (N.leb_spec j k); [|reflexivity]. destruct (N.ltb_spec k (j + N.of_nat 0)); [lia|reflexivity]. }
  destruct (N.ltb_spec (bit + j) off).
  { rewrite IH. f_equal. f_equal. lia. }
  destruct (N.leb_spec (off + size) (bit + j)).
  { destruct (N.testbit v (8 * k + b)); [reflexivity|]. cbn [orb]. symmetry.
    destruct (N.leb_spec j k); [|reflexivity].
    destruct (N.ltb_spec (bit + k) (off + size)); [lia|]. rewrite andb_false_r. reflexivity. }
  rewrite IH.
  destruct (N.eq_dec j k) as [->|Hne].
  - replace (k + 1 <=? k) with false by lia. replace (k <=? k) with true by lia.
    replace (k <? k + N.of_nat (S n)) with true by lia.
    replace (off <=? bit + k) with true by lia. replace (bit + k <? off + size) with true by lia.
    cbn [andb orb]. rewrite orb_false_r.
    destruct (be ((bit + k - off) mod L)).
    + rewrite N.lor_spec, bit_ff by assumption. rewrite N.eqb_refl. reflexivity.
    + rewrite orb_false_r. reflexivity.
  - replace (j <=? k) with (j + 1 <=? k) by lia.
    replace (k <? j + N.of_nat (S n)) with (k <? j + 1 + N.of_nat n) by lia.
    f_equal. destruct (be ((bit + j - off) mod L)); [|reflexivity].
    rewrite N.lor_spec, bit_ff by assumption. replace (j =? k) with false by lia.
    apply orb_false_r.
Qed.
(** Position p gets a strobe *)
Definition strobe_at (off size : N) (be : N -> bool) (L p : N) : bool :=
  (off <=? p) && (p <? off + size) && ((L =? 0) || be ((p - off) mod L)).
Lemma strb_word_byte off size bit be L k : k < 4 ->
  N.shiftr (strb_word off size bit be L) (8 * k) mod 256
  = if strobe_at off size be L (bit + k) then 255 else 0.
Proof.
  intros Hk. apply byte_of_bits. intros b Hb. unfold strb_word, strobe_at.
  destruct (N.eqb_spec L 0) as [->|HL].
  - cbn [orb]. rewrite andb_true_r. change u32 with (2 ^ 32). rewrite mod_pow2_bit.
    replace (8 * k + b <? 32) with true by lia. rewrite andb_true_r.
    destruct (N.leb_spec bit off).
    + rewrite mask64_bit. unfold in_range. lia.
    + destruct (N.ltb_spec (bit - off) size).
      * rewrite mask64_bit. unfold in_range. lia.
      * rewrite N.bits_0. lia.
  - rewrite be_word_bit by assumption. rewrite N.bits_0. cbn [orb].
    replace (0 <=? k) with true by lia. replace (k <? 0 + N.of_nat 4) with true by lia.
    reflexivity.
Qed.

(** ** the memory of the strobes *)
Lemma put32_at m a v x :
  put32 m a v x = if (a <=? x) && (x <? a + 4) then N.shiftr v (8 * (x - a)) mod 256 else m x.
Proof. reflexivity. Qed.
Definition strobes_in (m m' : mem) (lo hi off size : N) (be : N -> bool) (L : N) : Prop :=
  forall x, m' x = if (DRAM_WSTRB + lo <=? x) && (x <? DRAM_WSTRB + hi)
                   then (if strobe_at off size be L (x - DRAM_WSTRB) then 255 else 0) else m x.
Lemma lanes_at n off size be L : forall m bit,
  strobes_in m (strb_lanes n m bit off size be L) bit (bit + 4 * N.of_nat n) off size be L.
Proof.
  induction n as [|n IH]; intros m bit x; cbn [strb_lanes].
  - destruct (N.leb_spec (DRAM_WSTRB + bit) x); [|reflexivity].
    destruct (N.ltb_spec x (DRAM_WSTRB + (bit + 4 * N.of_nat 0))); [lia|reflexivity].
  - rewrite IH, put32_at. generalize DRAM_WSTRB. intros B.
    destruct (N.leb_spec (B + (bit + 4)) x).
    + replace (B + bit <=? x) with true by lia. replace (x <? B + bit + 4) with false by lia.
      replace (x <? B + (bit + 4 + 4 * N.of_nat n)) with (x <? B + (bit + 4 * N.of_nat (S n))) by lia.
      reflexivity.
    + cbn [andb]. destruct (N.leb_spec (B + bit) x); [|reflexivity].
      replace (x <? B + bit + 4) with true by lia.
      replace (x <? B + (bit + 4 * N.of_nat (S n))) with true by lia.
      cbn [andb]. rewrite strb_word_byte by lia.
      replace (bit + (x - (B + bit))) with (x - B) by lia. reflexivity.
Qed.
Lemma beats_at n W off size be L : forall m bit,
  strobes_in m (strb_beats n m W bit off size be L) bit
    (bit + N.of_nat n * (4 * ((W + 3) / 4))) off size be L.
Proof.
  induction n as [|n IH]; intros m bit x; cbn [strb_beats].
  - destruct (N.leb_spec (DRAM_WSTRB + bit) x); [|reflexivity].
    destruct (N.ltb_spec x (DRAM_WSTRB + (bit + N.of_nat 0 * (4 * ((W + 3) / 4))))); [lia|reflexivity].
  - cbn zeta. rewrite IH, lanes_at. generalize DRAM_WSTRB. intros B.
    rewrite N2Nat.id. set (q := (W + 3) / 4).
    replace (N.of_nat (S n) * (4 * q)) with (4 * q + N.of_nat n * (4 * q)) by lia.
    generalize (N.of_nat n * (4 * q)). intros r.
    destruct (N.leb_spec (B + (bit + 4 * q)) x).
    + replace (B + bit <=? x) with true by lia. replace (x <? B + (bit + 4 * q)) with false by lia.
      replace (x <? B + (bit + 4 * q + r)) with (x <? B + (bit + (4 * q + r))) by lia.
      reflexivity.
    + cbn [andb]. destruct (N.leb_spec (B + bit) x); [|reflexivity].
      replace (x <? B + (bit + 4 * q)) with true by lia.
      replace (x <? B + (bit + (4 * q + r))) with true by lia. reflexivity.
Qed.
Lemma width_cases W : bus_width W ->
  W = 4 \/ W = 8 \/ W = 16 \/ W = 32 \/ W = 64 \/ W = 128.
Proof. unfold bus_width. cbn [In]. intuition. Qed.
Ltac widths H := destruct (width_cases _ H) as [->|[->|[->|[->|[->| ->]]]]].
Lemma setup_at W m addr size be L : bus_width W ->
  strobes_in m (setup_wstrb W m addr size be L) 0 (nr_beats W (addr mod W) size * W)
    (addr mod W) size be L.
Proof.
  intros HW x. unfold setup_wstrb. rewrite beats_at. rewrite N2Nat.id.
  replace (4 * ((W + 3) / 4)) with W by (widths HW; reflexivity).
  rewrite N.add_0_l. reflexivity.
Qed.
Lemma beats_cover W off size : bus_width W -> off + size <= nr_beats W off size * W.
Proof. intros HW. unfold nr_beats. widths HW; dml. Qed.

(** ** reading back *)
Lemma get32_byte m a k : (forall x, m x < 256) -> k < 4 ->
  get32 m a / 256 ^ k mod 256 = m (a + k).
Proof.
  intros Hm Hk. unfold get32.
  pose proof (Hm a). pose proof (Hm (a + 1)). pose proof (Hm (a + 2)). pose proof (Hm (a + 3)).
  assert (k = 0 \/ k = 1 \/ k = 2 \/ k = 3) as [->|[->|[->| ->]]] by lia.
  - rewrite N.add_0_r. change (256 ^ 0) with 1. dml.
  - change (256 ^ 1) with 256. dml.
  - change (256 ^ 2) with 65536. dml.
  - change (256 ^ 3) with 16777216. dml.
Qed.
Lemma copy_in_at n be L : forall pos v buf x,
  copy_in n pos v be L buf x
  = if (pos <=? x) && (x <? pos + N.of_nat n) && be (x mod L)
    then v / 256 ^ (x - pos) mod 256 else buf x.
Proof.
  induction n as [|n IH]; intros pos v buf x; cbn [copy_in].
  - destruct (N.leb_spec pos x); [|reflexivity].
    destruct (N.ltb_spec x (pos + N.of_nat 0)); [lia|reflexivity].
  - rewrite IH. destruct (N.eq_dec x pos) as [->|Hne].
    + replace (pos + 1 <=? pos) with false by lia. replace (pos <=? pos) with true by lia.
      replace (pos <? pos + N.of_nat (S n)) with true by lia. cbn [andb].
      destruct (be (pos mod L)); [|reflexivity].
      rewrite N.eqb_refl, N.sub_diag. change (256 ^ 0) with 1. rewrite N.div_1_r. reflexivity.
    + replace (pos + 1 <=? x) with (pos <=? x) by lia.
      replace (pos + 1 + N.of_nat n) with (pos + N.of_nat (S n)) by lia.
      match goal with |- _ = (if _ then _ else ?bx) =>
        match goal with |- (if _ then _ else ?e) = _ => replace e with bx end end.
      2:{ destruct (be (pos mod L)); [|reflexivity]. replace (x =? pos) with false by lia. reflexivity. }
      destruct (N.leb_spec pos x); cbn [andb]; [|reflexivity].
      destruct (x <? pos + N.of_nat (S n)); cbn [andb]; [|reflexivity].
      destruct (be (x mod L)); [|reflexivity].
      rewrite N.div_div by (try apply N.pow_nonzero; lia).
      replace (256 * 256 ^ (x - (pos + 1))) with (256 ^ (x - pos)); [reflexivity|].
      replace (x - pos) with (N.succ (x - (pos + 1))) by lia. rewrite N.pow_succ_r'. reflexivity.
Qed.
Lemma copy_loop_at f m len be L : (forall x, m x < 256) -> forall i wo a buf x,
  wo < 4 -> i <= len -> (N.to_nat (len - i) <= f)%nat ->
  copy_loop f m i wo a len be L buf x
  = if (i <=? x) && (x <? len) && be (x mod L) then m (a + wo + (x - i)) else buf x.
Proof.
  intros Hm. induction f as [|f IH]; intros i wo a buf x Hw Hi Hf; cbn [copy_loop].
  - destruct (N.leb_spec i x); [|reflexivity]. destruct (N.ltb_spec x len); [lia|reflexivity].
  - destruct (N.ltb_spec i len).
    2:{ destruct (N.leb_spec i x); [|reflexivity]. destruct (N.ltb_spec x len); [lia|reflexivity]. }
    cbn zeta. set (n := N.min (len - i) (4 - wo)).
    rewrite IH by lia. rewrite copy_in_at. rewrite N2Nat.id.
    destruct (N.leb_spec (i + n) x).
    + replace (i <=? x) with true by lia. replace (x <? i + n) with false by lia.
      cbn [andb]. destruct (N.ltb_spec x len); cbn [andb]; [|reflexivity].
      destruct (be (x mod L)); [|reflexivity]. f_equal. lia.
    + cbn [andb]. destruct (N.leb_spec i x); cbn [andb]; [|reflexivity].
      replace (x <? i + n) with true by lia. replace (x <? len) with true by lia. cbn [andb].
      destruct (be (x mod L)); [|reflexivity].
      rewrite N.div_div by (apply N.pow_nonzero; lia). rewrite <- N.pow_add_r.
      rewrite get32_byte by (try assumption; lia). f_equal. lia.
Qed.
Lemma copy_from_at m a len be L buf x : (forall y, m y < 256) ->
  copy_from m a len be L buf x
  = if (x <? len) && ((L =? 0) || be (x mod L)) then m (a + x) else buf x.
Proof.
  intros Hm. unfold copy_from. destruct (N.eqb_spec L 0) as [->|HL].
  - cbn [orb]. rewrite andb_true_r. reflexivity.
  - cbn zeta. assert (a mod 4 < 4) by (apply N.mod_lt; lia).
    rewrite copy_loop_at by (try assumption; lia). cbn [orb].
    replace (0 <=? x) with true by lia. cbn [andb].
    destruct ((x <? len) && be (x mod L)); [|reflexivity].
    f_equal. pose proof (N.mod_le a 4 ltac:(lia)). lia.
Qed.

(** ** the descriptor *)
Lemma axsize_of_some n s : axsize_of n = Some s -> n = 2 ^ s /\ s <= 7.
Proof.
  unfold axsize_of. intros H.
  repeat match type of H with (if ?a =? ?b then _ else _) = _ =>
    destruct (N.eqb_spec a b) as [->|?]; [injection H as <-; split; [reflexivity|lia]|] end.
  discriminate H.
Qed.
Lemma axsize_of_none n : n <= 128 -> axsize_of n = None -> forall s, n <> 2 ^ s.
Proof.
  intros Hn H s E. subst n.
  assert (s <= 7).
  { destruct (N.le_gt_cases s 7); [assumption|]. exfalso.
    assert (2 ^ 8 <= 2 ^ s) by (apply N.pow_le_mono_r; lia). change (2 ^ 8) with 256 in *. lia. }
  assert (s = 0 \/ s = 1 \/ s = 2 \/ s = 3 \/ s = 4 \/ s = 5 \/ s = 6 \/ s = 7)
    as [->|[->|[->|[->|[->|[->|[->| ->]]]]]]] by lia; discriminate H.
Qed.
Lemma nearest_ok n : n <= 128 ->
  exists s, nearest_axsize n = Ok s /\ s <= 7 /\ n <= 2 ^ s /\ (1 <= n -> 2 ^ s < 2 * n).
Proof.
  intros Hn. unfold nearest_axsize.
  destruct (N.eqb_spec n 1); [exists 0; change (2 ^ 0) with 1; repeat split; lia|].
  destruct (N.eqb_spec n 2); [exists 1; change (2 ^ 1) with 2; repeat split; lia|].
  destruct (N.leb_spec n 4); [exists 2; change (2 ^ 2) with 4; repeat split; lia|].
  destruct (N.leb_spec n 8); [exists 3; change (2 ^ 3) with 8; repeat split; lia|].
  destruct (N.leb_spec n 16); [exists 4; change (2 ^ 4) with 16; repeat split; lia|].
  destruct (N.leb_spec n 32); [exists 5; change (2 ^ 5) with 32; repeat split; lia|].
  destruct (N.leb_spec n 64); [exists 6; change (2 ^ 6) with 64; repeat split; lia|].
  destruct (N.leb_spec n 128); [exists 7; change (2 ^ 7) with 128; repeat split; lia|lia].
Qed.
Lemma nearest_width W : bus_width W -> exists s, nearest_axsize W = Ok s /\ W = 2 ^ s.
Proof. intros H. widths H; eexists; split; reflexivity. Qed.
Lemma axsize_width W : bus_width W -> exists s, axsize_of W = Some s /\ W = 2 ^ s.
Proof. intros H. widths H; eexists; split; reflexivity. Qed.
Lemma width_bounds W : bus_width W -> 4 <= W <= 128.
Proof. intros H. widths H; lia. Qed.
Lemma split_addr a : a < u64 -> a mod u32 + 2 ^ 32 * (N.shiftr a 32 mod u32) = a.
Proof.
  intros H. rewrite N.shiftr_div_pow2. change u64 with (2 ^ 32 * u32) in H. change (2 ^ 32) with u32 in *.
  rewrite (N.mod_small (a / u32)) by (apply N.div_lt_upper_bound; [discriminate|assumption]).
  pose proof (N.div_mod a u32 ltac:(discriminate)). lia.
Qed.

(** What desc_setup chooses.  [one]: AxSIZE from the length *)
Definition one (W : N) (lite : bool) (size : N) : bool :=
  (size <=? W) && negb lite && negb (is_none (axsize_of size)).
Lemma setup_ok W lite m addr wr size be L a : bus_width W ->
  exists s,
    let need := (negb (one W lite size) || negb (L =? 0)) && wr in
    desc_setup W lite m addr wr size be L a
    = Ok (if need then setup_wstrb W m addr size be L else m,
          mkDesc (addr mod u32) (N.shiftr addr 32 mod u32) DRAM_WRITE (N.lor (compute_attr a) 1)
            (nr_beats W (addr mod W) size * W) s
            (N.lor (if wr then 0 else 1) (if need then 2 else 0)))
    /\ (one W lite size = true -> size = 2 ^ s)
    /\ (one W lite size = false ->
          W = 2 ^ s \/ (addr mod W + size < W /\ addr mod W + size <= 2 ^ s
                        /\ (1 <= addr mod W + size -> 2 ^ s < 2 * (addr mod W + size))))
    /\ s <= 7.
Proof.
  intros HW. pose proof (width_bounds _ HW) as Hb. unfold desc_setup, one.
  destruct (axsize_width _ HW) as [sw [Ew Hw]]. destruct (nearest_width _ HW) as [sn [En Hn]].
  destruct (axsize_of_some _ _ Ew) as [_ Hs7].
  assert (sn = sw) as ->.
  { rewrite Hw in Hn. apply N.pow_inj_r in Hn; lia. }
  destruct lite.
  - rewrite !andb_false_r. cbn [is_none andb negb orb]. rewrite Ew.
    exists sw. cbn zeta. split; [reflexivity|]. split; [discriminate|]. split; [|assumption].
    intros _. left. exact Hw.
  - cbn [negb]. rewrite !andb_true_r.
    destruct (N.leb_spec size W) as [Hle|Hgt]; cbn [andb].
    + destruct (axsize_of size) as [s|] eqn:Es; cbn [is_none negb orb].
      * destruct (axsize_of_some _ _ Es) as [E7 H7]. exists s. cbn zeta.
        split; [reflexivity|]. split; [intros _; exact E7|]. split; [discriminate|exact H7].
      * destruct (N.leb_spec W (addr mod W + size)).
        -- exists sw. cbn zeta. rewrite En. split; [reflexivity|]. split; [discriminate|].
           split; [|assumption]. intros _. left. exact Hw.
        -- destruct (nearest_ok (addr mod W + size) ltac:(lia)) as [s [E [H7 [Hc Hm]]]].
           exists s. cbn zeta. rewrite E. split; [reflexivity|]. split; [discriminate|].
           split; [|assumption]. intros _. right. repeat split; assumption.
    + cbn [is_none]. replace (W <=? addr mod W + size) with true by lia.
      exists sw. cbn zeta. rewrite En. split; [reflexivity|]. split; [discriminate|].
      split; [|assumption]. intros _. left. exact Hw.
Qed.
Lemma one_spec W lite size : bus_width W -> one W lite size = true <-> one_size W lite size.
Proof.
  intros HW. pose proof (width_bounds _ HW) as Hb. unfold one, one_size. split.
  - destruct (N.leb_spec size W); cbn [andb]; [|discriminate].
    destruct lite; cbn [negb andb]; [discriminate|].
    destruct (axsize_of size) as [s|] eqn:E; [|discriminate]. intros _.
    destruct (axsize_of_some _ _ E). split; [reflexivity|]. split; [assumption|]. exists s. assumption.
  - intros [-> [Hle [s Hs]]]. replace (size <=? W) with true by lia. cbn [negb andb].
    destruct (axsize_of size) as [s'|] eqn:E; [reflexivity|].
    exfalso. apply (axsize_of_none size ltac:(lia) E s Hs).
Qed.

(** ** the burst *)
Lemma small_exp s : s <= 7 ->
  s = 0 \/ s = 1 \/ s = 2 \/ s = 3 \/ s = 4 \/ s = 5 \/ s = 6 \/ s = 7.
Proof. lia. Qed.
Ltac exps H := destruct (small_exp _ H) as [->|[->|[->|[->|[->|[->|[->| ->]]]]]]].
Ltac pows := change (2 ^ 0) with 1 in *; change (2 ^ 1) with 2 in *; change (2 ^ 2) with 4 in *;
  change (2 ^ 3) with 8 in *; change (2 ^ 4) with 16 in *; change (2 ^ 5) with 32 in *;
  change (2 ^ 6) with 64 in *; change (2 ^ 7) with 128 in *.
Lemma width_beats W A len : bus_width W -> 1 <= len ->
  A / W * W <= A /\ A = A / W * W + A mod W /\ A mod W < W
  /\ (A mod W + len <= W -> nr_beats W (A mod W) len = 1).
Proof.
  intros HW Hl. unfold nr_beats. widths HW; dml.
Qed.
Lemma burst_full W A len s : bus_width W -> 1 <= len -> W = 2 ^ s ->
  A + len <= A / 2 ^ s * 2 ^ s + nr_beats W (A mod W) len * 2 ^ s
  /\ A / 2 ^ s * 2 ^ s + nr_beats W (A mod W) len * 2 ^ s
     = A / W * W + nr_beats W (A mod W) len * W.
Proof.
  intros HW Hl <-. pose proof (beats_cover W (A mod W) len HW).
  destruct (width_beats W A len HW Hl) as [_ [E _]]. lia.
Qed.
Lemma burst_short W A len s : bus_width W -> s <= 7 -> 1 <= len -> A mod W + len < W ->
  A mod W + len <= 2 ^ s -> 2 ^ s <= W ->
  A + len <= A / 2 ^ s * 2 ^ s + 2 ^ s
  /\ A / 2 ^ s * 2 ^ s + 2 ^ s <= A / W * W + W.
Proof.
  intros HW Hs Hl H1 H2 H3. widths HW; exps Hs; pows; try lia; dml.
Qed.
Lemma burst_one W A len s : bus_width W -> s <= 7 -> len = 2 ^ s -> len <= W -> A mod len = 0 ->
  A / 2 ^ s * 2 ^ s + 2 ^ s = A + len /\ A mod W + len <= W.
Proof.
  intros HW Hs -> H1 H2. widths HW; exps Hs; pows; try lia; dml.
Qed.
Lemma burst_bounds W lite A len s : bus_width W -> s <= 7 -> 1 <= len ->
  (one_size W lite len -> A mod len = 0) ->
  (one W lite len = true -> len = 2 ^ s) ->
  (one W lite len = false ->
     W = 2 ^ s \/ (A mod W + len < W /\ A mod W + len <= 2 ^ s
                   /\ (1 <= A mod W + len -> 2 ^ s < 2 * (A mod W + len)))) ->
  let n := nr_beats W (A mod W) len in
  let e := A / 2 ^ s * 2 ^ s + n * 2 ^ s in
  A + len <= e /\ e <= A / W * W + n * W /\ (one W lite len = true -> e = A + len).
Proof.
  intros HW Hs Hl Hal H1 H2. cbn zeta.
  destruct (width_beats W A len HW Hl) as [_ [_ [_ Hn]]].
  destruct (one W lite len) eqn:Eo.
  - specialize (H1 eq_refl). pose proof (proj1 (one_spec W lite len HW) Eo) as Ho.
    destruct (burst_one W A len s HW Hs H1 (proj1 (proj2 Ho)) (Hal Ho)) as [Ha Hb].
    rewrite (Hn Hb). destruct (width_beats W A len HW Hl) as [_ [E _]]. lia.
  - destruct (H2 eq_refl) as [E|[Ha [Hb Hc]]].
    + destruct (burst_full W A len s HW Hl E) as [Hd He]. split; [exact Hd|].
      split; [lia|discriminate].
    + rewrite Hn by lia.
      assert (2 ^ s <= W).
      { clear H1 H2 Hal Eo. widths HW; exps Hs; pows; lia. }
      destruct (burst_short W A len s HW Hs Hl Ha Hb H) as [Hd He].
      rewrite !N.mul_1_l. split; [exact Hd|]. split; [exact He|discriminate].
Qed.

(** ** a write *)
Lemma type_bits (wr need : bool) :
  N.testbit (N.lor (if wr then 0 else 1) (if need then 2 else 0)) 0 = negb wr
  /\ N.testbit (N.lor (if wr then 0 else 1) (if need then 2 else 0)) 1 = need.
Proof. destruct wr, need; split; reflexivity. Qed.
Lemma ok_pair {A B} (a c : A) (b d : B) : Ok (a, b) = Ok (c, d) -> a = c /\ b = d.
Proof. intros H. injection H. auto. Qed.
Lemma write_exact W lite m t A m1 d : bus_width W -> t_wr t = true -> 1 <= t_len t -> A < u64 ->
  A mod W + t_len t <= 0x4000 ->
  (one_size W lite (t_len t) -> A mod t_len t = 0) ->
  desc_setup W lite (put m (DRAM_WRITE + A mod W) (t_len t) (t_data t)) A true (t_len t)
    (t_be t) (t_be_len t) (t_attr t) = Ok (m1, d) ->
  forall x, written W m1 d x = asked t A x.
Proof.
  intros HW _ Hl HA Hfit Hal E x.
  set (m0 := put m (DRAM_WRITE + A mod W) (t_len t) (t_data t)) in *.
  destruct (setup_ok W lite m0 A true (t_len t) (t_be t) (t_be_len t) (t_attr t) HW)
    as [s [E' [H1 [H2 H7]]]].
  cbn zeta in E'. rewrite E' in E. clear E'. apply ok_pair in E. destruct E as [<- <-].
  destruct (burst_bounds W lite A (t_len t) s HW H7 Hl Hal H1 H2) as [B1 [B2 B3]].
  destruct (width_beats W A (t_len t) HW Hl) as [W1 [W2 [W3 _]]].
  pose proof (width_bounds W HW) as Wb.
  unfold written, burst_end, axaddr, has_strobes, beats, asked, takes_part.
  cbn [d_addr_lo d_addr_hi d_axsize d_size d_type].
  rewrite (split_addr A HA), N.div_mul by lia. rewrite andb_true_r.
  rewrite (fun b : bool => proj2 (type_bits true b) : N.testbit (N.lor 0 (if b then 2 else 0)) 1 = b).
  set (n := nr_beats W (A mod W) (t_len t)) in *.
  set (e := A / 2 ^ s * 2 ^ s + n * 2 ^ s) in *.
  destruct (N.leb_spec A x) as [Hx|Hx]; cbn [andb]; [|reflexivity].
  set (need := negb (one W lite (t_len t)) || negb (t_be_len t =? 0)).
  assert (Hset := setup_at W m0 A (t_len t) (t_be t) (t_be_len t) HW).
  fold n in Hset. clearbody n e.
  clear H1 H2 Hal H7 HW HA.
  assert (Hm0 : forall y, m0 y = if (DRAM_WRITE + A mod W <=? y) && (y <? DRAM_WRITE + A mod W + t_len t)
                                 then t_data t (y - (DRAM_WRITE + A mod W)) else m y) by reflexivity.
  clearbody m0. revert Hset Hm0 W1 W2 W3 Hfit B2.
  generalize (setup_wstrb W m0 A (t_len t) (t_be t) (t_be_len t)). intros mS.
  generalize (A / W * W) (A mod W) (n * W). intros q r nW Hset Hm0 W1 W2 W3 Hfit B2.
  unfold strobes_in in Hset.
  (* the data memory *)
  assert (Hdat : x < A + t_len t ->
            (if need then mS else m0)
              (DRAM_WRITE + (x - q)) = t_data t (x - A)).
  { intros Hlt.
    assert (E0 : m0 (DRAM_WRITE + (x - q)) = t_data t (x - A)).
    { rewrite Hm0. unfold DRAM_WRITE.
      replace (0xC000 + r <=? 0xC000 + (x - q)) with true by lia.
      replace (0xC000 + (x - q) <? 0xC000 + r + t_len t) with true by lia.
      cbn [andb]. f_equal. lia. }
    destruct need; [|exact E0]. rewrite Hset.
    unfold DRAM_WSTRB. replace (0x10000 + 0 <=? DRAM_WRITE + (x - q)) with false.
    2:{ unfold DRAM_WRITE. lia. }
    exact E0. }
  (* the strobes *)
  assert (Hstr : need = true -> x < e ->
            (mS (DRAM_WSTRB + (x - q)) =? 255)
            = (x - A <? t_len t) && ((t_be_len t =? 0) || t_be t ((x - A) mod t_be_len t))).
  { intros _ Hlt. rewrite Hset.
    replace (DRAM_WSTRB + 0 <=? DRAM_WSTRB + (x - q)) with true by lia.
    replace (DRAM_WSTRB + (x - q) <? DRAM_WSTRB + nW) with true by lia.
    cbn [andb].
    replace (DRAM_WSTRB + (x - q) - DRAM_WSTRB) with (x - q) by lia.
    unfold strobe_at.
    replace (x - q - r) with (x - A) by lia.
    replace (r <=? x - q) with true by lia.
    replace (x - q <? r + t_len t) with (x - A <? t_len t) by lia.
    cbn [andb].
    destruct ((x - A <? t_len t) && ((t_be_len t =? 0) || t_be t ((x - A) mod t_be_len t))); reflexivity. }
  destruct (N.ltb_spec (x - A) (t_len t)) as [Hin|Hout]; cbn [andb] in Hstr |- *.
  - replace (x <? e) with true by lia. cbn [andb]. rewrite Hdat by lia.
    destruct need eqn:En; cbn [negb orb].
    + rewrite (Hstr eq_refl) by lia. reflexivity.
    + unfold need in En. apply orb_false_elim in En. destruct En as [_ En].
      apply negb_false_iff in En. rewrite En. reflexivity.
  - destruct (N.ltb_spec x e) as [He|He]; cbn [andb]; [|reflexivity].
    destruct need eqn:En; cbn [negb orb].
    + rewrite (Hstr eq_refl He). reflexivity.
    + exfalso. unfold need in En. apply orb_false_elim in En. destruct En as [En _].
      apply negb_false_iff in En. specialize (B3 En). lia.
Qed.

Lemma status_ok x : axi_status (N.land x 3) = resp_status (N.land x 3).
Proof.
  change 3 with (N.ones 2). rewrite N.land_ones. change (2 ^ 2) with 4.
  assert (x mod 4 < 4) by (apply N.mod_lt; lia).
  assert (x mod 4 = 0 \/ x mod 4 = 1 \/ x mod 4 = 2 \/ x mod 4 = 3) as [-> |[-> |[-> | ->]]] by lia;
    reflexivity.
Qed.
