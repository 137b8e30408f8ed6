(** CheckWstrb against the byte-lane rules, and the address checks. *)
From Verif Require Import Base AxiChkModel AxiChkSpec.
Open Scope N_scope.

(** ** Loops over lanes *)
Lemma zeros_ok bus s : forall n i, i + N.of_nat n <= bus ->
  exists b, zeros bus s i n = Ok b /\
    (b = true <-> forall j, i <= j < i + N.of_nat n -> N.testbit s j = false).
Proof.
  induction n as [|n IH]; intros i H.
  - exists true. split; [reflexivity|]. split; [|reflexivity]. intros _ j Hj. lia.
  - cbn [zeros]. unfold bit. replace (i <? bus) with true by lia. cbn [rbind].
    destruct (N.testbit s i) eqn:Eb.
    + exists false. split; [reflexivity|]. split; [discriminate|].
      intros F. rewrite F in Eb by lia. discriminate.
    + destruct (IH (i + 1)) as [b [E F]]; [lia|]. exists b. split; [exact E|].
      rewrite F. split; intros G j Hj.
      * destruct (N.eq_dec j i) as [->|Hne]; [exact Eb|]. apply G. lia.
      * apply G. lia.
Qed.

Lemma ones_ok bus s : forall n i, i + N.of_nat n <= bus ->
  exists b, ones bus s i n = Ok b /\
    (b = true <-> forall j, i <= j < i + N.of_nat n -> N.testbit s j = true).
Proof.
  induction n as [|n IH]; intros i H.
  - exists true. split; [reflexivity|]. split; [|reflexivity]. intros _ j Hj. lia.
  - cbn [ones]. unfold bit. replace (i <? bus) with true by lia. cbn [rbind].
    destruct (N.testbit s i) eqn:Eb.
    + destruct (IH (i + 1)) as [b [E F]]; [lia|]. exists b. split; [exact E|].
      rewrite F. split; intros G j Hj.
      * destruct (N.eq_dec j i) as [->|Hne]; [exact Eb|]. apply G. lia.
      * apply G. lia.
    + exists false. split; [reflexivity|]. split; [discriminate|].
      intros F. rewrite F in Eb by lia. discriminate.
Qed.

Lemma first_zero_ok bus s : forall n i, i + N.of_nat n <= bus ->
  exists x, first_zero bus s i n = Ok x /\ i <= x <= i + N.of_nat n /\
    (forall j, i <= j < x -> N.testbit s j = true) /\
    (x < i + N.of_nat n -> N.testbit s x = false).
Proof.
  induction n as [|n IH]; intros i H.
  - exists i. split; [reflexivity|]. split; [lia|]. split; intros; lia.
  - cbn [first_zero]. unfold bit. replace (i <? bus) with true by lia. cbn [rbind].
    destruct (N.testbit s i) eqn:Eb.
    + destruct (IH (i + 1)) as [x [E [F [G K]]]]; [lia|]. exists x.
      split; [exact E|]. split; [lia|]. split.
      * intros j Hj. destruct (N.eq_dec j i) as [->|Hne]; [exact Eb|]. apply G. lia.
      * intros Hx. apply K. lia.
    + exists i. split; [reflexivity|]. split; [lia|]. split; [intros; lia|].
      intros _. exact Eb.
Qed.

(** ** Which lanes *)
Definition with_beat (a : axp) (k : N) : wtx :=
  mkWtx (w64 (ax_addr a)) (ax_len a) (ax_size a) (ax_burst a) (ax_id a)
        (is_excl (ax_lock a)) (w32 (1 + k)).

Lemma mod_eq x m : m <> 0 -> x - x / m * m = x mod m.
Proof. intros H. pose proof (N.div_mod x m H). lia. Qed.

Section Pow.
Variables (nb m addr : N).
Hypothesis Hnb : 0 < nb.
Hypothesis Hm : 0 < m.

Lemma down_bus : down addr (nb * m) = addr / nb / m * m * nb.
Proof. unfold down. rewrite <- N.div_div by lia. lia. Qed.

Lemma down_mod : down addr nb mod (nb * m) = nb * ((addr / nb) mod m).
Proof.
  unfold down. rewrite (N.mul_comm (addr / nb)). apply N.mul_mod_distr_l; lia.
Qed.

Lemma down_sub : down addr nb - down addr (nb * m) = down addr nb mod (nb * m).
Proof.
  rewrite down_mod, down_bus. unfold down.
  pose proof (N.div_mod (addr / nb) m ltac:(lia)). nia.
Qed.

Lemma down_le : down addr (nb * m) <= down addr nb.
Proof.
  rewrite down_bus. unfold down.
  pose proof (N.div_mod (addr / nb) m ltac:(lia)). nia.
Qed.

Lemma lane_top : down addr nb mod (nb * m) + nb <= nb * m.
Proof.
  rewrite down_mod. pose proof (N.mod_lt (addr / nb) m ltac:(lia)). nia.
Qed.
End Pow.

Lemma down_mult q nb : 0 < nb -> down (q * nb) nb = q * nb.
Proof. intros H. unfold down. rewrite N.div_mul by lia. reflexivity. Qed.

Lemma mod_down x nb : 0 < nb -> x mod nb = 0 -> down x nb = x.
Proof.
  intros H E. unfold down. pose proof (N.div_mod x nb ltac:(lia)). lia.
Qed.

Lemma mod_pow x b c : b <= c -> (x mod 2 ^ c) mod 2 ^ b = x mod 2 ^ b.
Proof.
  intros H. replace c with (b + (c - b)) by lia. rewrite N.pow_add_r.
  rewrite N.mod_mul_r by (apply N.pow_nonzero; lia).
  rewrite (N.mul_comm (2 ^ b)), N.mod_add by (apply N.pow_nonzero; lia).
  apply N.mod_mod, N.pow_nonzero. lia.
Qed.

(** The address of a beat, modulo the bus, when the burst does not leave its
    lanes. *)
Lemma beat_addr_mod bus a k :
  plain bus a -> k <> 0 ->
  exists q, beat_addr a k = q * burst_bytes a /\
    (q * burst_bytes a) mod bus =
    (down (ax_addr a) (burst_bytes a)
     + (if ax_burst a =? 0 then 0 else k * burst_bytes a)) mod bus.
Proof.
  intros [[b [Hbus [Hb Hsz]]] [Haddr [Hlen Hk]]] Hk0.
  unfold beat_addr. replace (k =? 0) with false by lia.
  set (nb := burst_bytes a) in *.
  assert (Hnb : 0 < nb) by (apply N.neq_0_lt_0, N.pow_nonzero; lia).
  assert (Hbpos : 0 < bus) by (subst bus; apply N.neq_0_lt_0, N.pow_nonzero; lia).
  destruct Hk as [E|[E0 [E|[E Et]]]]; rewrite E; simpl N.eqb; cbv iota.
  - exists (ax_addr a / nb + k). unfold down. split; [lia|].
    replace ((ax_addr a / nb + k) * nb) with (ax_addr a / nb * nb + k * nb) by lia.
    reflexivity.
  - exists (ax_addr a / nb). pose proof (mod_down _ _ Hnb E0) as D. unfold down in *.
    split; [lia|]. rewrite N.add_0_r. reflexivity.
  -
    set (n := ax_len a + 1) in *.
    assert (Hn : 0 < n) by (unfold n; lia).
    assert (Htot : 0 < nb * n) by nia.
    pose proof (mod_down _ _ Hnb E0) as D. rewrite D.
    pose proof (down_le nb n (ax_addr a) Hnb Hn) as Dl. rewrite D in Dl.
    pose proof (down_bus nb n (ax_addr a) Hnb Hn) as Db.
    set (L := down (ax_addr a) (nb * n)) in *.
    set (y := ax_addr a - L + k * nb).
    assert (Hy : y = nb * (y / nb)).
    { assert (Hy0 : y = (ax_addr a / nb - ax_addr a / nb / n * n + k) * nb).
      { rewrite N.mul_add_distr_r, N.mul_sub_distr_r. unfold y. rewrite Db.
        unfold down in D. rewrite D. reflexivity. }
      rewrite Hy0 at 2. rewrite N.div_mul by lia. rewrite Hy0. lia. }
    assert (Hmm : y mod (nb * n) = nb * ((y / nb) mod n)).
    { rewrite Hy at 1. apply N.mul_mod_distr_l; lia. }
    exists (ax_addr a / nb / n * n + (y / nb) mod n). split.
    + rewrite Hmm, Db. lia.
    + replace ((ax_addr a / nb / n * n + (y / nb) mod n) * nb)
        with (L + y mod (nb * n)) by (rewrite Hmm, Db; lia).
      pose proof (N.div_mod y (nb * n) ltac:(lia)) as Dy.
      pose proof (N.div_mod (nb * n) bus ltac:(lia)) as Dt.
      rewrite Et, N.add_0_r in Dt.
      rewrite <- (N.mod_add (L + y mod (nb * n)) (nb * n / bus * (y / (nb * n))) bus)
        by lia.
      f_equal. unfold y in *. nia.
Qed.

Lemma lanes_ok bus a k :
  plain bus a -> k <= ax_len a ->
  lanes bus (with_beat a k) = (lower_lane bus a k, upper_lane bus a k) /\
  lower_lane bus a k <= upper_lane bus a k < bus /\ bus <= 128.
Proof.
  intros Hpl Hk. pose proof Hpl as [[b [Hbus [Hb Hsz]]] [Haddr [Hlen _]]].
  assert (Hw : w64 (ax_addr a) = ax_addr a) by (unfold w64; apply N.mod_small; exact Haddr).
  assert (Hbeat : w32 (1 + k) = 1 + k)
    by (unfold w32; apply N.mod_small; change (2 ^ 32) with 4294967296; lia).
  assert (Hnb : 0 < burst_bytes a) by (apply N.neq_0_lt_0, N.pow_nonzero; lia).
  assert (Hm : exists m, 0 < m /\ bus = burst_bytes a * m).
  { exists (2 ^ (b - ax_size a)). split; [apply N.neq_0_lt_0, N.pow_nonzero; lia|].
    unfold burst_bytes. rewrite <- N.pow_add_r, Hbus. f_equal. lia. }
  assert (H128 : bus <= 128).
  { rewrite Hbus. change 128 with (2 ^ 7). apply N.pow_le_mono_r; lia. }
  destruct Hm as [m [Hm Em]].
  assert (Hnbm : burst_bytes a <= bus) by nia.
  assert (Hbpos : bus <> 0) by nia.
  unfold lanes, number_bytes, with_beat. cbn [wt_size wt_addr wt_beat wt_burst].
  rewrite Hw, Hbeat. fold (burst_bytes a). unfold align.
  destruct (N.eq_dec k 0) as [->|Hk0].
  - change (1 + 0 =? 1) with true. cbv iota.
    unfold lower_lane, upper_lane, beat_addr. change (0 =? 0) with true. cbv iota.
    pose proof (down_sub (burst_bytes a) m (ax_addr a) Hnb Hm) as Ds.
    pose proof (down_le (burst_bytes a) m (ax_addr a) Hnb Hm) as Dl.
    pose proof (lane_top (burst_bytes a) m (ax_addr a) Hnb Hm) as Dt.
    rewrite <- Em in *. unfold down in Ds, Dl, Dt |- *.
    pose proof (N.mod_lt (ax_addr a) bus Hbpos) as Hml.
    split.
    + f_equal.
      * rewrite mod_eq by exact Hbpos. unfold w32. apply N.mod_small.
        change (2 ^ 32) with 4294967296. lia.
      * unfold w32.
        replace (ax_addr a / burst_bytes a * burst_bytes a + (burst_bytes a - 1) + 2 ^ 64
                 - ax_addr a / bus * bus)
          with ((ax_addr a / burst_bytes a * burst_bytes a) mod bus + (burst_bytes a - 1)
                + 2 ^ 32 * 2 ^ 32)
          by (change (2 ^ 32 * 2 ^ 32) with (2 ^ 64); rewrite <- Ds; lia).
        rewrite N.mod_add by discriminate. apply N.mod_small.
        change (2 ^ 32) with 4294967296. lia.
    + split; [|exact H128]. split; [|lia].
      assert (Hr : ax_addr a mod bus
                   = (ax_addr a / burst_bytes a * burst_bytes a) mod bus
                     + ax_addr a mod burst_bytes a).
      { rewrite <- Ds, <- (mod_eq (ax_addr a) bus) by exact Hbpos.
        pose proof (N.div_mod (ax_addr a) (burst_bytes a) ltac:(lia)). lia. }
      pose proof (N.mod_lt (ax_addr a) (burst_bytes a) ltac:(lia)). lia.
  - replace (1 + k =? 1) with false by lia.
    destruct (beat_addr_mod bus a k Hpl Hk0) as [q [Eq Emod]].
    unfold lower_lane, upper_lane. rewrite Eq, down_mult by exact Hnb.
    pose proof (lane_top (burst_bytes a) m (q * burst_bytes a) Hnb Hm) as Dt.
    rewrite down_mult, <- Em in Dt by exact Hnb.
    set (addr := if ax_burst a =? BURST_FIXED then _ else _).
    assert (Ha : addr mod bus = (q * burst_bytes a) mod bus).
    { rewrite Emod. unfold addr, BURST_FIXED, down.
      destruct (ax_burst a =? 0); [rewrite N.add_0_r; reflexivity|].
      assert (E1 : w32 (1 + k + 2 ^ 32 - 1) = k).
      { unfold w32. replace (1 + k + 2 ^ 32 - 1) with (k + 1 * 2 ^ 32) by lia.
        rewrite N.mod_add by discriminate. apply N.mod_small.
        change (2 ^ 32) with 4294967296. lia. }
      rewrite E1. unfold w32.
      rewrite (N.mod_small (k * burst_bytes a))
        by (change (2 ^ 32) with 4294967296; nia).
      unfold w64. rewrite Hbus. apply mod_pow. lia. }
    rewrite mod_eq by exact Hbpos. rewrite Ha.
    pose proof (N.mod_lt (q * burst_bytes a) bus Hbpos) as Hml.
    split.
    + assert (E2 : w32 ((q * burst_bytes a) mod bus) = (q * burst_bytes a) mod bus)
        by (unfold w32; apply N.mod_small; change (2 ^ 32) with 4294967296; lia).
      rewrite E2. f_equal. unfold w32. apply N.mod_small.
      change (2 ^ 32) with 4294967296. lia.
    + split; [split; lia|exact H128].
Qed.

(** ** The check *)
Lemma check_wstrb_ok bus gaps a k s :
  plain bus a -> k <= ax_len a ->
  exists b, check_wstrb bus gaps (with_beat a k) s = Ok b /\
    (b = true <-> strobe_rule bus gaps a k s).
Proof.
  intros Hpl Hk. pose proof (lanes_ok bus a k Hpl Hk) as [El [[Hlu Hub] H128]].
  pose proof Hpl as [_ [_ [Hlen _]]].
  unfold check_wstrb. rewrite El.
  assert (Elast : (wt_beat (with_beat a k) =? num_beats (with_beat a k))
                  = (k =? ax_len a)).
  { unfold num_beats, with_beat, w32. cbn [wt_beat wt_len].
    rewrite !N.mod_small by (change (2 ^ 32) with 4294967296; lia). lia. }
  rewrite Elast. unfold strobe_rule. clear Elast El Hpl.
  set (lo := lower_lane bus a k) in *. set (up := upper_lane bus a k) in *.
  clearbody lo up.
  destruct (zeros_ok bus s (N.to_nat lo) 0) as [z [Ez Hz]]; [lia|].
  rewrite Ez. cbn [rbind]. rewrite N2Nat.id in Hz.
  assert (Hlow : z = true <-> forall j, j < lo -> N.testbit s j = false).
  { rewrite Hz. split; intros H j Hj; apply H; lia. }
  clear Hz Ez.
  destruct z.
  2:{ exists false. split; [reflexivity|]. split; [discriminate|]. intros H.
      apply Hlow. intros j Hj. destruct (N.testbit s j) eqn:Eb; [exfalso|reflexivity].
      destruct gaps.
      - apply H in Eb; lia.
      - destruct H as [x [Hx [_ H]]]. apply H in Eb; lia. }
  assert (Hlow' : forall j, j < lo -> N.testbit s j = false) by (apply Hlow; reflexivity).
  clear Hlow.
  assert (Htail : forall i, i <= bus -> exists b, zeros bus s i (N.to_nat (bus - i)) = Ok b /\
            (b = true <-> forall j, i <= j < bus -> N.testbit s j = false)).
  { intros i Hi. destruct (zeros_ok bus s (N.to_nat (bus - i)) i) as [b [E F]]; [lia|].
    exists b. split; [exact E|]. rewrite F. rewrite N2Nat.id.
    split; intros G j Hj; apply G; lia. }
  destruct gaps.
  - unfold w32. rewrite N.mod_small by (change (2 ^ 32) with 4294967296; lia).
    destruct (Htail (up + 1)) as [b [E F]]; [lia|]. exists b. split; [exact E|].
    rewrite F. split.
    + intros G i Hi Ht. destruct (N.lt_ge_cases i lo) as [H1|H1].
      * rewrite Hlow' in Ht by exact H1. discriminate.
      * split; [exact H1|]. destruct (N.le_gt_cases i up) as [H2|H2]; [exact H2|].
        rewrite G in Ht by lia. discriminate.
    + intros G j Hj. destruct (N.testbit s j) eqn:Eb; [|reflexivity].
      apply G in Eb; lia.
  - destruct (N.eqb_spec k (ax_len a)) as [Ek|Ek].
    + unfold bit at 1. replace (lo <? bus) with true by lia. cbn [rbind].
      destruct (N.testbit s lo) eqn:Eb.
      2:{ exists false. split; [reflexivity|]. split; [discriminate|].
          intros [x [Hx [_ H]]]. assert (N.testbit s lo = true) by (apply H; lia).
          congruence. }
      unfold upto.
      destruct (first_zero_ok bus s (N.to_nat (N.min (up + 1) (bus + 1) - (lo + 1)))
                  (lo + 1)) as [x [E [F [G K]]]]; [lia|].
      rewrite E. cbn [rbind].
      destruct (Htail x) as [b [E2 F2]]; [lia|]. exists b. split; [exact E2|].
      rewrite F2. split.
      * intros Z. exists (x - 1). split; [lia|]. split; [intros; contradiction|].
        intros i Hi. split.
        -- intros Ht. destruct (N.lt_ge_cases i lo) as [H1|H1];
             [rewrite Hlow' in Ht by exact H1; discriminate|].
           split; [exact H1|]. destruct (N.lt_ge_cases i x) as [H2|H2]; [lia|].
           rewrite Z in Ht by lia. discriminate.
        -- intros Hr. destruct (N.eq_dec i lo) as [->|Hne]; [exact Eb|]. apply G. lia.
      * intros [y [Hy [_ H]]] j Hj.
        destruct (N.testbit s j) eqn:Ej; [exfalso|reflexivity].
        apply H in Ej; [|lia].
        destruct (N.eq_dec x (up + 1)) as [->|Hne]; [lia|].
        assert (N.testbit s x = false) by (apply K; lia).
        assert (N.testbit s x = true) by (apply H; lia). congruence.
    + unfold upto.
      destruct (ones_ok bus s (N.to_nat (N.min (up + 1) (bus + 1) - lo)) lo)
        as [o [E F]]; [lia|].
      rewrite E. cbn [rbind].
      assert (Eall : o = true <-> forall j, lo <= j <= up -> N.testbit s j = true).
      { rewrite F. split; intros G j Hj; apply G; lia. }
      destruct o.
      * replace (N.max lo (up + 1)) with (up + 1) by lia.
        destruct (Htail (up + 1)) as [b [E2 F2]]; [lia|]. exists b.
        split; [exact E2|]. rewrite F2. split.
        -- intros Z. exists up. split; [lia|]. split; [reflexivity|].
           intros i Hi. split.
           ++ intros Ht. destruct (N.lt_ge_cases i lo) as [H1|H1];
                [rewrite Hlow' in Ht by exact H1; discriminate|].
              split; [exact H1|]. destruct (N.le_gt_cases i up) as [H2|H2]; [exact H2|].
              rewrite Z in Ht by lia. discriminate.
           ++ intros Hr. apply Eall; [reflexivity|exact Hr].
        -- intros [x [Hx [Hx2 H]]] j Hj. rewrite (Hx2 Ek) in H.
           destruct (N.testbit s j) eqn:Ej; [exfalso|reflexivity].
           apply H in Ej; lia.
      * exists false. split; [reflexivity|]. split; [discriminate|].
        intros [x [Hx [Hx2 H]]]. apply Eall. intros j Hj. rewrite (Hx2 Ek) in H.
        apply H; lia.
Qed.

(** ** Addresses *)
Lemma land_mask x y : x < 2 ^ 64 -> y < 2 ^ 64 ->
  (N.land x (2 ^ 64 - 4096) = N.land y (2 ^ 64 - 4096) <-> x / 4096 = y / 4096).
Proof.
  intros Hx Hy.
  assert (G : forall z, z < 2 ^ 64 -> N.land z (2 ^ 64 - 4096) = z / 4096 * 4096).
  { intros z Hz.
    replace (z / 4096 * 4096) with (N.shiftl (N.shiftr z 12) 12)
      by (rewrite N.shiftl_mul_pow2, N.shiftr_div_pow2; reflexivity).
    apply N.bits_inj. intros i. rewrite N.land_spec.
    replace (2 ^ 64 - 4096) with (N.shiftl (N.ones 52) 12) by reflexivity.
    destruct (N.lt_ge_cases i 12) as [H|H].
    - rewrite !N.shiftl_spec_low by exact H. apply andb_false_r.
    - rewrite !N.shiftl_spec_high' by exact H. rewrite N.shiftr_spec'.
      replace (i - 12 + 12) with i by lia.
      destruct (N.lt_ge_cases i 64) as [H2|H2].
      + rewrite N.ones_spec_low by lia. apply andb_true_r.
      + rewrite N.ones_spec_high by lia. rewrite andb_false_r.
        symmetry. destruct (N.eq_dec z 0) as [->|Hz0]; [apply N.bits_0|].
        apply N.bits_above_log2. apply N.log2_lt_pow2; [lia|].
        apply (N.lt_le_trans _ (2 ^ 64)); [exact Hz|]. apply N.pow_le_mono_r; lia. }
  rewrite !G by assumption. split; intros H; lia.
Qed.

Lemma page_iff A T : 0 < T ->
  ((A + T - 1) / 4096 = A / 4096 <-> A mod 4096 + T <= 4096).
Proof.
  intros H. pose proof (N.div_mod A 4096 ltac:(discriminate)) as D1.
  pose proof (N.div_mod (A + T - 1) 4096 ltac:(discriminate)) as D2.
  pose proof (N.mod_lt A 4096 ltac:(discriminate)).
  pose proof (N.mod_lt (A + T - 1) 4096 ltac:(discriminate)).
  split; intros G.
  - rewrite G in D2. lia.
  - assert (A / 4096 <= (A + T - 1) / 4096) by (apply N.div_le_mono; lia). lia.
Qed.

Section Page.
Variables (a : axp).
Hypothesis (Hsz : ax_size a <= 7) (Hlen : ax_len a < 256).
Let nb := burst_bytes a.
Let T := (ax_len a + 1) * nb.

Lemma page_nb : 0 < nb /\ nb <= 128 /\ exists m, 0 < m /\ 4096 = nb * m.
Proof.
  unfold nb, burst_bytes. split; [apply N.neq_0_lt_0, N.pow_nonzero; lia|].
  split; [change 128 with (2 ^ 7); apply N.pow_le_mono_r; lia|].
  exists (2 ^ (12 - ax_size a)). split; [apply N.neq_0_lt_0, N.pow_nonzero; lia|].
  rewrite <- N.pow_add_r. replace (ax_size a + (12 - ax_size a)) with 12 by lia.
  reflexivity.
Qed.

Lemma down_page x : down x nb / 4096 = x / 4096 /\
  down x nb <= x < down x nb + nb /\ down x nb mod 4096 + nb <= 4096.
Proof.
  destruct page_nb as [Hn [_ [m [Hm E]]]].
  pose proof (lane_top nb m x Hn Hm) as Ht. rewrite <- E in Ht.
  pose proof (N.div_mod x nb ltac:(lia)) as D.
  pose proof (N.mod_lt x nb ltac:(lia)).
  assert (Hr : down x nb <= x < down x nb + nb) by (unfold down; lia).
  split; [|split; [exact Hr|exact Ht]].
  pose proof (N.div_mod (down x nb) 4096 ltac:(discriminate)) as D2.
  apply (N.div_unique x 4096 (down x nb / 4096) (x - 4096 * (down x nb / 4096))); lia.
Qed.

Lemma same_page_iff : ax_burst a = 1 ->
  (same_page a <-> down (ax_addr a) nb mod 4096 + T <= 4096).
Proof.
  intros Hb. destruct page_nb as [Hn [Hn2 _]].
  assert (HT : 0 < T) by (unfold T; nia).
  destruct (down_page (ax_addr a)) as [P1 [P2 P3]].
  rewrite <- (page_iff _ T HT), P1.
  assert (Hba : forall k, k <> 0 -> beat_addr a k = down (ax_addr a) nb + k * nb).
  { intros k Hk. unfold beat_addr. rewrite Hb. apply N.eqb_neq in Hk. rewrite Hk.
    reflexivity. }
  assert (Hdk : forall k, down (beat_addr a k) nb = down (ax_addr a) nb + k * nb).
  { intros k. destruct (N.eq_dec k 0) as [->|Hk].
    - unfold beat_addr. change (0 =? 0) with true. cbv iota. lia.
    - rewrite Hba by exact Hk.
      replace (down (ax_addr a) nb + k * nb) with ((ax_addr a / nb + k) * nb)
        by (unfold down; lia).
      apply down_mult, Hn. }
  unfold same_page. fold nb. split.
  - intros H. apply (H (ax_len a)); [lia|]. rewrite Hdk. unfold T.
    split; [|nia]. destruct (N.eq_dec (ax_len a) 0) as [E0|Hk].
    + rewrite E0. unfold beat_addr. change (0 =? 0) with true. cbv iota. lia.
    + rewrite Hba by exact Hk. nia.
  - intros H k x Hk. rewrite Hdk. intros Hx.
    assert (Hlo : down (ax_addr a) nb <= x).
    { destruct (N.eq_dec k 0) as [->|Hk0].
      - unfold beat_addr in Hx. change (0 =? 0) with true in Hx. cbv iota in Hx. lia.
      - rewrite Hba in Hx by exact Hk0. lia. }
    assert (Hhi : x <= down (ax_addr a) nb + T - 1) by (unfold T; nia).
    rewrite <- P1 in H |- *.
    pose proof (N.div_le_mono _ _ 4096 ltac:(discriminate) Hlo).
    pose proof (N.div_le_mono _ _ 4096 ltac:(discriminate) Hhi). lia.
Qed.

Lemma down_mod_page x c : 12 <= c -> down (x mod 2 ^ c) nb mod 4096 = down x nb mod 4096.
Proof.
  intros Hc. destruct page_nb as [Hn [_ [m [Hm E]]]].
  rewrite E, !down_mod by assumption. f_equal.
  replace (2 ^ c) with (nb * (m * 2 ^ (c - 12))).
  2:{ rewrite N.mul_assoc, <- E. change 4096 with (2 ^ 12). rewrite <- N.pow_add_r.
      f_equal. lia. }
  set (w := 2 ^ (c - 12)).
  assert (Hw : 0 < w) by (apply N.neq_0_lt_0, N.pow_nonzero; lia).
  rewrite N.mod_mul_r by (nia).
  rewrite (N.mul_comm nb ((x / nb) mod (m * w))), N.div_add by lia.
  rewrite (N.div_small (x mod nb)) by (apply N.mod_lt; lia). rewrite N.add_0_l.
  rewrite (N.mod_mul_r (x / nb) m w) by nia.
  rewrite (N.mul_comm m), N.mod_add by lia. apply N.mod_mod. lia.
Qed.

Lemma check_incr addr : addr < 2 ^ 64 ->
  (check_address addr 1 (ax_size a) (ax_len a) = true <->
   down addr nb mod 4096 + T <= 4096).
Proof.
  intros Ha. unfold check_address. change (1 =? BURST_WRAP) with false.
  change (1 =? BURST_INCR) with true. cbv iota. fold (burst_bytes a). fold nb.
  fold (down addr nb).
  destruct page_nb as [Hn [Hn2 _]].
  assert (HT : 0 < T /\ T <= 32768) by (unfold T; nia).
  destruct (down_page addr) as [P1 [P2 P3]].
  set (A := down addr nb) in *.
  assert (HA : A < 2 ^ 64) by lia.
  assert (E1 : w32 ((ax_len a + 1) * nb) = T).
  { unfold w32. fold T. apply N.mod_small. change (2 ^ 32) with 4294967296. lia. }
  rewrite E1, N.eqb_eq.
  assert (Hl : w64 (A + T + 2 ^ 64 - 1) = (A + T - 1) mod 2 ^ 64).
  { unfold w64. replace (A + T + 2 ^ 64 - 1) with (A + T - 1 + 1 * 2 ^ 64) by lia.
    apply N.mod_add. discriminate. }
  rewrite Hl, land_mask by (try apply N.mod_lt; (exact HA || discriminate)).
  rewrite <- page_iff by lia.
  destruct (N.lt_ge_cases (A + T - 1) (2 ^ 64)) as [H|H].
  - rewrite N.mod_small by exact H. split; intros; congruence.
  - assert (Em : (A + T - 1) mod 2 ^ 64 = A + T - 1 - 2 ^ 64).
    { symmetry. apply (N.mod_unique _ _ 1); [|lia].
      change (2 ^ 64) with 18446744073709551616 in *. lia. }
    rewrite Em.
    pose proof (N.div_mod A 4096 ltac:(discriminate)).
    pose proof (N.mod_lt A 4096 ltac:(discriminate)).
    pose proof (N.div_mod (A + T - 1 - 2 ^ 64) 4096 ltac:(discriminate)).
    pose proof (N.mod_lt (A + T - 1 - 2 ^ 64) 4096 ltac:(discriminate)).
    pose proof (N.div_mod (A + T - 1) 4096 ltac:(discriminate)).
    pose proof (N.mod_lt (A + T - 1) 4096 ltac:(discriminate)).
    change (2 ^ 64) with 18446744073709551616 in *. split; intros; exfalso; lia.
Qed.

Lemma check_length_ok :
  check_length (ax_burst a) (ax_len a) = true <->
  (ax_burst a = 2 -> In (ax_len a + 1) [2; 4; 8; 16]).
Proof.
  unfold check_length. change BURST_WRAP with 2.
  destruct (N.eqb_spec (ax_burst a) 2) as [E|E]; [|tauto].
  unfold w32. rewrite N.mod_small by (change (2 ^ 32) with 4294967296; lia).
  cbn [In]. lia.
Qed.

Lemma check_address_ok c : 12 <= c <= 64 ->
  (check_address (ax_addr a mod 2 ^ c) (ax_burst a) (ax_size a) (ax_len a mod 256) = true
   <-> (ax_burst a = 1 -> same_page a) /\ (ax_burst a = 2 -> ax_addr a mod nb = 0)).
Proof.
  intros Hc. rewrite (N.mod_small (ax_len a)) by exact Hlen.
  destruct (N.eq_dec (ax_burst a) 1) as [E|E].
  - rewrite E, check_incr.
    + rewrite down_mod_page, <- same_page_iff by (lia || exact E).
      split; [intros H; split; [auto|intros; discriminate]|intros [H _]; apply H; reflexivity].
    + apply (N.lt_le_trans _ (2 ^ c)); [apply N.mod_lt, N.pow_nonzero; lia|].
      apply N.pow_le_mono_r; lia.
  - unfold check_address. change BURST_WRAP with 2. change BURST_INCR with 1.
    replace (ax_burst a =? 1) with false by lia.
    destruct (N.eqb_spec (ax_burst a) 2) as [E2|E2]; [|tauto].
    fold (burst_bytes a). fold nb.
    destruct page_nb as [Hn _].
    assert (Em : (ax_addr a mod 2 ^ c) mod nb = ax_addr a mod nb)
      by (unfold nb, burst_bytes; apply mod_pow; lia).
    pose proof (N.div_mod (ax_addr a mod 2 ^ c) nb ltac:(lia)) as D. rewrite Em in D.
    rewrite N.eqb_eq. split.
    + intros H. split; [intros; contradiction|]. intros _. lia.
    + intros [_ H]. specialize (H E2). lia.
Qed.
End Page.

Lemma addr_checks_ok a : ax_size a <= 7 -> ax_len a < 256 ->
  (read_ok a = true <-> address_rule a) /\ (write_ok a = true <-> address_rule a).
Proof.
  intros Hs Hl. unfold read_ok, write_ok, address_rule.
  rewrite !andb_true_iff, !check_length_ok by assumption.
  unfold w32, w64. rewrite !check_address_ok by (assumption || lia). tauto.
Qed.
