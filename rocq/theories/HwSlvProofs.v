(** Lemmas for C112. *)
From Coq Require Import ZArith.
From Verif Require Import Base RegapiProofs HwSlvModel HwSlvSpec.
From Coq Require Import Lia ZifyN ZifyNat ZifyBool.
Open Scope N_scope.

(** ** the loops, for any map of the places *)
Section Loops.
  Variables (fixed : bool) (W off nb m : N) (P : N -> N).
  Let L : N := if fixed then m else nb.
  Let pos (b : N) : N := off + m + (b - 1) * L.
  Let src (b : N) : N := (if fixed then off else pos b mod W) + b * W.
  Hypothesis Hfirst : forall j, j < m -> P j = off + j.
  Hypothesis Hbeat : forall b j, 1 <= b -> j < L -> P (m + (b - 1) * L + j) = src b + j.
  Hypothesis Hlane : forall b, 1 <= b -> b * W <= src b /\ src b + L <= (b + 1) * W.
  Hypothesis Hroom : forall b, 1 <= b -> pos b + L <= (b + 1) * W.
  Hypothesis Hoff : off + m <= W.

  Lemma pos_next b : 1 <= b -> pos b + L = pos (b + 1).
  Proof. intros H. unfold pos. nia. Qed.

  Lemma pack_ok wd n : forall b len d,
    1 <= b -> (fixed = true -> len = m) ->
    (forall k, off + k < pos b -> d (off + k) = wd (P k)) ->
    (forall x, b * W <= x -> d x = wd x) ->
    snd (pack n fixed W off nb b (pos b) len d) = pos (b + N.of_nat n)
    /\ forall k, off + k < pos (b + N.of_nat n) ->
         fst (pack n fixed W off nb b (pos b) len d) (off + k) = wd (P k).
  Proof.
    induction n as [|n IH]; intros b len d Hb Hlen Hd Hw; cbn [pack].
    { replace (b + N.of_nat 0) with b by lia. cbn [fst snd]. split; [reflexivity|exact Hd]. }
    cbn zeta.
    assert (HL : (if fixed then len else nb) = L).
    { unfold L. destruct fixed; [apply Hlen; reflexivity|reflexivity]. }
    rewrite HL. fold (src b). rewrite (pos_next b Hb).
    replace (b + N.of_nat (S n)) with (b + 1 + N.of_nat n) by lia.
    apply IH; [lia| | |].
    - intros Hf. unfold L. rewrite Hf. reflexivity.
    - intros k Hk. unfold memmove. rewrite (pos_next b Hb).
      destruct (N.leb_spec (pos b) (off + k)) as [H1|H1]; cbn [andb].
      + replace (off + k <? pos (b + 1)) with true by lia.
        rewrite Hw by (pose proof (Hlane b Hb); lia).
        rewrite <- (Hbeat b (off + k - pos b) Hb).
        * f_equal. f_equal. unfold pos in *. lia.
        * rewrite <- (pos_next b Hb) in Hk. lia.
      + apply Hd, H1.
    - intros x Hx. unfold memmove.
      pose proof (Hroom b Hb) as Hr.
      replace (x <? pos b + L) with false by lia. rewrite andb_false_r. apply Hw. lia.
  Qed.

  Lemma unpack_ok bounce n : forall b len d,
    1 <= b -> (fixed = true -> len = m) ->
    (forall k, off + k < pos b -> d (P k) = bounce (off + k)) ->
    (forall k, off + k < pos b -> P k < b * W) ->
    forall k, off + k < pos (b + N.of_nat n) ->
      unpack n fixed W off nb b (pos b) len bounce d (P k) = bounce (off + k).
  Proof.
    induction n as [|n IH]; intros b len d Hb Hlen Hd Hp; cbn [unpack].
    { replace (b + N.of_nat 0) with b by lia. exact Hd. }
    cbn zeta.
    assert (HL : (if fixed then len else nb) = L).
    { unfold L. destruct fixed; [apply Hlen; reflexivity|reflexivity]. }
    rewrite HL. fold (src b). rewrite (pos_next b Hb).
    replace (b + N.of_nat (S n)) with (b + 1 + N.of_nat n) by lia.
    pose proof (Hlane b Hb) as [Hl1 Hl2].
    assert (Hin : forall k, pos b <= off + k -> off + k < pos (b + 1) ->
                  P k = src b + (off + k - pos b) /\ off + k - pos b < L).
    { intros k H1 H2. rewrite <- (pos_next b Hb) in H2. split; [|lia].
      rewrite <- (Hbeat b (off + k - pos b) Hb) by lia. f_equal. unfold pos in *. lia. }
    apply IH; [lia| | |].
    - intros Hf. unfold L. rewrite Hf. reflexivity.
    - intros k Hk. unfold memmove.
      destruct (N.lt_ge_cases (off + k) (pos b)) as [H1|H1].
      + replace (src b <=? P k) with false by (specialize (Hp k H1); lia).
        cbn [andb]. apply Hd, H1.
      + destruct (Hin k H1 Hk) as [E Hj]. rewrite E.
        replace (src b <=? src b + (off + k - pos b)) with true by lia.
        replace (src b + (off + k - pos b) <? src b + L) with true by lia.
        cbn [andb]. f_equal. lia.
    - intros k Hk. destruct (N.lt_ge_cases (off + k) (pos b)) as [H1|H1].
      + specialize (Hp k H1). nia.
      + destruct (Hin k H1 Hk) as [E Hj]. lia.
  Qed.

  Lemma pack_all wd n : 1 <= n ->
    snd (pack (N.to_nat (n - 1)) fixed W off nb 1 (off + m) m wd) = off + m + (n - 1) * L
    /\ forall k, k < m + (n - 1) * L ->
         fst (pack (N.to_nat (n - 1)) fixed W off nb 1 (off + m) m wd) (off + k) = wd (P k).
  Proof.
    intros Hn.
    assert (E : off + m = pos 1) by (unfold pos; lia). rewrite E.
    destruct (pack_ok wd (N.to_nat (n - 1)) 1 m wd) as [H1 H2].
    - lia.
    - reflexivity.
    - intros k Hk. rewrite Hfirst by lia. reflexivity.
    - reflexivity.
    - rewrite N2Nat.id in *. replace (1 + (n - 1)) with n in * by lia.
      split; [rewrite H1; unfold pos; lia|]. intros k Hk. apply H2. unfold pos. lia.
  Qed.
  Lemma unpack_all d n : 1 <= n -> forall k, k < m + (n - 1) * L ->
    unpack (N.to_nat (n - 1)) fixed W off nb 1 (off + m) m d d (P k) = d (off + k).
  Proof.
    intros Hn k Hk.
    assert (E : off + m = pos 1) by (unfold pos; lia). rewrite E.
    apply unpack_ok.
    - lia.
    - reflexivity.
    - intros i Hi. rewrite Hfirst by lia. reflexivity.
    - intros i Hi. rewrite Hfirst by lia. lia.
    - rewrite N2Nat.id. replace (1 + (n - 1)) with n by lia. unfold pos. lia.
  Qed.
End Loops.

(** ** the arithmetic of beats and lanes *)
Lemma shape W a : legal W a ->
  exists c v, let nb := a_nb a in let m0 := a_addr a mod nb in
    1 <= nb /\ W = nb * c /\ 1 <= c /\ m0 < nb
    /\ a_addr a mod W = nb * v + m0 /\ v < c
    /\ offset W a = a_addr a mod W.
Proof.
  intros [_ [s [w [Hsw [Hs Hw]]]]]. cbn zeta.
  set (A := a_addr a). set (nb := a_nb a) in *.
  assert (Hnb : 1 <= nb) by (rewrite Hs; assert (2 ^ s <> 0) by (apply N.pow_nonzero; lia); lia).
  exists (2 ^ (w - s)), ((A mod W) / nb).
  assert (HW : W = nb * 2 ^ (w - s)).
  { rewrite Hs, Hw, <- N.pow_add_r. f_equal. lia. }
  assert (Hc : 1 <= 2 ^ (w - s)) by (assert (2 ^ (w - s) <> 0) by (apply N.pow_nonzero; lia); lia).
  assert (HW1 : 1 <= W) by nia.
  assert (Hm : A mod W mod nb = A mod nb).
  { rewrite HW. rewrite N.mod_mul_r by lia.
    rewrite N.mul_comm, N.mod_add by lia. apply N.mod_mod. lia. }
  split; [exact Hnb|]. split; [exact HW|]. split; [exact Hc|].
  split; [apply N.mod_lt; lia|]. split.
  { rewrite <- Hm. apply N.div_mod. lia. }
  split.
  { apply N.div_lt_upper_bound; [lia|]. rewrite <- HW. apply N.mod_lt. lia. }
  unfold offset. fold A. rewrite N.mod_eq by lia. f_equal. apply N.mul_comm.
Qed.
Lemma lane_add W nb c p j : W = nb * c -> 1 <= nb -> 1 <= c -> j < nb ->
  (nb * p + j) mod W = (nb * p) mod W + j /\ (nb * p) mod W + nb <= W.
Proof.
  intros -> Hn Hc Hj. rewrite N.mul_mod_distr_l by lia.
  assert (p mod c < c) by (apply N.mod_lt; lia).
  split; [|nia].
  symmetry. apply N.mod_unique with (q := p / c); [nia|].
  pose proof (N.div_mod p c ltac:(lia)). nia.
Qed.

(** The place of byte k as the loops of the code see it: WRAP like INCR *)
Definition plain (a : axi) : axi :=
  mkAxi (a_write a) (a_addr a) (a_nb a) (a_beats a)
    (match a_burst a with FIXED => FIXED | _ => INCR end) (a_strb a).
Definition step_len (a : axi) : N := if is_fixed (a_burst a) then first_len a else a_nb a.
Lemma place_plain W a k : place W (plain a) k = place W a k.
Proof. unfold place, plain. cbn. destruct (a_burst a); reflexivity. Qed.

Lemma next_addr A nb u m0 b j : A = nb * u + m0 -> m0 < nb -> 1 <= b ->
  A + (nb - m0 + (b - 1) * nb + j) = nb * (u + b) + j.
Proof.
  intros -> Hm Hb. replace b with (1 + (b - 1)) at 2 by lia. generalize (b - 1). intros b'.
  assert (E : m0 + (nb - m0) = nb) by lia. generalize dependent (nb - m0). intros r E. clear Hb.
  replace (nb * (u + (1 + b'))) with (nb * u + nb + b' * nb) by ring. lia.
Qed.
Lemma next_pos off nb v m0 b : off = nb * v + m0 -> m0 < nb -> 1 <= b ->
  off + (nb - m0) + (b - 1) * nb = nb * (v + b).
Proof.
  intros E Hm Hb. pose proof (next_addr off nb v m0 b 0 E Hm Hb). lia.
Qed.
Lemma incr_place W nb c v A : W = nb * c -> 1 <= nb -> 1 <= c -> v < c ->
  A mod W = nb * v + A mod nb ->
  let m0 := A mod nb in
  let P k := ((A + k) / nb - A / nb) * W + (A + k) mod W in
  let pos b := A mod W + (nb - m0) + (b - 1) * nb in
  (forall j, j < nb - m0 -> P j = A mod W + j)
  /\ (forall b j, 1 <= b -> j < nb -> P (nb - m0 + (b - 1) * nb + j) = pos b mod W + b * W + j)
  /\ (forall b, 1 <= b -> pos b mod W + nb <= W)
  /\ (forall b, 1 <= b -> pos b + nb <= (b + 1) * W).
Proof.
  intros HW Hnb Hc Hv Ho. cbn zeta.
  assert (HW1 : 1 <= W) by (rewrite HW; nia).
  assert (Hm0 : A mod nb < nb) by (apply N.mod_lt; lia).
  assert (HA : A = nb * (A / nb) + A mod nb) by (apply N.div_mod; lia).
  assert (HAW : A = W * (A / W) + A mod W) by (apply N.div_mod; lia).
  assert (Hu : A / nb = c * (A / W) + v).
  { symmetry. apply N.div_unique with (r := A mod nb); [exact Hm0|]. rewrite HAW at 1.
    rewrite Ho, HW. ring. }
  assert (Hfit : nb * (v + 1) <= W) by (rewrite HW; apply N.mul_le_mono_l; lia).
  assert (Hpos : forall b, 1 <= b -> A mod W + (nb - A mod nb) + (b - 1) * nb = nb * (v + b))
    by (intros b Hb; apply next_pos; assumption).
  assert (Hadr : forall b j, 1 <= b -> A + (nb - A mod nb + (b - 1) * nb + j) = nb * (A / nb + b) + j)
    by (intros b j Hb; apply next_addr; assumption).
  assert (Hend : A mod W + (nb - A mod nb) = nb * (v + 1)).
  { rewrite <- (Hpos 1) by lia. replace (1 - 1) with 0 by lia. rewrite N.mul_0_l. lia. }
  revert Hu Hpos Hadr Hend HAW HA Hm0.
  generalize (A mod nb) (A mod W) (A / W). intros m0 off q Hu Hpos Hadr Hend HAW HA Hm0.
  clear Ho.
  split; [|split; [|split]].
  - intros j Hj. replace ((A + j) / nb) with (A / nb).
    2:{ apply N.div_unique with (r := m0 + j); [lia|]. rewrite HA at 1. lia. }
    rewrite N.sub_diag, N.mul_0_l, N.add_0_l. symmetry.
    apply N.mod_unique with (q := q); [lia|]. rewrite HAW at 1. lia.
  - intros b j Hb Hj. rewrite Hadr, Hpos by assumption.
    replace ((nb * (A / nb + b) + j) / nb) with (A / nb + b).
    2:{ apply N.div_unique with (r := j); [exact Hj|]. reflexivity. }
    replace (A / nb + b - A / nb) with b by lia.
    destruct (lane_add W nb c (A / nb + b) j HW Hnb Hc Hj) as [-> _].
    replace (nb * (A / nb + b)) with (nb * (v + b) + q * W) by (rewrite Hu, HW; ring).
    rewrite N.mod_add by lia. lia.
  - intros b Hb. rewrite Hpos by assumption.
    exact (proj2 (lane_add W nb c (v + b) 0 HW Hnb Hc ltac:(lia))).
  - intros b Hb. rewrite Hpos by assumption. rewrite HW.
    replace (nb * (v + b) + nb) with (nb * (v + b + 1)) by ring.
    replace ((b + 1) * (nb * c)) with (nb * (b * c + c)) by ring.
    apply N.mul_le_mono_l. assert (b * 1 <= b * c) by (apply N.mul_le_mono_l; lia). lia.
Qed.
Lemma place_facts W a : legal W a ->
  let off := offset W a in let m := first_len a in let L := step_len a in
  let pos b := off + m + (b - 1) * L in
  let src b := (if is_fixed (a_burst a) then off else pos b mod W) + b * W in
  (forall j, j < m -> place W a j = off + j)
  /\ (forall b j, 1 <= b -> j < L -> place W a (m + (b - 1) * L + j) = src b + j)
  /\ (forall b, 1 <= b -> b * W <= src b /\ src b + L <= (b + 1) * W)
  /\ (forall b, 1 <= b -> pos b + L <= (b + 1) * W)
  /\ off + m <= W /\ 1 <= m /\ 1 <= L.
Proof.
  intros Hleg. destruct (shape W a Hleg) as [c [v H]]. cbn zeta in H.
  destruct H as [Hnb [HW [Hc [Hm0 [Ho [Hv Hoff]]]]]]. cbn zeta.
  pose proof (incr_place W (a_nb a) c v (a_addr a) HW Hnb Hc Hv Ho) as I. cbn zeta in I.
  destruct I as [I1 [I2 [I3 I4]]].
  assert (Hend : a_addr a mod W + (a_nb a - a_addr a mod a_nb a) <= W).
  { rewrite Ho, HW. assert (a_nb a * (v + 1) <= a_nb a * c) by (apply N.mul_le_mono_l; lia). lia. }
  rewrite Hoff. unfold first_len, step_len, place, first_len.
  destruct (a_burst a) eqn:Eb; cbn [is_fixed].
  - clear I1 I2 I3 I4 Ho HW Hoff Hleg. revert Hend. generalize (a_addr a mod W). intros off Hend.
    assert (Hm : 1 <= a_nb a - a_addr a mod a_nb a) by lia.
    clear Hm0. generalize dependent (a_nb a - a_addr a mod a_nb a). intros m Hend Hm.
    split; [|split; [|split; [|split; [|lia]]]].
    + intros j Hj. rewrite N.div_small, (N.mod_small j) by assumption. lia.
    + intros b j Hb Hj. replace (m + (b - 1) * m + j) with (b * m + j) by nia.
      rewrite N.div_add_l, N.div_small by lia.
      replace (b * m + j) with (j + b * m) by lia. rewrite N.mod_add by lia.
      rewrite (N.mod_small j) by lia. lia.
    + intros b Hb. lia.
    + intros b Hb. assert (b * m <= b * W) by (apply N.mul_le_mono_l; lia).
      replace (off + m + (b - 1) * m + m) with (off + m + b * m) by nia. lia.
  - split; [exact I1|]. split; [exact I2|]. split; [|split; [exact I4|lia]].
    intros b Hb. specialize (I3 b Hb). lia.
  - split; [exact I1|]. split; [exact I2|]. split; [|split; [exact I4|lia]].
    intros b Hb. specialize (I3 b Hb). lia.
Qed.
Lemma total_eq W a : legal W a -> total a = first_len a + (a_beats a - 1) * step_len a.
Proof.
  intros Hleg. destruct (shape W a Hleg) as [c [v H]]. cbn zeta in H. destruct Hleg as [Hn _].
  destruct H as [Hnb [HW [Hc [Hm0 _]]]]. unfold total, first_len, step_len, first_len.
  destruct (a_burst a); cbn [is_fixed]; nia.
Qed.
Lemma packed_ok W a wd : legal W a ->
  snd (packed W a wd) = offset W a + total a
  /\ forall k, k < total a -> fst (packed W a wd) (offset W a + k) = wd (place W a k).
Proof.
  intros Hleg. pose proof (place_facts W a Hleg) as F. cbn zeta in F.
  destruct F as [F1 [F2 [F3 [F4 [F5 _]]]]].
  rewrite (total_eq W a Hleg). unfold packed. cbn zeta.
  destruct (pack_all (is_fixed (a_burst a)) W (offset W a) (a_nb a) (first_len a) (place W a)
              F1 F2 F3 F4 F5 wd (a_beats a) (proj1 Hleg)) as [G1 G2].
  split; [rewrite G1; unfold step_len; lia|exact G2].
Qed.
Lemma unpacked_ok W a d : legal W a -> forall k, k < total a ->
  unpack (N.to_nat (a_beats a - 1)) (is_fixed (a_burst a)) W (offset W a) (a_nb a) 1
    (offset W a + first_len a) (first_len a) d d (place W a k) = d (offset W a + k).
Proof.
  intros Hleg. pose proof (place_facts W a Hleg) as F. cbn zeta in F.
  destruct F as [F1 [F2 [F3 [F4 [F5 _]]]]].
  rewrite (total_eq W a Hleg).
  exact (unpack_all (is_fixed (a_burst a)) W (offset W a) (a_nb a) (first_len a) (place W a)
           F1 F2 F3 F4 F5 d (a_beats a) (proj1 Hleg)).
Qed.
Lemma straight_arith W X Y R off A k : A + k = W * X + R -> A = W * Y + off -> Y <= X ->
  (X - Y) * W + R = off + k.
Proof.
  intros H1 H2 H3. replace X with (Y + (X - Y)) in H1 by lia. rewrite N.mul_add_distr_l in H1.
  rewrite (N.mul_comm (X - Y)). lia.
Qed.
(** Without the loops the bytes are in place *)
Lemma straight W a k : legal W a -> narrow W a = false -> k < total a ->
  place W a k = offset W a + k.
Proof.
  intros Hleg Hn Hk. pose proof (place_facts W a Hleg) as F. cbn zeta in F.
  destruct F as [F1 _].
  destruct (shape W a Hleg) as [c [v H]]. cbn zeta in H.
  destruct H as [Hnb [HW [Hc [Hm0 [Ho [Hv Hoff]]]]]].
  unfold narrow in Hn. destruct (N.ltb_spec 1 (a_beats a)) as [H1|H1]; cbn [andb] in Hn.
  - apply orb_false_elim in Hn. destruct Hn as [Hf Hw]. apply N.ltb_ge in Hw.
    assert (H : a_nb a = W).
    { apply N.le_antisymm; [rewrite HW; rewrite <- (N.mul_1_r (a_nb a)) at 1; apply N.mul_le_mono_l; exact Hc|exact Hw]. }
    unfold place. rewrite Hoff, H.
    pose proof (N.div_mod (a_addr a + k) W ltac:(lia)) as D1.
    pose proof (N.div_mod (a_addr a) W ltac:(lia)) as D2.
    assert (a_addr a / W <= (a_addr a + k) / W) by (apply N.div_le_mono; lia).
    destruct (a_burst a); [discriminate| |]; cbn zeta;
      apply (straight_arith W _ _ _ _ (a_addr a)); assumption.
  - rewrite (total_eq W a Hleg) in Hk. apply F1. destruct Hleg as [Hl _].
    replace (a_beats a - 1) with 0 in Hk by lia. lia.
Qed.
