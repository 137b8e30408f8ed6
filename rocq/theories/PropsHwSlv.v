(** C112: how a burst received by the AXI bridge in hardware becomes a TLM transaction. *)
From Coq Require Import ZArith.
From Verif Require Import Base HwSlvModel HwSlvSpec HwSlvProofs.
From Coq Require Import Lia ZifyN ZifyNat ZifyBool.
Open Scope N_scope.

Definition many_or_wide (W : N) (a : axi) : Prop := 1 < a_beats a \/ a_nb a = W.
Lemma off_wide W a : legal W a -> a_nb a = W -> offset W a = a_addr a mod a_nb a.
Proof. intros H E. destruct (shape W a H) as [c [v [_ [_ [_ [_ [_ [_ ->]]]]]]]]. rewrite E. reflexivity. Qed.
Lemma not_narrow_len W a : legal W a -> many_or_wide W a -> narrow W a = false ->
  a_beats a * W - offset W a = total a.
Proof.
  intros Hl Hm Hn. pose proof (proj1 Hl) as Hb. unfold narrow in Hn.
  assert (a_nb a <= W).
  { destruct (shape W a Hl) as [c [v [_ [-> [Hc _]]]]].
    rewrite <- (N.mul_1_r (a_nb a)) at 1. apply N.mul_le_mono_l. exact Hc. }
  assert (E : a_nb a = W).
  { destruct Hm as [Hm|Hm]; [|exact Hm]. replace (1 <? a_beats a) with true in Hn by lia.
    cbn [andb] in Hn. apply orb_false_elim in Hn. destruct Hn as [_ Hn]. lia. }
  rewrite (off_wide W a Hl E). unfold total. rewrite E. destruct (a_burst a); try reflexivity.
  cbn [is_fixed orb] in Hn. rewrite andb_true_r in Hn. replace (a_beats a) with 1 by lia. lia.
Qed.

(** A write of type FIXED or INCR: the transaction has the address, exactly the bytes of the
    burst, in order, each with its strobe, and the streaming width of its type. *)
Theorem C112_write_partial : forall W a wd ws,
  legal W a -> a_write a = true -> a_burst a <> WRAP -> many_or_wide W a ->
  let g := to_tlm W a wd ws in
  g_write g = true /\ g_addr g = a_addr a /\ g_len g = total a /\ g_wrap g = false
  /\ g_sw g = (match a_burst a with FIXED => a_nb a - a_addr a mod a_nb a | _ => total a end)
  /\ (forall k, k < total a -> g_data g k = wd (place W a k))
  /\ (match g_be g with
      | Some be => a_strb a = true /\ forall k, k < total a -> be k = ws (place W a k)
      | None => a_strb a = false
      end).
Proof.
  intros W a wd ws Hl Hw Hb Hm. unfold to_tlm. rewrite Hw. cbn [andb].
  destruct (packed_ok W a wd Hl) as [P1 P2]. destruct (packed_ok W a ws Hl) as [_ P3].
  destruct (narrow W a) eqn:En; cbn zeta; cbn [g_write g_addr g_len g_sw g_data g_be g_wrap].
  - rewrite P1. replace (offset W a + total a - offset W a) with (total a) by lia.
    split; [reflexivity|]. split; [reflexivity|]. split; [reflexivity|].
    split; [destruct (a_burst a); [reflexivity|reflexivity|contradiction]|].
    split; [destruct (a_burst a); reflexivity|].
    split; [exact P2|]. destruct (a_strb a); [split; [reflexivity|exact P3]|reflexivity].
  - rewrite (not_narrow_len W a Hl Hm En).
    split; [reflexivity|]. split; [reflexivity|]. split; [reflexivity|].
    split; [destruct (a_burst a); [reflexivity|reflexivity|contradiction]|].
    split; [destruct (a_burst a); reflexivity|].
    split; [intros k Hk; rewrite (straight W a k Hl En Hk); reflexivity|].
    destruct (a_strb a); [|reflexivity]. split; [reflexivity|].
    intros k Hk. rewrite (straight W a k Hl En Hk). reflexivity.
Qed.

(** 3 beats of 2 bytes from address 5 on a bus with 4 bytes *)
Example C112_write_case :
  let a := mkAxi true 5 2 3 INCR false in
  let g := to_tlm 4 a (fun x => x) (fun _ => 0) in
  legal 4 a /\ g_len g = 5 /\ map (g_data g) [0; 1; 2; 3; 4] = [1; 6; 7; 8; 9].
Proof.
  split; [split; [cbn; lia|exists 1, 2; cbn; repeat split; lia]|]. vm_compute. split; reflexivity.
Qed.

(** A single beat that is narrower than the bus: the bytes of the burst come first, but the
    transaction goes on to the end of the bus; with strobes the rest is as the strobes say. *)
Theorem C112_single_beat : forall W a wd ws,
  legal W a -> a_beats a = 1 ->
  let g := to_tlm W a wd ws in
  g_addr g = a_addr a /\ g_len g = W - a_addr a mod W /\ total a <= g_len g
  /\ (forall k, g_data g k = wd (a_addr a mod W + k))
  /\ (forall k, k < total a -> place W a k = a_addr a mod W + k)
  /\ (forall be, g_be g = Some be -> forall k, be k = ws (a_addr a mod W + k)).
Proof.
  intros W a wd ws Hl H1. unfold to_tlm.
  assert (Hn : narrow W a = false) by (unfold narrow; rewrite H1; reflexivity).
  pose proof (place_facts W a Hl) as F. cbn zeta in F. destruct F as [_ [_ [_ [_ [F5 _]]]]].
  assert (Et : total a = first_len a).
  { rewrite (total_eq W a Hl), H1. replace (1 - 1) with 0 by lia. lia. }
  assert (Eo : offset W a = a_addr a mod W)
    by (destruct (shape W a Hl) as [c [v [_ [_ [_ [_ [_ [_ E]]]]]]]]; exact E).
  rewrite Hn, H1. cbn [andb]. replace (1 <? 1) with false by lia. cbn [andb].
  rewrite Eo in *.
  assert (E : (if a_write a then (wd, ws, 1 * W) else (wd, ws, 1 * W)) = (wd, ws, W)).
  { rewrite N.mul_1_l. destruct (a_write a); reflexivity. }
  rewrite E. cbn zeta. cbn [g_addr g_len g_data g_be].
  split; [reflexivity|]. split; [reflexivity|]. split; [lia|]. split; [reflexivity|].
  split; [intros k Hk; rewrite (straight W a k Hl Hn Hk), Eo; reflexivity|].
  intros be Hbe k. destruct (a_write a && a_strb a); [injection Hbe as <-|discriminate]. reflexivity.
Qed.
Example C112_single_beat_case :
  let g := to_tlm 8 (mkAxi true 2 2 1 INCR true) (fun x => 0x10 + x) (fun x => if x <? 4 then 255 else 0) in
  g_len g = 6 /\ map (g_data g) [0; 1] = [0x12; 0x13]
  /\ match g_be g with Some be => map be [0; 1; 2; 3; 4; 5] = [255; 255; 0; 0; 0; 0] | None => False end.
Proof. vm_compute. repeat split. Qed.
(** A read of one byte at address 1 of a bus with 4 bytes reads 3 bytes. *)
Theorem C112_single_read_refuted :
  exists a, legal 4 a /\ a_write a = false /\ total a = 1
    /\ g_len (to_tlm 4 a (fun _ => 0) (fun _ => 0)) = 3
    /\ g_be (to_tlm 4 a (fun _ => 0) (fun _ => 0)) = None.
Proof.
  exists (mkAxi false 1 1 1 INCR false).
  split; [split; [cbn; lia|exists 0, 2; cbn; repeat split; lia]|]. vm_compute. repeat split.
Qed.

(** A read: each byte of the burst that the target returned goes to its beat and its lane. *)
Lemma read_len W a d be : legal W a -> a_write a = false -> total a <= g_len (to_tlm W a d be).
Proof.
  intros Hl Hw. unfold to_tlm. rewrite Hw. cbn zeta. cbn [g_len].
  pose proof (place_facts W a Hl) as F. cbn zeta in F. destruct F as [_ [_ [_ [_ [F5 [F6 F7]]]]]].
  destruct (shape W a Hl) as [c [v H]]. cbn zeta in H.
  destruct H as [Hnb [HW [Hc [Hm0 [Ho [Hv Hoff]]]]]]. pose proof (proj1 Hl) as Hn.
  assert (Htot : total a <= a_beats a * a_nb a - a_addr a mod a_nb a).
  { unfold total. destruct (a_burst a); try lia.
    rewrite N.mul_sub_distr_l. assert (1 * (a_addr a mod a_nb a) <= a_beats a * (a_addr a mod a_nb a))
      by (apply N.mul_le_mono_r; lia). lia. }
  destruct ((1 <? a_beats a) && (a_nb a <? W)) eqn:E.
  - rewrite (N.mul_comm (a_nb a)). lia.
  - destruct (N.ltb_spec 1 (a_beats a)); cbn [andb] in E.
    + assert (a_nb a = W).
      { apply N.ltb_ge in E. apply N.le_antisymm; [|exact E].
        rewrite HW. rewrite <- (N.mul_1_r (a_nb a)) at 1. apply N.mul_le_mono_l. exact Hc. }
      rewrite (off_wide W a Hl H0). rewrite H0 in *. exact Htot.
    + replace (a_beats a) with 1 by lia. rewrite (total_eq W a Hl).
      replace (a_beats a - 1) with 0 by lia. lia.
Qed.
Theorem C112_read_data : forall W a d rd k,
  legal W a -> a_write a = false -> a_burst a <> WRAP -> k < total a ->
  from_tlm W a d rd (place W a k) = rd k.
Proof.
  intros W a d rd k Hl Hw Hb Hk. unfold from_tlm.
  pose proof (read_len W a d (fun _ => 0) Hl Hw) as Hlen.
  set (g := to_tlm W a d (fun _ => 0)) in *. cbn zeta.
  destruct (narrow W a) eqn:En.
  - rewrite (unpacked_ok W a _ Hl k Hk).
    replace (offset W a <=? offset W a + k) with true by lia.
    replace (offset W a + k <? offset W a + g_len g) with true by lia. cbn [andb]. f_equal. lia.
  - rewrite (straight W a k Hl En Hk).
    replace (offset W a <=? offset W a + k) with true by lia.
    replace (offset W a + k <? offset W a + g_len g) with true by lia. cbn [andb]. f_equal. lia.
Qed.
Example C112_read_case :
  map (from_tlm 4 (mkAxi false 5 2 3 INCR false) (fun _ => 0xEE) (fun k => 0xA0 + k)) [1; 6; 7; 8; 9]
  = [0xA0; 0xA1; 0xA2; 0xA3; 0xA4].
Proof. vm_compute. reflexivity. Qed.

(** The length of a read is that of the burst, for INCR and for FIXED when aligned. *)
Theorem C112_read_length_partial : forall W a d be,
  legal W a -> a_write a = false -> a_burst a <> WRAP -> many_or_wide W a ->
  (a_burst a = FIXED -> a_addr a mod a_nb a = 0) ->
  let g := to_tlm W a d be in
  g_write g = false /\ g_addr g = a_addr a /\ g_len g = total a /\ g_be g = None
  /\ g_sw g = (match a_burst a with FIXED => a_nb a | _ => total a end).
Proof.
  intros W a d be Hl Hw Hb Hm Hf. unfold to_tlm. rewrite Hw. cbn zeta.
  cbn [g_write g_addr g_len g_be g_sw andb].
  destruct (shape W a Hl) as [c [v H]]. cbn zeta in H.
  destruct H as [Hnb [HW [Hc [Hm0 [Ho [Hv Hoff]]]]]]. pose proof (proj1 Hl) as Hn.
  assert (Htot : total a = a_beats a * a_nb a - a_addr a mod a_nb a).
  { unfold total. destruct (a_burst a); try reflexivity. rewrite (Hf eq_refl). lia. }
  assert (E : (if (1 <? a_beats a) && (a_nb a <? W)
               then offset W a + a_nb a * a_beats a - a_addr a mod a_nb a else a_beats a * W)
              - offset W a = total a).
  { rewrite Htot. destruct ((1 <? a_beats a) && (a_nb a <? W)) eqn:E.
    - rewrite (N.mul_comm (a_nb a)). lia.
    - assert (H0 : a_nb a = W).
      { destruct Hm as [Hm|Hm]; [|exact Hm]. replace (1 <? a_beats a) with true in E by lia.
        cbn [andb] in E. apply N.ltb_ge in E. apply N.le_antisymm; [|exact E].
        rewrite HW. rewrite <- (N.mul_1_r (a_nb a)) at 1. apply N.mul_le_mono_l. exact Hc. }
      rewrite (off_wide W a Hl H0). rewrite H0. reflexivity. }
  rewrite E. repeat split.
  destruct (a_burst a); cbn [is_fixed]; try reflexivity. rewrite (Hf eq_refl). lia.
Qed.
Example C112_read_length_case :
  let g := to_tlm 4 (mkAxi false 7 2 4 INCR false) (fun _ => 0) (fun _ => 0) in
  g_len g = 7 /\ g_sw g = 7.
Proof. vm_compute. split; reflexivity. Qed.
(** FIXED from address 1, 2 beats on a bus with 4 bytes: the burst has 2 * 3 bytes, but the
    transaction has 7 bytes with a streaming width of 3: the target sees a third access. *)
Theorem C112_fixed_read_refuted :
  exists a, legal 4 a /\ a_write a = false /\ a_burst a = FIXED /\ total a = 6
    /\ g_sw (to_tlm 4 a (fun _ => 0) (fun _ => 0)) = 3
    /\ g_len (to_tlm 4 a (fun _ => 0) (fun _ => 0)) = 7.
Proof.
  exists (mkAxi false 1 4 2 FIXED false).
  split; [split; [cbn; lia|exists 2, 2; cbn; repeat split; lia]|]. vm_compute. repeat split.
Qed.

Lemma mod_part W z zw x q r : W <> 0 -> z = W * zw -> x = z * q + r -> x mod W = r mod W.
Proof.
  intros HW -> ->. replace (W * zw * q + r) with (r + zw * q * W) by ring. apply N.mod_add, HW.
Qed.
(** WRAP: the bytes in the order of the burst, when the burst is at least as wide as the bus. *)
Theorem C112_wrap_partial : forall W a wd ws,
  legal W a -> a_write a = true -> a_burst a = WRAP -> many_or_wide W a ->
  a_addr a mod a_nb a = 0 -> (a_beats a * a_nb a) mod W = 0 ->
  let g := to_tlm W a wd ws in
  g_wrap g = true /\ g_addr g = a_addr a /\ g_len g = a_beats a * a_nb a
  /\ forall k, k < a_beats a * a_nb a -> g_data g k = wd (wrap_place W a k).
Proof.
  intros W a wd ws Hl Hw Hb Hm Hal Hz. unfold to_tlm. rewrite Hw. cbn [andb].
  destruct (packed_ok W a wd Hl) as [P1 P2].
  assert (Ht : total a = a_beats a * a_nb a) by (unfold total; rewrite Hb, Hal; lia).
  assert (Hp : forall k, place W a k = wrap_place W a k).
  { intros k. unfold place, wrap_place, wrap_addr. rewrite Hb. cbn zeta.
    destruct (shape W a Hl) as [c [v H]]. cbn zeta in H. destruct H as [Hnb [HW [Hc _]]].
    assert (HW1 : W <> 0) by (rewrite HW; nia).
    pose proof (N.div_mod (a_addr a) (a_nb a) ltac:(lia)) as D. rewrite Hal, N.add_0_r in D.
    assert (E1 : (a_addr a + k) / a_nb a = a_addr a / a_nb a + k / a_nb a).
    { rewrite D at 1. rewrite N.mul_comm, N.div_add_l by lia. reflexivity. }
    rewrite E1, (N.add_comm (a_addr a / a_nb a)), N.add_sub.
    f_equal. set (z := a_beats a * a_nb a) in *.
    pose proof (N.div_mod z W HW1) as Dz. rewrite Hz, N.add_0_r in Dz.
    destruct (N.eq_dec z 0) as [Ez|Ez].
    { exfalso. pose proof (proj1 Hl). unfold z in Ez. nia. }
    pose proof (N.div_mod (a_addr a + k) z Ez) as Dk.
    rewrite (mod_part W z (z / W) (a_addr a + k) ((a_addr a + k) / z) ((a_addr a + k) mod z) HW1 Dz Dk).
    symmetry. apply (mod_part W z (z / W) _ (a_addr a / z) _ HW1 Dz).
    rewrite (N.mul_comm z). reflexivity. }
  destruct (narrow W a) eqn:En; cbn zeta; cbn [g_addr g_len g_data g_wrap]; rewrite Hb.
  - rewrite P1. replace (offset W a + total a - offset W a) with (total a) by lia.
    split; [reflexivity|]. split; [reflexivity|]. split; [exact Ht|].
    intros k Hk. rewrite <- Hp. apply P2. lia.
  - rewrite (not_narrow_len W a Hl Hm En).
    split; [reflexivity|]. split; [reflexivity|]. split; [exact Ht|].
    intros k Hk. rewrite <- Hp. rewrite (straight W a k Hl En) by lia. reflexivity.
Qed.
Example C112_wrap_case :
  let a := mkAxi true 6 2 4 WRAP false in
  map (g_data (to_tlm 4 a (fun x => x) (fun _ => 0))) [0; 1; 2; 3; 4; 5; 6; 7]
  = [2; 3; 4; 5; 10; 11; 12; 13].
Proof. vm_compute. reflexivity. Qed.
(** Two beats of one byte that wrap at 2: the second is in lane 0, but lane 2 is taken. *)
Theorem C112_wrap_refuted :
  exists a, legal 4 a /\ a_write a = true /\ a_burst a = WRAP /\ wrap_addr a 1 = 0
    /\ wrap_place 4 a 1 = 4 /\ g_data (to_tlm 4 a (fun x => x) (fun _ => 0)) 1 = 6.
Proof.
  exists (mkAxi true 1 1 2 WRAP false).
  split; [split; [cbn; lia|exists 0, 2; cbn; repeat split; lia]|]. vm_compute. repeat split.
Qed.

(** The response of one descriptor does not touch those of the others. *)
Definition resp_of (r d : N) : N := N.land (N.shiftr r (2 * d)) 3.
Theorem C112_responses : forall r d resp e, resp < 4 ->
  resp_of (put_resp r d resp) e = if e =? d then resp else resp_of r e.
Proof.
  intros r d resp e Hr. unfold resp_of, put_resp. apply N.bits_inj. intros b.
  change 3 with (N.ones 2) at 1. rewrite N.land_spec, N.shiftr_spec'.
  rewrite N.lor_spec, N.ldiff_spec. change 3 with (N.ones 2).
  destruct (N.lt_ge_cases b 2) as [Hb|Hb].
  - rewrite (N.ones_spec_low 2 b) by assumption. rewrite andb_true_r.
    destruct (N.eqb_spec e d) as [->|Hne].
    + rewrite !N.shiftl_spec_high' by lia. replace (b + 2 * d - 2 * d) with b by lia.
      rewrite N.ones_spec_low by assumption. rewrite andb_false_r. reflexivity.
    + rewrite N.land_spec, N.shiftr_spec', (N.ones_spec_low 2 b) by assumption. rewrite andb_true_r.
      destruct (N.lt_ge_cases e d).
      * rewrite !N.shiftl_spec_low by lia. cbn [negb]. rewrite andb_true_r, orb_false_r. reflexivity.
      * rewrite !N.shiftl_spec_high' by lia. rewrite N.ones_spec_high by lia.
        rewrite (RegapiProofs.small_bits resp 2) by (change (2 ^ 2) with 4; lia).
        cbn [negb]. rewrite andb_true_r, orb_false_r. reflexivity.
  - rewrite N.ones_spec_high by assumption. rewrite andb_false_r.
    destruct (N.eqb_spec e d).
    + symmetry. apply (RegapiProofs.small_bits resp 2); [change (2 ^ 2) with 4; lia|assumption].
    + rewrite N.land_spec, N.ones_spec_high by assumption. rewrite andb_false_r. reflexivity.
Qed.
Example C112_responses_case : put_resp 0xFF 1 2 = 0xFB.
Proof. reflexivity. Qed.

Print Assumptions C112_write_partial.
Print Assumptions C112_single_beat.
Print Assumptions C112_single_read_refuted.
Print Assumptions C112_read_data.
Print Assumptions C112_read_length_partial.
Print Assumptions C112_fixed_read_refuted.
Print Assumptions C112_wrap_partial.
Print Assumptions C112_wrap_refuted.
Print Assumptions C112_responses.
