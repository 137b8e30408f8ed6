(** C110: what the AXI bridge in hardware is told by its TLM side. *)
From Coq Require Import ZArith.
From Verif Require Import Base RegapiModel HwAxiModel HwAxiSpec HwAxiProofs.
From Coq Require Import Lia ZifyN ZifyNat ZifyBool.
Open Scope N_scope.

Definition refused (t : txn) : Prop := t_sw t <> 0 /\ t_sw t < t_len t.
Definition bus_addr (base : N) (t : txn) : N := (t_addr t + base) mod 2 ^ 64.

(** A write puts into the memory behind the bridge each byte that takes part, at its address,
    and nothing else: with or without byte enables, narrow or wide, in one beat or in many,
    aligned or not, unless the bridge takes AxSIZE from the length and the address is not a
    multiple of it. *)
Theorem C110_write_partial : forall W base lite hw m t,
  bus_width W -> t_wr t = true -> ~ refused t -> 1 <= t_len t ->
  bus_addr base t mod W + t_len t <= 0x4000 ->
  (one_size W lite (t_len t) -> bus_addr base t mod t_len t = 0) ->
  exists m1 d o, b_transport W base lite hw m t = Ok o
    /\ o_given o = Some (m1, d)
    /\ is_read d = false
    /\ (forall x, written W m1 d x = asked t (bus_addr base t) x)
    /\ o_data o = t_data t
    /\ o_status o = resp_status (N.land (snd (hw m1 d)) 3).
Proof.
  intros W base lite hw m t HW Hwr Hr Hl Hfit Hal. unfold refused in Hr. unfold b_transport.
  destruct (N.eqb_spec (t_sw t) 0) as [Hs|Hs]; cbn [negb andb].
  2: destruct (N.ltb_spec (t_sw t) (t_len t)); [exfalso; auto|].
  all: rewrite Hwr; fold (bus_addr base t); change u64 with (2 ^ 64);
    fold (bus_addr base t); set (A := bus_addr base t) in *;
    set (m0 := put m (DRAM_WRITE + A mod W) (t_len t) (t_data t));
    (destruct (setup_ok W lite m0 A true (t_len t) (t_be t) (t_be_len t) (t_attr t) HW)
      as [s [E _]]);
    cbn zeta in E |- *; rewrite E; cbn [rbind];
    (match type of E with _ = Ok (?a, ?b) =>
      set (m1 := a) in *; set (d := b) in *; exists m1, d;
      destruct (hw m1 d) as [m2 sr] eqn:Eh; eexists end);
    (split; [reflexivity|]); cbn [o_given o_data o_status negb andb];
    (split; [reflexivity|]);
    (split; [unfold is_read, d; cbn [d_type]; rewrite (proj1 (type_bits true _)); reflexivity|]);
    (split; [|split; [reflexivity|apply status_ok]]);
    (refine (write_exact W lite m t A m1 d HW Hwr Hl _ Hfit Hal E));
    apply N.mod_lt; discriminate.
Qed.

(** 5 bytes at 0x1006, 8 byte bus, every second byte enabled *)
Example C110_write_case :
  match b_transport 8 0x1000 false (fun m _ => (m, 0)) (fun _ => 0x55)
          (mkTxn true 6 5 0 (fun i => 0xA0 + i) (fun i => i =? 0) 2 None) with
  | Ok o => match o_given o with
            | Some (m1, d) =>
                map (written 8 m1 d) [0x1005; 0x1006; 0x1007; 0x1008; 0x1009; 0x100A; 0x100B; 0x100F]
                = [None; Some 0xA0; None; Some 0xA2; None; Some 0xA4; None; None]
                /\ beats 8 d = 2 /\ d_axsize d = 3 /\ o_status o = TLM_OK
            | None => False
            end
  | _ => False
  end.
Proof. vm_compute. repeat split. Qed.

(** Two bytes at address 1 of a bus with 4 bytes: AxSIZE is 1 and there are no strobes; such a
    burst ends before address 2, and the second byte is lost. *)
Theorem C110_unaligned_refuted :
  exists t m1 d o,
    b_transport 4 0 false (fun m _ => (m, 0)) (fun _ => 0) t = Ok o
    /\ o_given o = Some (m1, d) /\ o_status o = TLM_OK /\ t_wr t = true
    /\ asked t 1 2 = Some 0xBB /\ written 4 m1 d 2 = None.
Proof.
  pose (t := mkTxn true 1 2 0 (fun i => if i =? 0 then 0xAA else 0xBB) (fun _ => true) 0 None).
  exists t. eexists _, _, _. split; [reflexivity|]. split; [reflexivity|].
  vm_compute. repeat split.
Qed.
(** Four bytes at address 6 of a bus with 8 bytes: the burst has two beats of 4 bytes from
    address 4; it also writes addresses 10 and 11, which were not asked for. *)
Theorem C110_crossing_refuted :
  exists t m1 d o,
    b_transport 8 0 false (fun m _ => (m, 0)) (fun _ => 0) t = Ok o
    /\ o_given o = Some (m1, d) /\ o_status o = TLM_OK /\ t_wr t = true
    /\ asked t 6 10 = None /\ written 8 m1 d 10 = Some 0.
Proof.
  pose (t := mkTxn true 6 4 0 (fun i => 0xA0 + i) (fun _ => true) 0 None).
  exists t. eexists _, _, _. split; [reflexivity|]. split; [reflexivity|].
  vm_compute. repeat split.
Qed.

(** A read that the hardware answers with OKAY or EXOKAY leaves in the buffer, for each byte
    that takes part, the byte that the hardware put into the memory for its address; all other
    bytes of the buffer keep their value, and so do all of them on an error. *)
Theorem C110_read : forall W base lite hw m t,
  bus_width W -> t_wr t = false -> ~ refused t ->
  (forall m d x, fst (hw m d) x < 256) ->
  exists d o, b_transport W base lite hw m t = Ok o
    /\ o_given o = Some (m, d)
    /\ is_read d = true /\ has_strobes d = false
    /\ o_status o = resp_status (N.land (snd (hw m d)) 3)
    /\ forall i, o_data o i =
         if takes_part t i && (N.land (snd (hw m d)) 3 <=? 1)
         then fst (hw m d) (DRAM_READ + (bus_addr base t mod W + i)) else t_data t i.
Proof.
  intros W base lite hw m t HW Hwr Hr Hb. unfold refused in Hr. unfold b_transport.
  destruct (N.eqb_spec (t_sw t) 0) as [Hs|Hs]; cbn [negb andb].
  2: destruct (N.ltb_spec (t_sw t) (t_len t)); [exfalso; auto|].
  all: rewrite Hwr; change u64 with (2 ^ 64);
    fold (bus_addr base t); set (A := bus_addr base t) in *;
    (destruct (setup_ok W lite m A false (t_len t) (t_be t) (t_be_len t) (t_attr t) HW)
      as [s [E _]]);
    cbn zeta in E |- *; rewrite andb_false_r in E; rewrite E; cbn [rbind];
    (match type of E with _ = Ok (_, ?b) => set (d := b) in *; exists d end);
    pose proof (Hb m d) as Hm;
    destruct (hw m d) as [m2 sr] eqn:Eh; eexists;
    (split; [reflexivity|]); cbn [o_given o_data o_status negb andb fst snd];
    (split; [reflexivity|]);
    (split; [reflexivity|]); (split; [reflexivity|]); (split; [apply status_ok|]);
    intros i; cbn [fst] in Hm; unfold takes_part;
    (replace ((N.land sr 3 =? 0) || (N.land sr 3 =? 1)) with (N.land sr 3 <=? 1) by lia);
    (destruct (N.land sr 3 <=? 1);
      [rewrite (copy_from_at m2 _ _ _ _ _ i Hm), andb_true_r, N.add_assoc; reflexivity
      |rewrite andb_false_r; reflexivity]).
Qed.

(** 6 bytes at 3, of which the bytes 1, 2, 4 and 5 take part *)
Example C110_read_case :
  match b_transport 4 0 false (fun _ _ => (fun x => x mod 256, 1)) (fun _ => 0)
          (mkTxn false 3 6 6 (fun _ => 0xEE) (fun i => negb (i =? 0)) 3 None) with
  | Ok o => map (o_data o) [0; 1; 2; 3; 4; 5; 6] = [0xEE; 4; 5; 0xEE; 7; 8; 0xEE] /\ o_status o = TLM_OK
  | _ => False
  end.
Proof. vm_compute. split; reflexivity. Qed.

(** The descriptor: the whole address, a burst of type INCR that is long enough, no wider than
    the bus, with no more beats than needed. *)
Theorem C110_descriptor : forall W base lite hw m t,
  bus_width W -> ~ refused t -> 1 <= t_len t ->
  exists m1 d o, b_transport W base lite hw m t = Ok o
    /\ o_given o = Some (m1, d)
    /\ axaddr d = bus_addr base t
    /\ d_size d = beats W d * W
    /\ bus_addr base t mod W + t_len t <= beats W d * W < bus_addr base t mod W + t_len t + W
    /\ 2 ^ d_axsize d <= W
    /\ N.land (d_attr d) 3 = 1
    /\ (is_read d = negb (t_wr t)).
Proof.
  intros W base lite hw m t HW Hr Hl. unfold refused in Hr. unfold b_transport.
  pose proof (width_bounds W HW) as Wb.
  assert (Hno : negb (t_sw t =? 0) && (t_sw t <? t_len t) = false) by lia.
  rewrite Hno. change u64 with (2 ^ 64). fold (bus_addr base t). set (A := bus_addr base t) in *.
  cbn zeta.
  set (m0 := if t_wr t then put m (DRAM_WRITE + A mod W) (t_len t) (t_data t) else m).
  destruct (setup_ok W lite m0 A (t_wr t) (t_len t) (t_be t) (t_be_len t) (t_attr t) HW)
    as [s [E [H1 [H2 H7]]]].
  cbn zeta in E. rewrite E. cbn [rbind].
  match type of E with _ = Ok (?a, ?b) => set (m1 := a) in *; set (d := b) in *; exists m1, d end.
  destruct (hw m1 d) as [m2 sr]. eexists. split; [reflexivity|]. cbn [o_given].
  split; [reflexivity|].
  unfold axaddr, beats, is_read, d. cbn [d_addr_lo d_addr_hi d_size d_axsize d_attr d_type].
  rewrite N.div_mul by lia.
  split; [apply split_addr; apply N.mod_lt; discriminate|].
  split; [reflexivity|]. split.
  { split; [apply beats_cover; assumption|]. unfold nr_beats.
    pose proof (N.mul_div_le (A mod W + t_len t + W - 1) W ltac:(lia)). lia. }
  split.
  { destruct (one W lite (t_len t)) eqn:Eo.
    - rewrite <- (H1 eq_refl). apply (proj1 (one_spec W lite (t_len t) HW)) in Eo. apply Eo.
    - destruct (H2 eq_refl) as [Ew|[Ha [Hc Hd]]]; [rewrite <- Ew; lia|].
      clear - HW H7 Ha Hc Hd Hl. widths HW; exps H7; pows; lia. }
  split; [|apply type_bits].
  assert (Hbits : forall a, N.testbit (compute_attr a) 0 = false /\ N.testbit (compute_attr a) 1 = false).
  { intros [a|]; [|split; reflexivity]. unfold compute_attr. change u32 with (2 ^ 32).
    rewrite !N.mod_pow2_bits_low by lia. rewrite !N.lor_spec, !N.shiftl_spec_low by lia.
    split; reflexivity. }
  apply N.bits_inj. intros b. rewrite N.land_spec, N.lor_spec. change 3 with (N.ones 2).
  destruct (Hbits (t_attr t)) as [Hb0 Hb1].
  destruct (N.lt_ge_cases b 2).
  - rewrite N.ones_spec_low by assumption.
    assert (b = 0 \/ b = 1) as [-> | ->] by lia; [rewrite Hb0|rewrite Hb1]; reflexivity.
  - rewrite N.ones_spec_high by assumption. rewrite andb_false_r. symmetry.
    change 1 with (N.ones 1). apply N.ones_spec_high. lia.
Qed.

Example C110_descriptor_case :
  match b_transport 16 0x100000000 false (fun m _ => (m, 0)) (fun _ => 0)
          (mkTxn false 0x1005 3 0 (fun _ => 0) (fun _ => true) 0 (Some (mkGattr false 5 9))) with
  | Ok o => match o_given o with
            | Some (_, d) => d = mkDesc 0x1005 1 DRAM_WRITE 0x4A801 16 3 1
            | None => False
            end
  | _ => False
  end.
Proof. vm_compute. reflexivity. Qed.

(** What is too narrow a streaming width is refused, and the hardware gets nothing. *)
Theorem C110_refused : forall W base lite hw m t, refused t ->
  b_transport W base lite hw m t = Ok (mkOut None (t_data t) TLM_BURST_ERROR).
Proof.
  intros W base lite hw m t [H1 H2]. unfold b_transport.
  replace (negb (t_sw t =? 0) && (t_sw t <? t_len t)) with true by lia. reflexivity.
Qed.
Example C110_refused_case : refused (mkTxn true 0 8 4 (fun _ => 0) (fun _ => true) 0 None).
Proof. split; cbn; lia. Qed.

(** With the aligner, which lets through at most the length it was given, the number of beats
    is within what the protocol allows: 16 for AXI3, 256 for AXI4. *)
Theorem C110_beats : forall k W base lite hw m t maxlen,
  bus_width W -> k <> AXI4LITE -> configure_aligner true k W = Ok maxlen ->
  ~ refused t -> 1 <= t_len t <= maxlen ->
  exists m1 d o, b_transport W base lite hw m t = Ok o
    /\ o_given o = Some (m1, d)
    /\ 1 <= beats W d <= match k with AXI3 => 16 | _ => 256 end.
Proof.
  intros k W base lite hw m t ml HW Hk Hc Hr [Hl1 Hl2].
  destruct (C110_descriptor W base lite hw m t HW Hr Hl1) as [m1 [d [o [E [Eo [_ [_ [Hb _]]]]]]]].
  exists m1, d, o. split; [exact E|]. split; [exact Eo|].
  injection Hc as <-. pose proof (width_bounds W HW) as Wb.
  assert (bus_addr base t mod W < W) by (apply N.mod_lt; lia).
  destruct k; [| |contradiction]; cbn [max_burstlen] in *; nia.
Qed.
Example C110_beats_case : configure_aligner true AXI4 16 = Ok 4080.
Proof. reflexivity. Qed.

(** Without the aligner the reset follows a null pointer. *)
Theorem C110_no_aligner_refuted : forall k W, configure_aligner false k W = UB.
Proof. reflexivity. Qed.

(** A secure transaction has AxPROT[1] set, which means non-secure: the bridge for the other
    direction takes each secure transaction for a non-secure one and the other way round. *)
Theorem C110_secure_refuted : forall W base lite hw m t g,
  bus_width W -> ~ refused t -> t_attr t = Some g ->
  exists m1 d o, b_transport W base lite hw m t = Ok o
    /\ o_given o = Some (m1, d) /\ slave_secure (d_attr d) = negb (ga_secure g).
Proof.
  intros W base lite hw m t g HW Hr Hg. unfold refused in Hr. unfold b_transport.
  assert (Hno : negb (t_sw t =? 0) && (t_sw t <? t_len t) = false) by lia.
  rewrite Hno. change u64 with (2 ^ 64). fold (bus_addr base t). set (A := bus_addr base t) in *.
  cbn zeta.
  set (m0 := if t_wr t then put m (DRAM_WRITE + A mod W) (t_len t) (t_data t) else m).
  destruct (setup_ok W lite m0 A (t_wr t) (t_len t) (t_be t) (t_be_len t) (t_attr t) HW)
    as [s [E _]].
  cbn zeta in E. rewrite E. cbn [rbind].
  match type of E with _ = Ok (?a, ?b) => set (m1 := a) in *; set (d := b) in *; exists m1, d end.
  destruct (hw m1 d) as [m2 sr]. eexists. split; [reflexivity|]. cbn [o_given].
  split; [reflexivity|]. unfold d. cbn [d_attr]. rewrite Hg. unfold slave_secure, compute_attr.
  rewrite N.land_spec, N.shiftr_spec'. change (N.testbit 7 1) with true. rewrite andb_true_r.
  f_equal. change (1 + 8) with 9. rewrite N.lor_spec. change (N.testbit 1 9) with false.
  rewrite orb_false_r. change u32 with (2 ^ 32). rewrite N.mod_pow2_bits_low by lia.
  rewrite !N.lor_spec. rewrite (N.shiftl_spec_low (ga_qos g)), (N.shiftl_spec_low (ga_region g)) by lia.
  rewrite !orb_false_r. destruct (ga_secure g); reflexivity.
Qed.
(** A quality of service above 15 is not cut off but goes into the region; below, it arrives. *)
Theorem C110_qos_partial : forall g, ga_qos g < 16 -> slave_qos (compute_attr (Some g)) = ga_qos g.
Proof.
  intros g Hq. unfold slave_qos, compute_attr. apply N.bits_inj. intros b.
  match goal with |- context [N.land ?v 15] => change (N.land v 15) with (N.land v (N.ones 4)) end.
  rewrite N.land_spec, N.shiftr_spec'. change u32 with (2 ^ 32).
  destruct (N.lt_ge_cases b 4).
  - rewrite N.ones_spec_low by assumption. rewrite andb_true_r.
    rewrite N.mod_pow2_bits_low by lia. rewrite !N.lor_spec.
    rewrite (N.shiftl_spec_low (ga_region g)) by lia. rewrite orb_false_r.
    rewrite !N.shiftl_spec_high' by lia. replace (b + 11 - 11) with b by lia.
    replace (N.testbit (N.b2n (ga_secure g)) (b + 11 - 9)) with false; [reflexivity|].
    symmetry. destruct (ga_secure g); cbn [N.b2n]; [|apply N.bits_0].
    change 1 with (N.ones 1). apply N.ones_spec_high. lia.
  - rewrite N.ones_spec_high by assumption. rewrite andb_false_r. symmetry.
    apply (RegapiProofs.small_bits (ga_qos g) 4); assumption.
Qed.
Example C110_qos_case : slave_qos (compute_attr (Some (mkGattr true 11 3))) = 11.
Proof. reflexivity. Qed.
Theorem C110_qos_refuted :
  exists g, ga_qos g < 256 /\ ga_region g = 0
    /\ N.land (N.shiftr (compute_attr (Some g)) 15) 15 = 3.
Proof. exists (mkGattr false 0x30 0). repeat split; reflexivity. Qed.

Print Assumptions C110_write_partial.
Print Assumptions C110_unaligned_refuted.
Print Assumptions C110_crossing_refuted.
Print Assumptions C110_read.
Print Assumptions C110_descriptor.
Print Assumptions C110_refused.
Print Assumptions C110_beats.
Print Assumptions C110_no_aligner_refuted.
Print Assumptions C110_secure_refuted.
Print Assumptions C110_qos_partial.
Print Assumptions C110_qos_refuted.
