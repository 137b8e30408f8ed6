(** Properties C31, C32 (slave side) and C47: the AXI-to-TLM bridge, data. *)
From Verif Require Import Base BaseFacts TlmModel TlmSpec WrapSpec AxiSpec Tlm2AxiSpec Tlm2AxiModel Tlm2AxiProofs Tlm2AxiReads.
From Verif Require Import Axi2TlmSpec Axi2TlmModel Axi2TlmProofs Axi2TlmReads Axi2TlmBridge.
Open Scope N_scope.

(** ** C31: writes.  One TLM write whose enabled bytes, in order, are those the
    AXI rules say the burst writes.  INCR and WRAP: beats as wide as the bus. *)
Theorem C31_incr_write_partial B aw ar junk ws : let b := s_burst aw in
  incr_burst B b -> b_bytes b = B -> last_legal b ws ->
  exists g at', a2t_write B aw ar junk ws = Ok (g, at') /\ g_cmd g = C_WRITE /\
    enabled (accesses g) = burst_writes B b ws /\ g_sw g = g_len g /\
    at_wrap at' = false /\ at_id at' = s_id aw /\ at_bw at' = b_bytes b /\ at_excl at' = (s_lock aw =? 1).
Proof.
  intros b Hb Hf L. destruct (incr_taken B aw ar junk ws Hb Hf L) as [g [H1 [H2 [H3 H4]]]].
  exists g. eexists. repeat (split; [eassumption|]). unfold tr_attr. cbn [at_wrap at_id at_bw at_excl].
  destruct Hb as [_ [_ [_ [E _]]]]. fold b. rewrite E. repeat split.
Qed.
Theorem C31_fixed_write_partial B aw ar junk ws : let b := s_burst aw in
  fixed_burst B b -> beats_legal B b ws -> last_legal b ws ->
  exists g at', a2t_write B aw ar junk ws = Ok (g, at') /\ g_cmd g = C_WRITE /\
    enabled (accesses g) = burst_writes B b ws /\ g_sw g = B /\
    at_wrap at' = false /\ at_id at' = s_id aw /\ at_bw at' = b_bytes b /\ at_excl at' = (s_lock aw =? 1).
Proof.
  intros b Hb Hf L. destruct (fixed_taken B aw ar junk ws Hb Hf L) as [g [H1 [H2 [H3 H4]]]].
  exists g. eexists. repeat (split; [eassumption|]). unfold tr_attr. cbn [at_wrap at_id at_bw at_excl].
  destruct Hb as [_ [_ [_ [E _]]]]. fold b. rewrite E. repeat split.
Qed.
(** A wrapping write is marked as such. *)
Theorem C31_wrap_write_partial B aw ar junk ws : let b := s_burst aw in
  wrap_burst B b -> b_bytes b = B -> last_legal b ws ->
  exists g at', a2t_write B aw ar junk ws = Ok (g, at') /\ g_cmd g = C_WRITE /\
    enabled (wrap_accesses g) = burst_writes B b ws /\ g_sw g = g_len g /\
    at_wrap at' = true /\ at_id at' = s_id aw /\ at_bw at' = b_bytes b /\ at_excl at' = (s_lock aw =? 1).
Proof.
  intros b Hb Hf L. destruct (wrap_taken B aw ar junk ws Hb Hf L) as [g [H1 [H2 [H3 H4]]]].
  exists g. eexists. repeat (split; [eassumption|]). unfold tr_attr. cbn [at_wrap at_id at_bw at_excl].
  destruct Hb as [_ [_ [_ [E _]]]]. fold b. rewrite E. repeat split.
Qed.

Definition sig (b : aburst) (id prot : N) : asig := mkSig b id prot 0.
Definition bits (l : list N) : list bool := map (fun x => x =? 1) l.

(** Two beats from address 3, byte 5 not strobed. *)
Example C31_write_case :
  a2t_write 4 (sig (mkBurst B_INCR 3 2 1) 9 2) (sig (mkBurst B_INCR 0 0 0) 0 2) (fun _ => 77)
    [mkW [0; 0; 0; 10] (bits [0; 0; 0; 1]) false; mkW [11; 12; 13; 14] (bits [1; 0; 1; 1]) true] =
  Ok (mkGp C_WRITE 3 [10; 11; 77; 13; 14] (Some [255; 255; 0; 255; 255]) 5 St_INCOMPLETE,
      mkAattr true 4 9 false false).
Proof. reflexivity. Qed.

(** ** Reads: any width.  A target that is memory [m] is seen through the bridge,
    every byte on its lane, RLAST on the last of the announced beats. *)
Definition answer (m : mem) (l : list access) : list N := map (fun x => m (a_addr x)) l.

Theorem C31_incr_read_partial B ar junk m prev : let b := s_burst ar in
  incr_burst B b ->
  let '(g, at') := a2t_read B ar junk in
  g_cmd g = C_READ /\ g_be g = None /\ at_wrap at' = false /\ at_ns at' = (N.land (s_prot ar) 2 =? 2) /\
  exists rs, a2t_rdata B b (answer m (accesses g)) prev = Ok rs /\
    serves B b m (map fst rs) /\ rlast_legal b (map snd rs).
Proof.
  intros b Hb. pose proof (read_taken B ar junk) as T. cbn zeta in T. fold b in T.
  destruct (a2t_read B ar junk) as [g at'] eqn:E. cbn [fst] in T. destruct T as [T1 [T2 [T3 [T4 T5]]]].
  split; [exact T1|]. split; [exact T4|].
  assert (Ea : at' = tr_attr ar (s_prot ar)) by (unfold a2t_read in E; congruence).
  split; [rewrite Ea; unfold tr_attr; destruct Hb as [_ [_ [_ [Ek _]]]]; fold b; rewrite Ek; reflexivity|].
  split; [rewrite Ea; reflexivity|].
  destruct (incr_rdata B b g m prev Hb T2 T3 T5) as [rs [R1 [R2 [R3 _]]]]. exists rs. split; [exact R1|]. split; assumption.
Qed.
Theorem C31_fixed_read_partial B ar junk m prev : let b := s_burst ar in
  fixed_burst B b ->
  let '(g, at') := a2t_read B ar junk in
  g_cmd g = C_READ /\ g_be g = None /\ at_wrap at' = false /\ at_ns at' = (N.land (s_prot ar) 2 =? 2) /\
  exists rs, a2t_rdata B b (answer m (accesses g)) prev = Ok rs /\
    serves B b m (map fst rs) /\ rlast_legal b (map snd rs).
Proof.
  intros b Hb. pose proof (read_taken B ar junk) as T. cbn zeta in T. fold b in T.
  destruct (a2t_read B ar junk) as [g at'] eqn:E. cbn [fst] in T. destruct T as [T1 [T2 [T3 [T4 T5]]]].
  split; [exact T1|]. split; [exact T4|].
  assert (Ea : at' = tr_attr ar (s_prot ar)) by (unfold a2t_read in E; congruence).
  split; [rewrite Ea; unfold tr_attr; destruct Hb as [_ [_ [_ [Ek _]]]]; fold b; rewrite Ek; reflexivity|].
  split; [rewrite Ea; reflexivity|].
  destruct (fixed_rdata B b g m prev Hb T2 T3 T5) as [rs [R1 [R2 [R3 _]]]]. exists rs. split; [exact R1|]. split; assumption.
Qed.
Theorem C31_wrap_read_partial B ar junk m prev : let b := s_burst ar in
  wrap_burst B b -> wrap_lanes B b ->
  let '(g, at') := a2t_read B ar junk in
  g_cmd g = C_READ /\ g_be g = None /\ at_wrap at' = true /\ at_ns at' = (N.land (s_prot ar) 2 =? 2) /\
  exists rs, a2t_rdata B b (answer m (wrap_accesses g)) prev = Ok rs /\
    serves B b m (map fst rs) /\ rlast_legal b (map snd rs).
Proof.
  intros b Hb Hw. pose proof (read_taken B ar junk) as T. cbn zeta in T. fold b in T.
  destruct (a2t_read B ar junk) as [g at'] eqn:E. cbn [fst] in T. destruct T as [T1 [T2 [T3 [T4 T5]]]].
  split; [exact T1|]. split; [exact T4|].
  assert (Ea : at' = tr_attr ar (s_prot ar)) by (unfold a2t_read in E; congruence).
  split; [rewrite Ea; unfold tr_attr; destruct Hb as [_ [_ [_ [Ek _]]]]; fold b; rewrite Ek; reflexivity|].
  split; [rewrite Ea; reflexivity|].
  destruct (wrap_rdata B b g m prev Hb Hw T2 T5) as [rs [R1 [R2 [R3 _]]]]. exists rs. split; [exact R1|]. split; assumption.
Qed.

(** Three two-byte beats from address 3 on an eight-byte bus. *)
Example C31_read_case :
  a2t_rdata 8 (mkBurst B_INCR 3 1 2) [103; 104; 105; 106; 107] (repeat 0 8) =
  Ok [([0; 0; 0; 103; 0; 0; 0; 0], false); ([0; 0; 0; 103; 104; 105; 0; 0], false);
      ([0; 0; 0; 103; 104; 105; 106; 107], true)].
Proof. reflexivity. Qed.

(** Narrow writes lose data: two two-byte beats on a four-byte bus.  FillData puts
    a whole bus word per beat into a buffer sized for two-byte beats. *)
Theorem C31_narrow_refuted :
  let b := mkBurst B_INCR 0 1 1 in
  let ws := [mkW [1; 2; 0; 0] (bits [1; 1; 0; 0]) false; mkW [0; 0; 3; 4] (bits [0; 0; 1; 1]) true] in
  burst_legal 4 256 b /\ beats_legal 4 b ws /\ last_legal b ws /\
  burst_writes 4 b ws = [(0, 1); (1, 2); (2, 3); (3, 4)] /\
  exists g at', a2t_write 4 (sig b 0 0) (sig b 0 0) (fun _ => 0) ws = Ok (g, at') /\
  enabled (accesses g) = [(0, 1); (1, 2)].
Proof.
  cbn zeta. split; [split; [vm_compute; discriminate|split; [vm_compute; discriminate|discriminate]]|].
  split.
  { intros n w H. destruct n as [|[|n]]; cbn in H; [| |destruct n; discriminate];
      (match type of H with Some ?x = _ => assert (w = x) as -> by congruence end);
      (split; [reflexivity|]); (split; [reflexivity|]);
      intros l Hl; destruct l as [|[|[|[|l]]]]; cbn in Hl; try discriminate Hl;
      try (destruct l; discriminate Hl);
      [exists 0|exists 1|exists 2|exists 3]; (split; [vm_compute; tauto|reflexivity]). }
  split; [split; reflexivity|]. split; [reflexivity|]. eexists _, _. split; reflexivity.
Qed.

(** The security attribute of a write is that of the read address channel: a
    secure write is delivered as non-secure and the other way round. *)
Theorem C31_security_refuted :
  let b := mkBurst B_INCR 0 2 0 in
  let ws := [mkW [1; 2; 3; 4] (bits [1; 1; 1; 1]) true] in
  (exists g at', a2t_write 4 (sig b 0 0) (sig b 0 2) (fun _ => 0) ws = Ok (g, at') /\ at_ns at' = true) /\
  (exists g at', a2t_write 4 (sig b 0 2) (sig b 0 0) (fun _ => 0) ws = Ok (g, at') /\ at_ns at' = false).
Proof. split; eexists _, _; (split; [reflexivity|reflexivity]). Qed.

(** A narrow wrapping read that wraps inside a bus word: the lane is computed from
    the address without wrapping. *)
Theorem C31_wrap_read_refuted :
  let b := mkBurst B_WRAP 2 1 1 in
  burst_legal 8 16 b /\ beat_range b 1 = [0; 1] /\
  exists rs, a2t_rdata 8 b (answer (fun x => 100 + x) (wrap_accesses (fst (a2t_read 8 (sig b 0 0) (fun _ => 0))))) (repeat 0 8) = Ok rs /\
  ~ serves 8 b (fun x => 100 + x) (map fst rs).
Proof.
  cbn zeta. split; [split; [vm_compute; discriminate|split; [vm_compute; discriminate|]]|].
  { intros _. split; [reflexivity|left; reflexivity]. }
  split; [reflexivity|]. eexists. split; [vm_compute; reflexivity|].
  intros H. specialize (H 1%nat _ 0 eq_refl). cbn in H. specialize (H (or_introl eq_refl)). discriminate.
Qed.

(** ** C32, slave side.  Success with its exclusive flag, address errors and generic
    errors come out of the AXI response as they went in. *)
Theorem C32_slave_partial st h : st = St_OK \/ st = St_ADDRESS \/ st = St_GENERIC ->
  set_axi_resp (a2t_resp st true h) (Some false) = (st, Some (match st with St_OK => h | _ => false end)) /\
  a2t_resp st false h = a2t_resp st true false.
Proof. intros [->|[->| ->]]; destruct h; split; reflexivity. Qed.

(** The other TLM errors become OKAY. *)
Theorem C32_slave_refuted :
  Forall (fun st => set_axi_resp (a2t_resp st false false) (Some false) = (St_OK, Some false))
         [St_INCOMPLETE; St_COMMAND; St_BURST; St_BYTE_ENABLE].
Proof. repeat constructor. Qed.

(** On an ACE read port RRESP[1:0] never changes: the value just written is read
    back before it takes effect and overwritten with the old one.  Neither errors
    nor exclusive success reach the master. *)
Theorem C32_ace_refuted : 
  (forall rresp st excl handled dirty shared waited,
     let s := ace_rresp rresp st excl handled dirty shared waited in
     sg_cur s mod 4 = sg_cur rresp mod 4 /\ sg_new s = sg_cur s) /\
  sg_cur (ace_rresp (mkSigv 0 0) St_ADDRESS false false false false true) = 0 /\
  a2t_resp St_ADDRESS false false = 3.
Proof.
  split; [|split; reflexivity]. intros rresp st excl handled dirty shared waited.
  unfold ace_rresp. cbn zeta. cbn [sg_cur sg_write].
  pose proof (N.mod_lt (sg_cur rresp) 4 ltac:(discriminate)) as M. remember (sg_cur rresp mod 4) as r.
  assert (r = 0 \/ r = 1 \/ r = 2 \/ r = 3) as [->|[->|[->| ->]]] by lia;
    destruct waited, dirty, shared; split; reflexivity.
Qed.

(** ** C47: the two bridges back to back.  A write arrives with its enabled bytes
    unchanged; a read returns what the target's memory holds, disabled bytes being
    kept.  INCR and WRAP writes: beats as wide as the bus. *)
Theorem C47_incr_write_partial B mx g a b ws id prot lock ar junk :
  incr_case B g (t_bw a) (t_wrap a) -> beat_width B (t_bw a) = B -> g_cmd g = C_WRITE ->
  axi_write B mx g a = Ok (Some (b, ws)) ->
  exists g' at', a2t_write B (mkSig b id prot lock) ar junk ws = Ok (g', at') /\ g_cmd g' = C_WRITE /\
    enabled (accesses g') = enabled (accesses g).
Proof.
  intros Hc Hw Hg HW. destruct (incr_whole B mx g a Hc) as [r [E1 E2]]; [rewrite Hg; discriminate|].
  rewrite HW in E1. apply Ok_inj in E1. subst r. destruct E2 as [F1 [F2 [F3 [F4 [_ [F5 [F6 F7]]]]]]].
  pose proof (incr_to_burst B g _ _ b Hc F1 F2 F3 F4) as Hb.
  destruct (incr_taken B (mkSig b id prot lock) ar junk ws Hb ltac:(cbn; congruence) F7) as [g' [H1 [H2 [H3 _]]]].
  exists g'. eexists. split; [exact H1|]. split; [exact H2|]. rewrite H3. exact F5.
Qed.
Theorem C47_fixed_write_partial B mx g a b ws id prot lock ar junk :
  fixed_case B g (t_bw a) -> enables_stream g -> g_cmd g = C_WRITE ->
  axi_write B mx g a = Ok (Some (b, ws)) ->
  exists g' at', a2t_write B (mkSig b id prot lock) ar junk ws = Ok (g', at') /\ g_cmd g' = C_WRITE /\
    enabled (accesses g') = enabled (accesses g).
Proof.
  intros Hc He Hg HW. destruct (fixed_whole B mx g a Hc He) as [r [E1 E2]]; [rewrite Hg; discriminate|].
  rewrite HW in E1. apply Ok_inj in E1. subst r. destruct E2 as [F1 [F2 [F3 [F4 [_ [F5 [F6 F7]]]]]]].
  pose proof (fixed_to_burst B g _ b Hc F1 F2 F3) as Hb.
  destruct (fixed_taken B (mkSig b id prot lock) ar junk ws Hb F6 F7) as [g' [H1 [H2 [H3 _]]]].
  exists g'. eexists. split; [exact H1|]. split; [exact H2|]. rewrite H3. exact F5.
Qed.
Theorem C47_wrap_write_partial B mx g a b ws id prot lock ar junk :
  wrap_case B g (t_bw a) (t_wrap a) -> beat_width B (t_bw a) = B -> g_cmd g = C_WRITE ->
  axi_write B mx g a = Ok (Some (b, ws)) ->
  exists g' at', a2t_write B (mkSig b id prot lock) ar junk ws = Ok (g', at') /\ g_cmd g' = C_WRITE /\
    at_wrap at' = true /\ enabled (wrap_accesses g') = enabled (wrap_accesses g).
Proof.
  intros Hc Hw Hg HW. destruct (wrap_whole B mx g a Hc) as [r [E1 E2]]; [rewrite Hg; discriminate|].
  rewrite HW in E1. apply Ok_inj in E1. subst r. destruct E2 as [F1 [F2 [F3 [F4 [_ [F5 [F6 F7]]]]]]].
  destruct (wrap_to_burst B g _ _ b Hc F1 F2 F3 F4) as [Hb _].
  destruct (wrap_taken B (mkSig b id prot lock) ar junk ws Hb ltac:(cbn; congruence) F7) as [g' [H1 [H2 [H3 _]]]].
  exists g'. eexists. split; [exact H1|]. split; [exact H2|].
  split; [unfold tr_attr; cbn; rewrite F1; reflexivity|]. rewrite H3. exact F5.
Qed.

Theorem C47_incr_read B mx g a b t prot lock junk m prev :
  incr_case B g (t_bw a) (t_wrap a) -> g_cmd g = C_READ -> axi_read B mx g a = Ok (Some (b, t)) ->
  let '(g', at') := a2t_read B (mkSig b (tt_id t) prot lock) junk in
  at_wrap at' = false /\
  exists rs, a2t_rdata B b (answer m (accesses g')) prev = Ok rs /\
    read_beats B (mkRp [t] None []) (master_beats (at_id at') 0 rs) =
    Ok (mkRp [] None [(t, (map (get m) (accesses g), St_OK))]).
Proof.
  intros Hc Hg HR. destruct (incr_read B mx g a Hc) as [r [E1 E2]]; [rewrite Hg; discriminate|].
  rewrite HR in E1. apply Ok_inj in E1. subst r. pose proof E2 as E3. destruct E2 as [_ [F1 [F2 [F3 [F4 _]]]]].
  pose proof (incr_to_burst B g _ _ b Hc F1 F2 F3 F4) as Hb.
  pose proof (C31_incr_read_partial B (mkSig b (tt_id t) prot lock) junk m prev Hb) as T. cbn [s_burst] in T.
  destruct (a2t_read B (mkSig b (tt_id t) prot lock) junk) as [g' at'] eqn:E.
  destruct T as [_ [_ [T1 [_ [rs [R1 [R2 R3]]]]]]]. split; [exact T1|]. exists rs. split; [exact R1|].
  assert (at_id at' = tt_id t) as -> by (unfold a2t_read in E; assert (X := f_equal snd E); cbn in X; rewrite <- X; reflexivity).
  exact (read_through _ _ _ _ _ _ _ _ _ m rs E3 R2 R3).
Qed.
Theorem C47_fixed_read B mx g a b t prot lock junk m prev :
  fixed_case B g (t_bw a) -> g_cmd g = C_READ -> axi_read B mx g a = Ok (Some (b, t)) ->
  let '(g', at') := a2t_read B (mkSig b (tt_id t) prot lock) junk in
  at_wrap at' = false /\
  exists rs, a2t_rdata B b (answer m (accesses g')) prev = Ok rs /\
    read_beats B (mkRp [t] None []) (master_beats (at_id at') 0 rs) =
    Ok (mkRp [] None [(t, (map (get m) (accesses g), St_OK))]).
Proof.
  intros Hc Hg HR. destruct (fixed_read B mx g a Hc) as [r [E1 E2]]; [rewrite Hg; discriminate|].
  rewrite HR in E1. apply Ok_inj in E1. subst r. pose proof E2 as E3. destruct E2 as [_ [F1 [F2 [F3 [F4 _]]]]].
  pose proof (fixed_to_burst B g _ b Hc F1 F2 F3) as Hb.
  pose proof (C31_fixed_read_partial B (mkSig b (tt_id t) prot lock) junk m prev Hb) as T. cbn [s_burst] in T.
  destruct (a2t_read B (mkSig b (tt_id t) prot lock) junk) as [g' at'] eqn:E.
  destruct T as [_ [_ [T1 [_ [rs [R1 [R2 R3]]]]]]]. split; [exact T1|]. exists rs. split; [exact R1|].
  assert (at_id at' = tt_id t) as -> by (unfold a2t_read in E; assert (X := f_equal snd E); cbn in X; rewrite <- X; reflexivity).
  exact (read_through _ _ _ _ _ _ _ _ _ m rs E3 R2 R3).
Qed.
Theorem C47_wrap_read B mx g a b t prot lock junk m prev :
  wrap_case B g (t_bw a) (t_wrap a) -> g_cmd g = C_READ -> axi_read B mx g a = Ok (Some (b, t)) ->
  let '(g', at') := a2t_read B (mkSig b (tt_id t) prot lock) junk in
  at_wrap at' = true /\
  exists rs, a2t_rdata B b (answer m (wrap_accesses g')) prev = Ok rs /\
    read_beats B (mkRp [t] None []) (master_beats (at_id at') 0 rs) =
    Ok (mkRp [] None [(t, (map (get m) (wrap_accesses g), St_OK))]).
Proof.
  intros Hc Hg HR. destruct (wrap_read B mx g a Hc) as [r [E1 E2]]; [rewrite Hg; discriminate|].
  rewrite HR in E1. apply Ok_inj in E1. subst r. pose proof E2 as E3. destruct E2 as [_ [F1 [F2 [F3 [F4 _]]]]].
  destruct (wrap_to_burst B g _ _ b Hc F1 F2 F3 F4) as [Hb [Hl _]].
  pose proof (C31_wrap_read_partial B (mkSig b (tt_id t) prot lock) junk m prev Hb Hl) as T. cbn [s_burst] in T.
  destruct (a2t_read B (mkSig b (tt_id t) prot lock) junk) as [g' at'] eqn:E.
  destruct T as [_ [_ [T1 [_ [rs [R1 [R2 R3]]]]]]]. split; [exact T1|]. exists rs. split; [exact R1|].
  assert (at_id at' = tt_id t) as -> by (unfold a2t_read in E; assert (X := f_equal snd E); cbn in X; rewrite <- X; reflexivity).
  exact (read_through _ _ _ _ _ _ _ _ _ m rs E3 R2 R3).
Qed.

(** A seven-byte write from address 3, byte 1 disabled, through both bridges. *)
Example C47_case :
  let g := mkGp C_WRITE 3 [1; 2; 3; 4; 5; 6; 7] (Some [255; 0; 255; 255; 255; 255; 255]) 7 St_INCOMPLETE in
  exists b ws g' at', axi_write 4 256 g (mkTattr 0 false 5) = Ok (Some (b, ws)) /\
  a2t_write 4 (sig b 5 0) (sig b 0 0) (fun _ => 0) ws = Ok (g', at') /\ at_id at' = 5 /\
  g_addr g' = 3 /\ length (g_data g') = 9%nat /\
  enabled (accesses g') = [(3, 1); (5, 3); (6, 4); (7, 5); (8, 6); (9, 7)].
Proof. cbn zeta. eexists _, _, _, _. split; [reflexivity|]. split; [reflexivity|]. repeat split. Qed.

(** A narrow burst is cut by the pair. *)
Theorem C47_narrow_refuted :
  let g := mkGp C_WRITE 0 [1; 2; 3; 4] None 4 St_INCOMPLETE in
  exists b ws g' at', axi_write 4 256 g (mkTattr 2 false 0) = Ok (Some (b, ws)) /\
  a2t_write 4 (sig b 0 0) (sig b 0 0) (fun _ => 0) ws = Ok (g', at') /\
  enabled (accesses g') = [(0, 1); (1, 2)].
Proof. cbn zeta. eexists _, _, _, _. split; [reflexivity|]. split; [reflexivity|]. reflexivity. Qed.

Print Assumptions C31_incr_write_partial.
Print Assumptions C31_fixed_write_partial.
Print Assumptions C31_wrap_write_partial.
Print Assumptions C31_incr_read_partial.
Print Assumptions C31_fixed_read_partial.
Print Assumptions C31_wrap_read_partial.
Print Assumptions C31_narrow_refuted.
Print Assumptions C31_security_refuted.
Print Assumptions C31_wrap_read_refuted.
Print Assumptions C32_slave_partial.
Print Assumptions C32_slave_refuted.
Print Assumptions C32_ace_refuted.
Print Assumptions C47_incr_write_partial.
Print Assumptions C47_fixed_write_partial.
Print Assumptions C47_wrap_write_partial.
Print Assumptions C47_incr_read.
Print Assumptions C47_fixed_read.
Print Assumptions C47_wrap_read.
Print Assumptions C47_narrow_refuted.
