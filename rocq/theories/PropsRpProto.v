(** Remote-port packet codec, framing and capability negotiation. *)
From Verif Require Import Base BaseFacts RpProtoModel RpProtoSpec RpProtoProofs.
Open Scope N_scope.

(** C01.  Every packet of every kind, at the head of any stream and received into
    any buffer, is seen with the fields the sender passed, and exactly its bytes
    are consumed.  (For ATS packets [sees] leaves the timestamp open: C36.) *)
Theorem C01_packets_survive_the_wire : forall p junk buf rest m,
  sendable p m -> junk_ok junk -> rxbuf_ok buf ->
  exists bytes r, wire p junk m = Ok bytes /\
    rx_one buf (bytes ++ rest) = Ok (r, rest) /\ sees p m r.
Proof. exact one_packet. Qed.
Print Assumptions C01_packets_survive_the_wire.

Definition ex_caps := mkCaps true true true false.
Definition ex_old := mkCaps false false false false.
Definition ex_write :=
  MBus (mkIn CMD_write 7 0 2 123456789 4660 305419896 3 4 0 4 2) [1; 2; 3; 4] [255; 0].
Definition ex_read_old :=
  MBus (mkIn CMD_read 8 FLAG_response 2 99 65534 4096 0 3 0 3 0) [9; 8; 7] [].
Example C01_case : sendable ex_caps ex_write /\ sendable ex_old ex_read_old /\
  sendable ex_old (MHello 1 0 4 3 [1; 3; 4]) /\ junk_ok (repeat 7 32).
Proof.
  unfold sendable, wf_msg, wf_in, junk_ok. lits.
Qed.

(** C02.  The receiver does not see a 64-bit master id: it sees the low 16 bits. *)
Theorem C02_master_id_refuted : exists p junk i data bytes r b e,
  wf_msg (MBus i data []) /\ c_ext_base p = true /\
  wire p junk (MBus i data []) = Ok bytes /\
  rx_one (repeat 0 148) bytes = Ok (r, []) /\
  r_pl r = PBus b e /\ b_master b <> i_master i.
Proof.
  exists ex_caps, (repeat 0 32),
    (mkIn CMD_write 7 0 2 1 65536 4096 0 1 0 1 0), [5].
  do 4 eexists.
  split; [|split; [reflexivity|split; [reflexivity|split; [vm_compute; reflexivity|]]]].
  - unfold wf_msg, wf_in. lits.
  - split; [reflexivity|]. vm_compute. discriminate.
Qed.
Print Assumptions C02_master_id_refuted.

Theorem C02_master_id_partial : forall p junk buf rest i data be,
  wf_msg (MBus i data be) -> bus_old_layout p i = false -> rxbuf_ok buf ->
  exists bytes r b e, wire p junk (MBus i data be) = Ok bytes /\
    rx_one buf (bytes ++ rest) = Ok (r, rest) /\
    r_pl r = PBus b e /\ b_master b = i_master i mod 65536.
Proof. exact master_low16. Qed.
Print Assumptions C02_master_id_partial.

Example C02_case :
  let i := mkIn CMD_write 7 0 2 1 81985529216486895 4096 0 1 0 1 0 in
  wf_msg (MBus i [5] []) /\ bus_old_layout ex_caps i = false.
Proof.
  unfold wf_msg, wf_in. lits.
Qed.

(** C03.  Any sequence of packets is cut into the same packets again. *)
Theorem C03_stream_framing : forall p junk ms buf,
  Forall (sendable p) ms -> junk_ok junk -> rxbuf_ok buf ->
  exists bytes rs, wire_all p junk ms = Ok bytes /\
    (forall fuel, (length ms <= fuel)%nat -> rx_all fuel buf bytes = Ok rs) /\
    Forall2 (sees p) ms rs.
Proof. exact stream_ok. Qed.
Print Assumptions C03_stream_framing.

Example C03_case : Forall (sendable ex_caps)
  [MHello 1 0 4 3 [1; 3; 4]; ex_write; MIrq 9 3 77 2 0 1 FLAG_posted; MSync 10 0 100 0;
   ex_write].
Proof.
  unfold ex_write, sendable, wf_msg, wf_in. lits.
Qed.

(** C07.  Exactly the capabilities in the list are added. *)
Theorem C07_capability_negotiation : forall c l c',
  rp_process_caps c l = Ok c' ->
  (c_ext_base c' = true <-> c_ext_base c = true \/ In 1 l) /\
  (c_byte_en c' = true <-> c_byte_en c = true \/ In 2 l) /\
  (c_wire_posted c' = true <-> c_wire_posted c = true \/ In 3 l) /\
  (c_ats c' = true <-> c_ats c = true \/ In 4 l).
Proof. exact caps_exact. Qed.
Print Assumptions C07_capability_negotiation.

Theorem C07_capability_first_hello : forall c l,
  c_ext_base c = false -> exists c', rp_process_caps c l = Ok c'.
Proof. exact caps_total. Qed.
Print Assumptions C07_capability_first_hello.

Example C07_case :
  rp_process_caps (mkCaps false false false false) [4; 9; 3; 4; 1]
  = Ok (mkCaps true false true true).
Proof. reflexivity. Qed.

(** C36.  The timestamp of an ATS packet is not what was sent (it is not converted
    from network order), and the decoder reports 0 bytes consumed. *)
Theorem C36_ats_timestamp_refuted : exists p junk m bytes r clk ts,
  m = MAts CMD_ats_req 1 2 clk 3 4096 4096 0 0 /\ wf_msg m /\
  wire p junk m = Ok bytes /\ rx_one (repeat 0 148) bytes = Ok (r, []) /\
  r_pl r = PAts ts 3 4096 4096 0 /\ ts <> clk /\ r_used r = 0.
Proof.
  exists ex_caps, (repeat 0 32), (MAts CMD_ats_req 1 2 1000 3 4096 4096 0 0).
  do 4 eexists.
  split; [reflexivity|]. split; [cbn; repeat split; auto; lia|].
  split; [vm_compute; reflexivity|]. split; [vm_compute; reflexivity|].
  split; [reflexivity|]. split; [vm_compute; discriminate|reflexivity].
Qed.
Print Assumptions C36_ats_timestamp_refuted.
