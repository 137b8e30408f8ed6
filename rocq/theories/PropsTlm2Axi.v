(** Properties C29, C30, C32, C33 (first part): the TLM-to-AXI bridge. *)
From Verif Require Import Base BaseFacts TlmModel TlmSpec WrapSpec AxiSpec.
From Verif Require Import Tlm2AxiSpec Tlm2AxiModel Tlm2AxiProofs Tlm2AxiReads.
Open Scope N_scope.

(** ** C29: writes.
    Decoding the driven beats by the AXI rules gives the enabled bytes of the
    payload at their addresses, in order; every other strobe is low; WLAST marks
    the last of exactly the announced beats; refusal means too many beats. *)
Theorem C29_incr_partial B mx g a : incr_case B g (t_bw a) (t_wrap a) -> g_cmd g = C_WRITE ->
  let w := beat_width B (t_bw a) in
  exists r, axi_write B mx g a = Ok r /\ write_good B mx B_INCR g w (linear_beats g w) (accesses g) r.
Proof. intros H C. apply incr_whole; [exact H|]. rewrite C. discriminate. Qed.

(** Streams: the byte-enable pattern must repeat with the streaming width. *)
Theorem C29_fixed_partial B mx g a : fixed_case B g (t_bw a) -> enables_stream g -> g_cmd g = C_WRITE ->
  exists r, axi_write B mx g a = Ok r /\
    write_good B mx B_FIXED g (fixed_width g (t_bw a)) (stream_beats g) (accesses g) r.
Proof. intros H E C. apply fixed_whole; [exact H|exact E|]. rewrite C. discriminate. Qed.

Theorem C29_wrap_partial B mx g a : wrap_case B g (t_bw a) (t_wrap a) -> g_cmd g = C_WRITE ->
  let w := beat_width B (t_bw a) in
  exists r, axi_write B mx g a = Ok r /\ write_good B mx B_WRAP g w (linear_beats g w) (wrap_accesses g) r.
Proof. intros H C. apply wrap_whole; [exact H|]. rewrite C. discriminate. Qed.

Definition wr addr data be sw := mkGp C_WRITE addr data be sw St_INCOMPLETE.
Definition rd addr data be sw := mkGp C_READ addr data be sw St_INCOMPLETE.
Definition seqN (n : nat) : list N := map N.of_nat (seq 1 n).

(** Seven bytes from address 3 over a four-byte bus, byte 1 disabled. *)
Example C29_incr_case :
  axi_write 4 256 (wr 3 (seqN 7) (Some [255; 0; 255; 255; 255; 255; 255]) 7) (mkTattr 0 false 5) =
  Ok (Some (mkBurst B_INCR 3 2 2,
    [mkW [0; 0; 0; 1] [false; false; false; true] false;
     mkW [2; 3; 4; 5] [false; true; true; true] false;
     mkW [6; 7; 0; 0] [true; true; false; false] true])).
Proof. reflexivity. Qed.

(** A two-byte register at address 6 of an eight-byte bus, written three times. *)
Example C29_fixed_case :
  exists b ws, axi_write 8 16 (wr 6 (seqN 6) None 2) (mkTattr 0 false 0) = Ok (Some (b, ws)) /\
  burst_writes 8 b ws = [(6, 1); (7, 2); (6, 3); (7, 4); (6, 5); (7, 6)] /\ b_beats b = 3.
Proof. eexists _, _. split; [reflexivity|]. split; reflexivity. Qed.

Example C29_wrap_case :
  exists b ws, axi_write 4 16 (wr 24 (seqN 16) None 16) (mkTattr 0 true 0) = Ok (Some (b, ws)) /\
  burst_writes 4 b ws = combine [24; 25; 26; 27; 28; 29; 30; 31; 16; 17; 18; 19; 20; 21; 22; 23] (seqN 16).
Proof. eexists _, _. split; reflexivity. Qed.

(** What is accepted but not carried.  A burst_width wider than the bus is
    accepted: one beat is announced, two are sent, WLAST on the first. *)
Theorem C29_wide_refuted :
  exists b ws, axi_write 4 256 (wr 0 (seqN 8) None 8) (mkTattr 8 false 0) = Ok (Some (b, ws)) /\
  ~ burst_legal 4 256 b /\ b_beats b = 1 /\ length ws = 2%nat /\ map w_last ws = [true; false].
Proof.
  eexists _, _. split; [reflexivity|]. split; [|split; [|split]; reflexivity].
  intros [H _]. unfold b_bytes in H. cbn in H. lia.
Qed.

(** An unaligned stream as wide as the bus: the last byte of every period lands
    on the wrong address. *)
Theorem C29_fixed_unaligned_refuted :
  let g := wr 1 (seqN 8) None 4 in
  exists b ws, axi_write 4 256 g (mkTattr 0 false 0) = Ok (Some (b, ws)) /\
  burst_writes 4 b ws <> enabled (accesses g) /\
  nth 3 (burst_writes 4 b ws) (0, 0) = (1, 4) /\ nth 3 (enabled (accesses g)) (0, 0) = (4, 4).
Proof. eexists _, _. split; [reflexivity|]. split; [discriminate|split; reflexivity]. Qed.

(** A stream narrower than its burst_width: one beat announced, four sent as
    seen by the byte positions of the stream. *)
Theorem C29_fixed_narrow_refuted :
  exists b ws, axi_write 4 256 (wr 0 (seqN 4) None 1) (mkTattr 4 false 0) = Ok (Some (b, ws)) /\
  b_beats b = 1 /\ length ws = 4%nat.
Proof. eexists _, _. split; [reflexivity|]. split; reflexivity. Qed.

(** Byte enables of a stream are taken from its first period only: byte 4 is
    disabled by the payload yet written. *)
Theorem C29_fixed_enables_refuted :
  let g := wr 0 (seqN 8) (Some [255; 255; 255; 255; 0; 255; 255; 255]) 4 in
  exists b ws, axi_write 4 256 g (mkTattr 0 false 0) = Ok (Some (b, ws)) /\
  In (0, 5) (burst_writes 4 b ws) /\ ~ In (0, 5) (enabled (accesses g)).
Proof.
  eexists _, _. split; [reflexivity|]. split.
  - vm_compute. repeat (try (left; reflexivity); right).
  - vm_compute. intros H. repeat (destruct H as [H|H]; [discriminate H|]). exact H.
Qed.

(** A narrow wrapping burst puts the bytes after the wrap on lanes outside the
    beat: nothing is written there. *)
Theorem C29_wrap_narrow_refuted :
  let g := wr 2 (seqN 4) None 4 in
  exists b ws, axi_write 8 256 g (mkTattr 2 true 0) = Ok (Some (b, ws)) /\
  enabled (wrap_accesses g) = [(2, 1); (3, 2); (0, 3); (1, 4)] /\
  burst_writes 8 b ws = [(2, 1); (3, 2)] /\ ~ beats_legal 8 b ws.
Proof.
  eexists _, _. split; [reflexivity|]. split; [reflexivity|]. split; [reflexivity|].
  intros H. destruct (H 1%nat _ eq_refl) as [_ [_ X]].
  destruct (X 4%nat eq_refl) as [z [Z1 Z2]]. cbn in Z1.
  destruct Z1 as [Z1|[Z1|[]]]; subst z; discriminate Z2.
Qed.

(** The number of beats of a wrapping burst is not checked: three is accepted. *)
Theorem C29_wrap_beats_refuted :
  exists b ws, axi_write 4 256 (wr 0 (seqN 12) None 12) (mkTattr 0 true 0) = Ok (Some (b, ws)) /\
  ~ burst_legal 4 256 b.
Proof.
  eexists _, _. split; [reflexivity|]. intros [_ [_ H]]. destruct (H eq_refl) as [_ X].
  vm_compute in X. repeat (destruct X as [X|X]; [discriminate X|]). exact X.
Qed.

(** ** C30: reads.
    Whatever lanes a slave supplies for the announced beats, the buffer ends up
    with the byte supplied for each payload byte's own address; disabled bytes
    are kept; the status is that of the last beat. *)
Theorem C30_incr_partial B mx g a : incr_case B g (t_bw a) (t_wrap a) -> g_cmd g = C_READ ->
  let w := beat_width B (t_bw a) in
  exists r, axi_read B mx g a = Ok r /\ read_good B mx B_INCR g w (linear_beats g w) (accesses g) r.
Proof. intros H C. apply incr_read; [exact H|]. rewrite C. discriminate. Qed.

Theorem C30_fixed_partial B mx g a : fixed_case B g (t_bw a) -> g_cmd g = C_READ ->
  exists r, axi_read B mx g a = Ok r /\
    read_good B mx B_FIXED g (fixed_width g (t_bw a)) (stream_beats g) (accesses g) r.
Proof. intros H C. apply fixed_read; [exact H|]. rewrite C. discriminate. Qed.

Theorem C30_wrap_partial B mx g a : wrap_case B g (t_bw a) (t_wrap a) -> g_cmd g = C_READ ->
  let w := beat_width B (t_bw a) in
  exists r, axi_read B mx g a = Ok r /\ read_good B mx B_WRAP g w (linear_beats g w) (wrap_accesses g) r.
Proof. intros H C. apply wrap_read; [exact H|]. rewrite C. discriminate. Qed.

(** Against a memory this is the memory's content. *)
Theorem C30_memory B mx k g w beats want b t m rs wait rest r0 :
  read_good B mx k g w beats want (Some (b, t)) ->
  lookup_id wait (r_id (hd r0 rs)) = Some (t, rest) ->
  rlast_legal b (map r_last rs) -> serves B b m (map r_lanes rs) ->
  N.land (r_resp (last rs r0)) 3 = 0 ->
  read_beats B (mkRp wait None []) rs = Ok (mkRp rest None [(t, (map (get m) want, St_OK))]).
Proof.
  intros [_ [_ [_ [_ [_ [_ H]]]]]] L R S E.
  destruct (H rs wait rest [] r0 L R) as [H1 H2]. rewrite H1, E. cbn [app set_axi_resp fst N.eqb].
  rewrite (read_result_memory m want (reads_from B b 0 (map r_lanes rs))); [reflexivity| |exact H2].
  apply reads_memory. intros n r x Hn Hx. apply (S n r x Hn). exact Hx.
Qed.

Example C30_case :
  exists b t, axi_read 4 256 (rd 3 (seqN 6) (Some [255; 0; 255; 255; 255; 255]) 6) (mkTattr 0 false 5) = Ok (Some (b, t)) /\
  b = mkBurst B_INCR 3 2 2 /\
  read_beats 4 (mkRp [t] None [])
    [mkR 5 [100; 101; 102; 103] 0 false; mkR 5 [104; 105; 106; 107] 0 false; mkR 5 [108; 109; 110; 111] 0 true] =
  Ok (mkRp [] None [(t, ([103; 2; 105; 106; 107; 108], St_OK))]).
Proof. eexists _, _. split; [reflexivity|]. split; reflexivity. Qed.

(** An error on any beat but the last is lost. *)
Theorem C30_error_refuted :
  exists b t, axi_read 4 256 (rd 0 (seqN 8) None 8) (mkTattr 0 false 0) = Ok (Some (b, t)) /\
  b_beats b = 2 /\
  read_beats 4 (mkRp [t] None []) [mkR 0 [9; 9; 9; 9] 2 false; mkR 0 [9; 9; 9; 9] 0 true] =
  Ok (mkRp [] None [(t, (repeat 9 8, St_OK))]).
Proof. eexists _, _. split; [reflexivity|]. split; reflexivity. Qed.

(** The id of beats after the first is not looked at: read data of two ids,
    interleaved by the slave, is handed to the wrong transactions. *)
Theorem C30_interleaving_refuted :
  exists b t1 t2,
  axi_read 4 256 (rd 0 (repeat 0 8) None 8) (mkTattr 0 false 1) = Ok (Some (b, t1)) /\
  axi_read 4 256 (rd 0 (repeat 0 8) None 8) (mkTattr 0 false 2) = Ok (Some (b, t2)) /\
  read_beats 4 (mkRp [t1; t2] None [])
    [mkR 1 (repeat 1 4) 0 false; mkR 2 (repeat 2 4) 0 false; mkR 2 (repeat 2 4) 0 false; mkR 1 (repeat 1 4) 0 false] =
  Ok (mkRp [] None [(t1, ([1; 1; 1; 1; 2; 2; 2; 2], St_OK)); (t2, ([2; 2; 2; 2; 1; 1; 1; 1], St_OK))]).
Proof. eexists _, _, _. split; [reflexivity|]. split; reflexivity. Qed.

(** ** C32: response codes.  Through an AXI response and back, onto a payload
    whose exclusive flag is clear: success stays success with its exclusive
    flag, an address error an address error, any other error a generic error. *)
Theorem C32_roundtrip_partial st e : 
  set_axi_resp (get_axi_resp st (Some e)) (Some false) =
  match st with
  | St_OK => (St_OK, Some e)
  | St_ADDRESS => (St_ADDRESS, Some false)
  | _ => (St_GENERIC, Some false)
  end.
Proof. destruct st, e; reflexivity. Qed.

(** And codes survive the other way round. *)
Theorem C32_code r : r < 4 ->
  let '(st, e) := set_axi_resp r (Some false) in get_axi_resp st e = r.
Proof.
  intros H. assert (r = 0 \/ r = 1 \/ r = 2 \/ r = 3) as [->|[->|[->| ->]]] by lia; reflexivity.
Qed.

(** The flag is never cleared: a payload used again reports a failed exclusive
    access (OKAY) as handled. *)
Theorem C32_stale_refuted :
  set_axi_resp 0 (snd (set_axi_resp 1 (Some false))) = (St_OK, Some true) /\
  get_axi_resp St_OK (Some false) = 0.
Proof. split; reflexivity. Qed.

(** ** C33, master side: responses go to the oldest pending transaction of their
    id; transactions of one id finish in issue order; none is lost or answered
    twice. *)
Theorem C33_write_responses_partial wait bs rest dn : write_resps wait bs = Ok (rest, dn) ->
  (forall i, with_id i wait = with_id i (map fst dn) ++ with_id i rest) /\
  map (fun d => tt_id (fst d)) dn = map fst bs /\
  map snd dn = map (fun x => fst (set_axi_resp (snd x) None)) bs.
Proof. apply write_resps_order. Qed.

Theorem C33_read_responses_partial B s rs s' i : read_beats B s rs = Ok s' ->
  with_id i (rp_all s') = with_id i (rp_all s).
Proof. apply read_beats_order. Qed.

Definition ex_t n id := mkTT (rd n [0] None 1) B_INCR 4 1 id.
Example C33_case :
  write_resps [ex_t 0 1; ex_t 4 2; ex_t 8 1; ex_t 12 1] [(1, 0); (1, 3); (2, 2)] =
  Ok ([ex_t 12 1], [(ex_t 0 1, St_OK); (ex_t 8 1, St_ADDRESS); (ex_t 4 2, St_GENERIC)]).
Proof. reflexivity. Qed.

Print Assumptions C29_incr_partial.
Print Assumptions C29_fixed_partial.
Print Assumptions C29_wrap_partial.
Print Assumptions C29_wide_refuted.
Print Assumptions C29_fixed_unaligned_refuted.
Print Assumptions C29_fixed_narrow_refuted.
Print Assumptions C29_fixed_enables_refuted.
Print Assumptions C29_wrap_narrow_refuted.
Print Assumptions C29_wrap_beats_refuted.
Print Assumptions C30_incr_partial.
Print Assumptions C30_fixed_partial.
Print Assumptions C30_wrap_partial.
Print Assumptions C30_memory.
Print Assumptions C30_error_refuted.
Print Assumptions C30_interleaving_refuted.
Print Assumptions C32_roundtrip_partial.
Print Assumptions C32_code.
Print Assumptions C32_stale_refuted.
Print Assumptions C33_write_responses_partial.
Print Assumptions C33_read_responses_partial.
