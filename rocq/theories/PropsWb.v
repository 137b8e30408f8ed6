(** C55, C56: the Wishbone bridges. *)
From Verif Require Import Base TlmModel TlmSpec WbModel WbProofs.
Open Scope N_scope.

(** ** C55 *)
(** Whatever time the target takes for each call, the slave bridge carries out
    every beat once, in order, and the master samples the data of each one. *)
Theorem C55_wb_link bw {T} (t : target T) lat st l : exists n0, forall n, (n0 <= n)%nat ->
  let s := link_edges bw t lat n (mkLink l [] false S_Wait st 0) in
  k_todo s = [] /\ k_st s = fst (wb_serve bw t st l) /\ k_got s = snd (wb_serve bw t st l) /\
  k_calls s = length l.
Proof.
  destruct (all_beats bw t lat l [] st 0) as [n0 H]. exists n0. intros n Hn s. subst s.
  replace n with (n0 + (n - n0))%nat by lia. rewrite edges_add, H, idle_stays. cbn. auto.
Qed.

(** An aligned transfer of whole words acts on a memory behind the two bridges
    as it would act on the memory directly. *)
Theorem C55_wb_transparent bw aw (m : mem) sl g :
  bw = 4 \/ bw = 8 -> aw <= 64 ->
  (forall x, m x < 256) -> N.of_nat (length (sl_data sl)) = bw ->
  g_cmd g <> C_IGNORE -> g_be g = None -> bytes_ok (g_data g) ->
  g_addr g mod bw = 0 -> g_len g mod bw = 0 -> 0 < g_len g -> g_len g <= g_sw g ->
  g_addr g + g_len g <= 2 ^ aw ->
  exists sl', wb_transport bw aw (atomic_memory (fun _ => false)) (m, sl) g =
    Ok (fst (atomic_memory (fun _ => false) m g), sl', snd (atomic_memory (fun _ => false) m g)).
Proof.
  intros B A M D NI H1 H2 H3 H4 H5 H6 H7. apply (transport_word bw aw B A g m sl); auto.
  unfold word. auto 10.
Qed.

Definition wb_rom : mem := fun x => (x * 7 + 3) mod 256.
Definition wb_sl (bw : N) := mkSl (repeat 0 (N.to_nat bw)) 0.
Definition wb_peek (r : res (mem * wb_slave * (list N * status))) (l : list N) : option (list N * list N * status) :=
  match r with Ok (m, _, (d, st)) => Some (map m l, d, st) | _ => None end.
Example C55_case :
  wb_peek (wb_transport 4 32 (atomic_memory (fun _ => false)) (wb_rom, wb_sl 4)
            (mkGp C_WRITE 8 [1; 2; 3; 4; 5; 6; 7; 8] None 8 St_INCOMPLETE)) [7; 8; 11; 12; 15; 16] =
  Some ([52; 1; 4; 5; 8; 115], [1; 2; 3; 4; 5; 6; 7; 8], St_OK) /\
  wb_peek (wb_transport 4 32 (atomic_memory (fun _ => false)) (wb_rom, wb_sl 4)
            (mkGp C_READ 8 [1; 2; 3; 4; 5; 6; 7; 8] None 8 St_INCOMPLETE)) [] =
  Some ([], [59; 66; 73; 80; 87; 94; 101; 108], St_OK).
Proof. vm_compute. split; reflexivity. Qed.

(** ** C56: any transaction *)
(** A write shorter than the bus overwrites its neighbours with zeros: the byte
    enables derived from sel are attached with length zero. *)
Theorem C56_wb_short_write_refuted :
  wb_peek (wb_transport 4 32 (atomic_memory (fun _ => false)) (wb_rom, wb_sl 4)
            (mkGp C_WRITE 8 [1] None 1 St_INCOMPLETE)) [8; 9; 10; 11] = Some ([1; 0; 0; 0], [1], St_OK).
Proof. vm_compute. reflexivity. Qed.
(** Even a write of no bytes clears a word. *)
Theorem C56_wb_empty_write_refuted :
  wb_peek (wb_transport 4 32 (atomic_memory (fun _ => false)) (wb_rom, wb_sl 4)
            (mkGp C_WRITE 8 [] None 0 St_INCOMPLETE)) [8; 9; 10; 11] = Some ([0; 0; 0; 0], [], St_OK).
Proof. vm_compute. reflexivity. Qed.
(** An unaligned write goes to the wrong place, an unaligned read returns the
    wrong bytes. *)
Theorem C56_wb_unaligned_refuted :
  wb_peek (wb_transport 4 32 (atomic_memory (fun _ => false)) (wb_rom, wb_sl 4)
            (mkGp C_WRITE 9 [1; 2] None 2 St_INCOMPLETE)) [9; 10; 11; 12] = Some ([0; 1; 2; 0], [1; 2], St_OK) /\
  wb_peek (wb_transport 4 32 (atomic_memory (fun _ => false)) (wb_rom, wb_sl 4)
            (mkGp C_READ 9 [0; 0] None 2 St_INCOMPLETE)) [9; 10; 11; 12] = Some ([66; 73; 80; 87], [73; 80], St_OK).
Proof. vm_compute. split; reflexivity. Qed.
(** A length above the bus width that is not a multiple of it: the last beat
    copies past the end of the buffer. *)
Theorem C56_wb_overrun_refuted bw aw {T} (t : target T) st g :
  0 < bw -> bw < g_len g -> g_len g < 2 * bw -> wb_transport bw aw t st g = UB.
Proof.
  intros B L1 L2. unfold wb_transport.
  assert (TL : wb_tlen bw g = bw) by (unfold wb_tlen; lia).
  assert (F : exists f, S (length (g_data g)) = S (S f)).
  { unfold g_len in L1. destruct (length (g_data g)); [lia|eauto]. }
  destruct F as [f ->]. cbn [wb_beats].
  destruct (is_read g) eqn:R.
  - unfold wb_beat_at. rewrite R, TL. cbn [rbind]. destruct (N.ltb_spec (0 + bw) (g_len g)); [|lia]. cbn [rbind].
    destruct (N.ltb_spec (0 + bw + bw) (g_len g)); [lia|]. cbn [rbind wb_serve].
    cbn [wb_store]. rewrite TL. destruct (N.leb_spec (0 + bw) (g_len g)); [|lia].
    destruct (N.leb_spec (0 + bw + bw) (g_len g)); [lia|]. reflexivity.
  - unfold wb_beat_at at 1. rewrite R, TL. destruct (N.leb_spec (0 + bw) (g_len g)); [|lia]. cbn [rbind].
    destruct (N.ltb_spec (0 + bw) (g_len g)); [|lia].
    unfold wb_beat_at at 1. rewrite R, TL. destruct (N.leb_spec (0 + bw + bw) (g_len g)); [lia|]. reflexivity.
Qed.
(** A target error is not seen by the master, which returns old data with OK. *)
Theorem C56_wb_error_refuted bw aw {T} (t : target T) st g st' d rs :
  wb_transport bw aw t st g = Ok (st', (d, rs)) -> rs = St_OK.
Proof.
  unfold wb_transport. destruct (wb_beats _ _ _ _ _) as [l| | |]; cbn [rbind]; try discriminate.
  destruct (wb_serve bw t st l) as [s ds].
  destruct (if is_read g then _ else _); cbn [rbind]; try discriminate. congruence.
Qed.
(** Byte enables, streaming and the IGNORE command are not looked at. *)
Theorem C56_wb_attributes_refuted :
  wb_peek (wb_transport 4 32 (atomic_memory (fun _ => false)) (wb_rom, wb_sl 4)
            (mkGp C_WRITE 8 [1; 2; 3; 4] (Some [BE_ON; BE_OFF]) 4 St_INCOMPLETE)) [8; 9; 10; 11] = Some ([1; 2; 3; 4], [1; 2; 3; 4], St_OK) /\
  wb_peek (wb_transport 4 32 (atomic_memory (fun _ => false)) (wb_rom, wb_sl 4)
            (mkGp C_WRITE 8 [1; 2; 3; 4; 5; 6; 7; 8] None 4 St_INCOMPLETE)) [8; 12] = Some ([1; 5], [1; 2; 3; 4; 5; 6; 7; 8], St_OK) /\
  wb_peek (wb_transport 4 32 (atomic_memory (fun _ => false)) (wb_rom, wb_sl 4)
            (mkGp C_IGNORE 8 [1; 2; 3; 4] None 4 St_INCOMPLETE)) [8; 9; 10; 11] = Some ([1; 2; 3; 4], [1; 2; 3; 4], St_OK).
Proof. vm_compute. repeat split; reflexivity. Qed.

Print Assumptions C55_wb_link.
Print Assumptions C55_wb_transparent.
Print Assumptions C56_wb_short_write_refuted.
Print Assumptions C56_wb_empty_write_refuted.
Print Assumptions C56_wb_unaligned_refuted.
Print Assumptions C56_wb_overrun_refuted.
Print Assumptions C56_wb_error_refuted.
Print Assumptions C56_wb_attributes_refuted.
