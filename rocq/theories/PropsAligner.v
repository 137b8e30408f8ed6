(** Properties C10-C12: the aligner (tlm-modules/tlm-aligner.h). *)
From Verif Require Import Base TlmModel TlmSpec TlmFacts AlignerModel AlignerSpec AlignerProofs.
Open Scope N_scope.

(** C10: whatever the target does, the chunks it receives are, byte for byte
    and in order, the accesses of the original payload; all of them when the
    result is OK, otherwise up to and including the first failing chunk, whose
    status is reported.  Neither assert fires. *)
Theorem C10_chunks_tile {S} (c : acfg) (t : target S) (g : gp) (s : S) :
  8 <= ac_bus c -> 0 < ac_max c -> 0 < ac_bound c ->
  gp_ok g -> 0 < g_len g -> keeps_length t ->
  exists s' log d st,
    align_transport c (recording t) (s, []) g = Ok ((s', log), (d, st)) /\
    delivered (fun _ => True) (g_cmd g) (accesses g) st log.
Proof.
  intros H1 H2 H3 H4 H5 H6.
  destruct (align_run c (recording t) g (s, [])) as [[s' log] [d [st [E R]]]];
    try assumption; [repeat split; assumption|apply recording_keeps_length, H6|].
  exists s', log, d, st. split; [exact E|].
  destruct (run_recording _ _ _ _ _ _ _ _ (run_weaken _ (fun _ => True) _ _ _ _ _ _ _ (fun _ _ => I) R))
    as [log' [El [D _]]].
  cbn in El. subst log'. exact D.
Qed.

(** C11: every chunk is within the configured limits. *)
Theorem C11_chunks_within_limits {S} (c : acfg) (t : target S) (g : gp) (s s' : S) log d st :
  8 <= ac_bus c -> 0 < ac_max c -> 0 < ac_bound c ->
  gp_ok g -> 0 < g_len g -> keeps_length t ->
  align_transport c (recording t) (s, []) g = Ok ((s', log), (d, st)) ->
  Forall (fun e => within_limits (ac_max c) (ac_bound c) (ac_nat c) (fst e)) log.
Proof.
  intros H1 H2 H3 H4 H5 H6 E.
  destruct (align_run c (recording t) g (s, [])) as [sl [d' [st' [E' R]]]];
    try assumption; [repeat split; assumption|apply recording_keeps_length, H6|].
  rewrite E in E'. injection E' as <- <- <-.
  destruct (run_recording _ _ _ _ _ _ _ _ R) as [log' [El [[D _] _]]].
  cbn in El. subst log'. eapply Forall_impl; [|exact D]. intros e [He _]. exact He.
Qed.

(** C12: for every target that serves bytes one by one, going through the
    aligner is the same as calling the target directly: same target state, same
    buffer, same status, also when some byte fails. *)
Theorem C12_transparent {S} (c : acfg) (f : byte_step S) (g : gp) (s : S) :
  8 <= ac_bus c -> 0 < ac_max c -> 0 < ac_bound c ->
  gp_ok g -> 0 < g_len g -> errors_are_errors f ->
  align_transport c (serial_target f) s g = Ok (serial_target f s g).
Proof.
  intros H1 H2 H3 H4 H5 H6.
  destruct (align_run c (serial_target f) g s) as [s' [d [st [E R]]]];
    try assumption; [repeat split; assumption|apply serial_keeps_length|].
  destruct (run_serial _ _ _ _ _ _ _ _ H6 R) as [e [E' ->]].
  rewrite E. unfold serial_target. rewrite E'. reflexivity.
Qed.

(** C12: for a memory that refuses any payload touching a bad address, the
    outcome is the direct one when no address is bad; otherwise the result is
    an error and exactly a prefix of the bytes, free of bad addresses, has been
    transferred. *)
Theorem C12_memory_prefix (c : acfg) (bad : N -> bool) (g : gp) (m : mem) :
  8 <= ac_bus c -> 0 < ac_max c -> 0 < ac_bound c ->
  gp_ok g -> 0 < g_len g ->
  exists m' d st,
    align_transport c (atomic_memory bad) m g = Ok (m', (d, st)) /\
    (existsb (fun a => bad (a_addr a)) (accesses g) = false ->
       (m', (d, st)) = atomic_memory bad m g) /\
    (existsb (fun a => bad (a_addr a)) (accesses g) = true ->
       st = St_ADDRESS /\
       exists n, (n < length (accesses g))%nat /\
         existsb (fun a => bad (a_addr a)) (firstn n (accesses g)) = false /\
         m' = writes (g_cmd g) m (firstn n (accesses g)) /\
         d = reads (g_cmd g) m (firstn n (accesses g)) ++ skipn n (g_data g)).
Proof.
  intros H1 H2 H3 H4 H5.
  destruct (align_run c (atomic_memory bad) g m) as [m' [d [st [E R]]]];
    try assumption; [repeat split; assumption|apply atomic_keeps_length|].
  exists m', d, st. split; [exact E|].
  destruct (run_atomic _ _ _ _ _ _ _ _ R) as [n [N1 [N2 [N3 [N4 [N5 N6]]]]]].
  assert (K : map a_byte (skipn n (accesses g)) = skipn n (g_data g)).
  { rewrite <- (map_abyte_accesses g). symmetry. apply skipn_map. }
  split.
  - intros Hb. assert (st = St_OK) as ->.
    { destruct (status_eqb st St_OK) eqn:Es; [destruct st; try discriminate; reflexivity|].
      destruct N6 as [_ N6]; [intros ->; discriminate|]. congruence. }
    rewrite (atomic_whole _ _ _ Hb). specialize (N5 eq_refl). subst n.
    rewrite firstn_all, skipn_all in *. rewrite N3, N4. cbn [map]. rewrite app_nil_r. reflexivity.
  - intros Hb. assert (Hne : st <> St_OK).
    { intros ->. rewrite (N5 eq_refl), firstn_all in N2. congruence. }
    destruct (N6 Hne) as [-> _]. split; [reflexivity|]. exists n.
    rewrite <- K. repeat split; auto.
    destruct (Nat.eq_dec n (length (accesses g))) as [->|]; [|lia].
    rewrite firstn_all in N2. congruence.
Qed.

(** A 10-byte write at 6 with a streaming width of 4 and alternating byte
    enables, 32-bit bus, boundary 8, natural alignment. *)
Definition ex_cfg := mkAcfg 32 64 8 true None.
Definition ex_gp :=
  mkGp C_WRITE 6 [10;11;12;13;14;15;16;17;18;19] (Some [255;0;255]) 4 St_INCOMPLETE.
Example C10_case :
  exists d, align_transport ex_cfg (recording (atomic_memory (fun _ => false)))
      ((fun _ => 0), []) ex_gp = Ok (d, (g_data ex_gp, St_OK)) /\
    map (fun e => (g_addr (fst e), g_data (fst e))) (snd d) =
      [(6, [10;11]); (8, [12;13]); (6, [14;15]); (8, [16;17]); (6, [18;19])] /\
    map (fun e => g_be (fst e)) (snd d) =
      [Some [255;0;255]; Some [255;255;0]; Some [0;255;255]; Some [255;0;255]; Some [255;255;0]].
Proof. eexists. split; [vm_compute; reflexivity|]. split; reflexivity. Qed.

Example C11_case :
  max_addr_range ex_cfg 6 (natural_alignment 6) = 2 /\
  max_addr_range (mkAcfg 32 64 4096 true None) 4080 (natural_alignment 4080) = 16 /\
  max_addr_range (mkAcfg 32 64 4096 true None) 4094 (natural_alignment 4094) = 2.
Proof. repeat split. Qed.

(** A write of 10 bytes whose third chunk hits a bad address. *)
Example C12_case :
  let bad := fun a => a =? 16 in
  let g := mkGp C_WRITE 6 [10;11;12;13;14;15;16;17;18;19;20;21] None 12 St_INCOMPLETE in
  exists m, align_transport ex_cfg (atomic_memory bad) (fun _ => 0) g =
    Ok (m, (g_data g, St_ADDRESS)) /\ map m [5;6;7;8;15;16;17] = [0;10;11;12;19;0;0].
Proof. eexists. split; [vm_compute; reflexivity|reflexivity]. Qed.

(** Outside the domain of the theorems: a bus narrower than a byte makes the
    assert at l.195 fail for a streaming payload. *)
Example C10_narrow_bus_asserts :
  align_transport (mkAcfg 4 64 4096 false None) (atomic_memory (fun _ => false))
    (fun _ => 0) (mkGp C_WRITE 0 [1;2;3;4] None 2 St_INCOMPLETE) = AssertFail.
Proof. reflexivity. Qed.

Print Assumptions C10_chunks_tile.
Print Assumptions C11_chunks_within_limits.
Print Assumptions C12_transparent.
Print Assumptions C12_memory_prefix.
