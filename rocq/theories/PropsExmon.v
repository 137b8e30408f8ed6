(** Properties C15 and C41: the exclusive monitor. *)
From Verif Require Import Base TlmModel TlmSpec TlmFacts ExmonModel ExmonSpec ExmonProofs.
Open Scope N_scope.

(** C15, with "write into the range" read as "write starting in the range"
    (missing: writes that start below the range and reach into it): after any
    history, an exclusive write goes downstream exactly when its master holds
    the reservation, and otherwise changes nothing downstream. *)
Theorem C15_exclusive_write_partial {S} mask (t : target S) (s0 : S) ops o id :
  Forall xop_ok ops -> exclusive_write mask o id ->
  let h := history mask t ([], s0) ops in
  let ms := exmon_run mask t ([], s0) ops in
  let r := exmon_transport mask t ms o in
  (reserved starts_inside mask h id (g_addr (xo_gp o)) (g_len (xo_gp o)) ->
     snd (fst r) = fst (t (snd ms) (xo_gp o)) /\
     xr_status (snd r) = snd (snd (t (snd ms) (xo_gp o)))) /\
  (~ reserved starts_inside mask h id (g_addr (xo_gp o)) (g_len (xo_gp o)) ->
     snd (fst r) = snd ms /\ xr_data (snd r) = g_data (xo_gp o)).
Proof.
  intros Hops Hw h ms r.
  pose proof (run_inv mask t ops [] [] s0 (inv_init mask) Hops) as Hi.
  cbn [app] in Hi. fold h ms in Hi.
  pose proof (monitored_reserved mask h (fst ms) o id Hi Hw) as M.
  destruct Hw as [Hc [x [Hx [Hex _]]]].
  unfold r, exmon_transport. destruct ms as [m s]. cbn [fst snd] in *.
  rewrite Hc. unfold x_exclusive. rewrite Hx, Hex.
  destruct (is_monitored mask m o) eqn:E.
  - destruct (t s (xo_gp o)) as [s' [d st]]. cbn. split; [auto|].
    intros H. exfalso. apply H, M. reflexivity.
  - cbn. split; [|auto]. intros H. apply M in H. discriminate.
Qed.

(** C15 for systems where all accesses are naturally aligned blocks of one size:
    the reservation is lost by every overlapping write, as required. *)
Theorem C15_aligned_blocks_partial {S} mask (t : target S) (s0 : S) ops o id n :
  0 < n -> Forall xop_ok ops ->
  Forall (fun p => g_len (xo_gp p) = n /\ g_addr (xo_gp p) mod n = 0) ops ->
  exclusive_write mask o id ->
  let h := history mask t ([], s0) ops in
  let ms := exmon_run mask t ([], s0) ops in
  let r := exmon_transport mask t ms o in
  (reserved overlaps mask h id (g_addr (xo_gp o)) (g_len (xo_gp o)) ->
     snd (fst r) = fst (t (snd ms) (xo_gp o)) /\
     xr_status (snd r) = snd (snd (t (snd ms) (xo_gp o)))) /\
  (~ reserved overlaps mask h id (g_addr (xo_gp o)) (g_len (xo_gp o)) ->
     snd (fst r) = snd ms /\ xr_data (snd r) = g_data (xo_gp o)).
Proof.
  intros Hn Hops Ha Hw h ms r.
  assert (E : reserved starts_inside mask h id (g_addr (xo_gp o)) (g_len (xo_gp o)) <->
              reserved overlaps mask h id (g_addr (xo_gp o)) (g_len (xo_gp o))).
  { apply (reserved_same n); auto. unfold h.
    rewrite <- (history_ops mask t ops ([], s0)) in Ha. rewrite Forall_map in Ha. exact Ha. }
  rewrite <- E. exact (C15_exclusive_write_partial mask t s0 ops o id Hops Hw).
Qed.

(** C15: everything that is not an exclusive write goes downstream unchanged. *)
Theorem C15_others_forwarded {S} mask (t : target S) ms o :
  g_cmd (xo_gp o) <> C_WRITE \/ x_exclusive o = false ->
  let r := exmon_transport mask t ms o in
  snd (fst r) = fst (t (snd ms) (xo_gp o)) /\
  xr_data (snd r) = fst (snd (t (snd ms) (xo_gp o))) /\
  xr_status (snd r) = snd (snd (t (snd ms) (xo_gp o))).
Proof.
  intros H r. unfold r, exmon_transport. destruct ms as [m s]. cbn [fst snd].
  destruct (t s (xo_gp o)) as [s' [d st]].
  destruct (g_cmd (xo_gp o)); [destruct (x_exclusive o), st; cbn; auto| |cbn; auto].
  destruct H as [H|H]; [congruence|]. rewrite H. cbn. auto.
Qed.

(** Examples and the refutation: a 4-byte exclusive read at 16; another master
    writes 8 bytes at 12 (covering the whole range); the exclusive write of the
    first master still goes through. *)
Definition xrd a (d : list N) id := mkXop (mkGp C_READ a d None (N.of_nat (length d)) St_INCOMPLETE)
                                 (Some (mkXattr true id false)).
Definition xwr a (d : list N) id := mkXop (mkGp C_WRITE a d None (N.of_nat (length d)) St_INCOMPLETE)
                                 (Some (mkXattr true id false)).
Definition wr a (d : list N) := mkXop (mkGp C_WRITE a d None (N.of_nat (length d)) St_INCOMPLETE) None.
Definition mem0 := atomic_memory (fun _ => false).

Theorem C15_overlap_refuted :
  let ops := [xrd 16 [0;0;0;0] 1; wr 12 [1;2;3;4;5;6;7;8]] in
  let o := xwr 16 [9;9;9;9] 1 in
  let ms := exmon_run 15 mem0 ([], fun _ => 0) ops in
  let ms' := fst (exmon_transport 15 mem0 ms o) in
  ~ reserved overlaps 15 (history 15 mem0 ([], fun _ => 0) ops) 1 16 4 /\
  map (snd ms) [15;16;17] = [4;5;6] /\ map (snd ms') [15;16;17] = [4;9;9].
Proof.
  cbn zeta. split; [|split; vm_compute; reflexivity].
  intros [b [e [af [E [Ho F]]]]]. vm_compute in E.
  destruct b as [|e1 b]; cbn in E.
  - injection E as <- <-. inversion F as [|? ? [F1 _] _]; subst. apply F1. split.
    + split; [reflexivity|discriminate].
    + split; reflexivity.
  - injection E as <- E. destruct b as [|e2 b]; cbn in E.
    + injection E as <- <-. destruct Ho as [Ho _]. discriminate Ho.
    + injection E as <- E. destruct b; discriminate.
Qed.

Example C15_case :
  let go ops := exmon_run 15 mem0 ([], fun _ => 0) ops in
  let hit ops o := map (snd (fst (exmon_transport 15 mem0 (go ops) o))) [16;17;18;19] in
  hit [xrd 16 [0;0;0;0] 1; wr 20 [7]; xrd 16 [0;0;0;0] 2] (xwr 16 [9;9;9;9] 1) = [9;9;9;9] /\
  hit [xrd 16 [0;0;0;0] 1; wr 18 [7]] (xwr 16 [9;9;9;9] 1) = [0;0;7;0] /\
  hit [xrd 16 [0;0;0;0] 1] (xwr 16 [9;9;9;9] 2) = [0;0;0;0] /\
  hit [xrd 16 [0;0;0;0] 1; xrd 32 [0] 1] (xwr 16 [9;9;9;9] 1) = [0;0;0;0].
Proof. repeat split. Qed.

(** C41: the initiator can tell a successful exclusive write from a failed one.
    It cannot: both give status OK and "exclusive handled" is false, so an AXI
    master sees OKAY in both cases. *)
Theorem C41_success_not_visible_refuted :
  let ok := snd (exmon_transport 15 mem0
                   (exmon_run 15 mem0 ([], fun _ => 0) [xrd 16 [0;0;0;0] 1]) (xwr 16 [9;9;9;9] 1)) in
  let failed := snd (exmon_transport 15 mem0 ([], fun _ => 0) (xwr 16 [9;9;9;9] 1)) in
  ok = failed /\ xr_status ok = St_OK /\ xr_attr ok = Some (mkXattr true 1 false).
Proof. repeat split. Qed.

Print Assumptions C15_exclusive_write_partial.
Print Assumptions C15_aligned_blocks_partial.
Print Assumptions C15_others_forwarded.
Print Assumptions C15_overlap_refuted.
Print Assumptions C41_success_not_visible_refuted.
