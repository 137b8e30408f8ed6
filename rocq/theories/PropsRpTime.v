(** Time accounting of remote-port. *)
From Verif Require Import Base RpTimeModel RpTimeProofs.
Open Scope Z_scope.

(** C35.  While local offsets stay within the quantum, no sequence of peer timestamps,
    syncs, delays and transports moves the current time back. *)
Theorem C35_time_monotone_partial : forall c os c',
  in_quantum c -> mono_run c os c' -> cur c <= cur c'.
Proof. exact mono. Qed.
Print Assumptions C35_time_monotone_partial.

(** One peer timestamp brings the time to it, but at most to the end of the quantum. *)
Theorem C35_account_reaches : forall c r,
  in_quantum c ->
  cur c <= cur (account_time c r) /\
  Z.min r (k_now c + k_quantum c) <= cur (account_time c r) /\
  in_quantum (account_time c r).
Proof. exact account_bounds. Qed.
Print Assumptions C35_account_reaches.

(** Repeated timestamps with syncs in between reach it after finitely many rounds. *)
Theorem C35_repeated_sync_reaches : forall r n c,
  k_local c = 0 -> 1 <= k_quantum c -> r <= k_now c + Z.of_nat n * k_quantum c ->
  r <= cur (Nat.iter n (fun x => qk_sync (account_time x r)) c).
Proof.
  intros r n c H1 H2 H3. destruct (account_sync_reaches r n c H1 H2) as (H & _).
  eapply Z.le_trans; [|exact H]. apply Z.min_glb; [apply Z.le_refl|exact H3].
Qed.
Print Assumptions C35_repeated_sync_reaches.

Example C35_case :
  in_quantum (mkClk 1000 30 100) /\
  cur (account_time (mkClk 1000 30 100) 1070) = 1070 /\
  mono_run (mkClk 1000 30 100) [TAccount 1070; TInc 5; TSync; TTransport 100; TAccount 0]
    (mkClk 1075 100 100) /\
  cur (Nat.iter 4 (fun x => qk_sync (account_time x 1350)) (mkClk 1000 0 100)) = 1350.
Proof.
  split; [unfold in_quantum; cbn; lia|]. split; [reflexivity|]. split; [|reflexivity].
  repeat (apply mr_cons; [cbn; lia|unfold in_quantum; cbn; lia|]; cbn).
  apply mr_nil.
Qed.

(** Without that proviso time does run backwards: a device whose access took longer
    than the quantum, then a peer timestamp before a sync. *)
Theorem C35_time_backwards_refuted : exists c o,
  c = trun (mkClk 0 0 100) [TAccount 10; TTransport 250] /\
  o = TAccount 300 /\ cur (tstep c o) < cur c.
Proof. do 2 eexists. repeat split. Qed.
Print Assumptions C35_time_backwards_refuted.

(** A single synchronisation does not reach a time more than a quantum ahead. *)
Theorem C35_sync_short_refuted : exists c r,
  in_quantum c /\ cur (qk_sync (account_time c r)) < r.
Proof. exists (mkClk 0 0 100), 250. split; [unfold in_quantum; cbn; lia|reflexivity]. Qed.
Print Assumptions C35_sync_short_refuted.
