(** C107: DVM Sync and DVM Complete at the ACE interconnect. *)
From Verif Require Import Base AceDvmModel AceDvmSpec AceDvmProofs.
From Coq Require Import Lia ZifyN ZifyNat Permutation ZArith.
Open Scope N_scope.

(** C107: when no Complete comes while the interconnect sends one, no assertion fails, and
    the initiator of each Sync gets a Complete, exactly one, when all the other
    participants have completed it and not before. *)
Theorem C107_complete_partial : forall ports fwd es,
  keeps_rules ports fwd es ->
  exists s, drun ports fwd dvm_init es = Ok s /\
    forall p, (times p (d_told s) + times p (d_exec s))%nat =
      times p (complete_syncs ports fwd (fun r => sent_by r es) (syncs es)).
Proof.
  intros ports fwd es K. destruct (run_inv ports fwd es K) as (s & R & V). exists s. split; [auto|].
  intros p. pose proof (v_told _ _ _ _ _ V) as T.
  assert (E : forall a b, Permutation a b -> times p a = times p b).
  { intros a b H. induction H; unfold times in *; cbn [filter]; auto.
    - destruct (p =? x); simpl; lia.
    - destruct (p =? y), (p =? x); reflexivity.
    - lia. }
  rewrite <- (E _ _ T). unfold times. rewrite filter_app, app_length. reflexivity.
Qed.
Definition f3 (r : N) : bool := true.
Definition P3 : list N := [0; 1; 2].
Example C107_complete_case :
  let es := [Sync 0; Sync 1; Complete 2; Complete 1; Sent 0; Complete 0; Complete 2; Sent 0] in
  keeps_rules P3 f3 es /\
  match drun P3 f3 dvm_init es with Ok s => d_told s = [0; 1] /\ d_list s = [] | _ => False end.
Proof.
  split; [|vm_compute; split; reflexivity].
  intros e1 e e2 s E R.
  do 8 (destruct e1 as [|x e1]; [injection E as <- <-; injection R as <-; vm_compute; intuition (try discriminate; try lia)|
    injection E as <- E]).
  destruct e1; discriminate.
Qed.

(** C107: the trackers left are those of the Syncs that are not complete. *)
Theorem C107_rest_partial : forall ports fwd es, keeps_rules ports fwd es ->
  exists s, drun ports fwd dvm_init es = Ok s /\ NoDup (d_list s) /\
    (d_exec s = [] -> length (d_list s) + length (complete_syncs ports fwd (fun r => sent_by r es) (syncs es)) = length (syncs es))%nat.
Proof.
  intros ports fwd es K. destruct (run_inv ports fwd es K) as (s & R & V). exists s. split; [auto|].
  split; [exact (v_nodup _ _ _ _ _ V)|]. intros EX.
  pose proof (v_list _ _ _ _ _ V) as L. rewrite EX in L.
  assert (length (d_list s) = length (ND ports fwd (fun r => sent_by r es) (syncs es))).
  { rewrite <- (map_length fst (ND _ _ _ _)), <- L, <- (filter_true _ (d_list s)) at 1.
    f_equal. }
  rewrite finished, map_length, H. unfold ND.
  assert (PL : forall l c, length (pend ports fwd c l) = length l).
  { induction l as [|p l IH]; intros c; simpl; [auto|]. now rewrite IH. }
  rewrite <- (PL (syncs es) (fun r => sent_by r es)).
  induction (pend ports fwd (fun r => sent_by r es) (syncs es)) as [|e l IH]; [auto|].
  cbn [filter length]. destruct (open e); cbn [negb length]; lia.
Qed.
Example C107_rest_case :
  match drun P3 f3 dvm_init [Sync 0; Sync 1; Sync 2; Complete 2; Complete 1; Sent 0] with
  | Ok s => d_list s = [1; 2] | _ => False end /\
  complete_syncs P3 f3 (fun r => if N.eqb r 0 then 0 else 1)%nat [0; 1; 2] = [0].
Proof. vm_compute. split; reflexivity. Qed.

(** C107: a DVM message of a port that takes part waits for as many answers as ports are
    asked, which are all the other participants. *)
Theorem C107_message_partial : forall ports fwd p,
  NoDup ports -> In p ports -> fwd p = true ->
  dvm_waits ports fwd = Z.of_nat (length (dvm_asks ports fwd p)) /\
  forall r, In r (dvm_asks ports fwd p) <-> In r (others ports fwd p).
Proof.
  intros ports fwd p ND I F.
  assert (E : length (filter fwd ports) = S (length (others ports fwd p))).
  { unfold others. induction ports as [|x l IH]; [easy|]. inversion ND; subst. cbn [filter].
    destruct I as [->|I].
    - rewrite F, N.eqb_refl. cbn [andb negb length]. f_equal. f_equal. apply filter_ext_in.
      intros y J. destruct (y =? p) eqn:Y; [apply N.eqb_eq in Y; subst y; contradiction|].
      now rewrite andb_true_r.
    - assert (x =? p = false) as -> by (apply N.eqb_neq; intros ->; contradiction).
      rewrite andb_true_r. destruct (fwd x); cbn [length]; rewrite IH by auto; reflexivity. }
  unfold dvm_asks, dvm_waits, dvm_masters. rewrite E.
  change (filter (fun r => fwd r && negb (r =? p)) ports) with (others ports fwd p).
  destruct (Z.eqb_spec (Z.of_nat (S (length (others ports fwd p))) - 1) 0) as [Z|Z].
  - assert (length (others ports fwd p) = O) as L by lia. rewrite L. split; [reflexivity|].
    destruct (others ports fwd p); [tauto|discriminate].
  - split; [lia|tauto].
Qed.
Example C107_message_case : dvm_waits P3 f3 = 2%Z /\ dvm_asks P3 f3 1 = [0; 2].
Proof. split; reflexivity. Qed.

(** C107, refuted: a Complete that comes while the interconnect still sends one to port 0
    finds that tracker again: port 0 gets two, and port 1, whose Sync is complete, none.
    With its next Sync port 0 gets a Complete at once, and those of the others then fail
    an assertion. *)
Definition busy : list dev := [Sync 0; Sync 1; Complete 1; Complete 2; Complete 0; Complete 2].
Theorem C107_busy_refuted :
  complete_syncs P3 f3 (fun r => sent_by r busy) (syncs busy) = [0; 1] /\
  match drun P3 f3 dvm_init (busy ++ [Sent 0; Sent 0; Sent 0]) with
  | Ok s => d_told s = [0; 0; 0] /\ d_list s = [1] /\ d_exec s = []
  | _ => False end /\
  match drun P3 f3 dvm_init (busy ++ [Sent 0; Sync 0; Sent 0]) with
  | Ok s => d_told s = [0; 0] | _ => False end /\
  drun P3 f3 dvm_init (busy ++ [Sent 0; Sync 0; Sent 0; Complete 1]) = AssertFail.
Proof. vm_compute. repeat split. Qed.

(** C107, refuted: a Sync that nobody else has to complete is never answered. *)
Theorem C107_alone_refuted : forall n,
  complete_syncs [0; 1] (fun r => r =? 0) (fun _ => O) [0] = [0] /\
  match drun [0; 1] (fun r => r =? 0) dvm_init (Sync 0 :: repeat (Sent 0) n) with
  | Ok s => d_told s = [] /\ d_list s = [0] | _ => False end.
Proof.
  intros n. split; [reflexivity|]. cbn [drun dstep].
  set (s := start_collecting [0; 1] (fun r => r =? 0) dvm_init 0).
  assert (E : drun [0; 1] (fun r => r =? 0) s (repeat (Sent 0) n) = Ok s).
  { induction n as [|n IH]; [reflexivity|]. cbn [repeat drun]. change (dstep [0; 1] (fun r => r =? 0) s (Sent 0)) with (Ok s). exact IH. }
  rewrite E. split; reflexivity.
Qed.

(** C107, refuted: a port that sends DVM messages but takes none waits for one answer too
    few; with one other participant nobody is asked. *)
Theorem C107_sender_refuted : forall ports fwd p, fwd p = false ->
  (Z.of_nat (length (others ports fwd p)) = dvm_waits ports fwd + 1)%Z /\
  (length (others ports fwd p) = 1%nat -> dvm_asks ports fwd p = []).
Proof.
  intros ports fwd p F.
  assert (E : others ports fwd p = filter fwd ports).
  { unfold others. apply filter_ext. intros r. destruct (r =? p) eqn:Y; [|apply andb_true_r].
    apply N.eqb_eq in Y. subst r. now rewrite F. }
  unfold dvm_asks, dvm_waits, dvm_masters. rewrite E. split; [lia|]. intros L. rewrite L. reflexivity.
Qed.
Example C107_sender_case : let fwd := fun r => negb (r =? 0) in
  dvm_waits [0; 1] fwd = 0%Z /\ others [0; 1] fwd 0 = [1] /\ dvm_asks [0; 1] fwd 0 = [].
Proof. repeat split. Qed.

Print Assumptions C107_complete_partial.
Print Assumptions C107_rest_partial.
Print Assumptions C107_message_partial.
Print Assumptions C107_busy_refuted.
Print Assumptions C107_alone_refuted.
Print Assumptions C107_sender_refuted.
