(** C114: the ownership of the descriptors of the AXI slave bridge in hardware. *)
From Coq Require Import ZArith.
From Verif Require Import Base HwDescModel HwDescProofs.
From Coq Require Import Lia ZifyN ZifyNat ZifyBool.
Open Scope N_scope.

(** A state in which the thread can be *)
Definition reached (s : st) (p : phase) : Prop := exists es, run (init, Idle) es = (s, p).

Lemma reached_inv s p : reached s p -> inv (s, p).
Proof. intros [es <-]. apply inv_run, inv_init. Qed.

(** What the hardware guarantees (rtl/slave/slave_inf.v l.3256-3267): a transaction is busy from
    when it is available until it is complete. *)
Definition hw_ok (avail busy : N) : Prop := forall d, N.testbit avail d = true -> N.testbit busy d = true.

(** The numbers of the 16 descriptors *)
Definition all16 : list N := [0; 1; 2; 3; 4; 5; 6; 7; 8; 9; 10; 11; 12; 13; 14; 15].

(** The two books of the bridge agree: a bit of desc_busy for each descriptor in state DATA. *)
Theorem C114_books : forall s p, reached s p ->
  db s < 2 ^ 16 /\ forall d, N.testbit (db s) d = data s d.
Proof.
  intros s p H. apply reached_inv in H. destruct H as [[H1 H2] _]. cbn [fst] in *.
  split; [|exact H1]. rewrite <- (good_mask s (conj H1 H2)). change MASK with (N.ones 16).
  rewrite N.land_ones. apply N.mod_lt. discriminate.
Qed.

(** A call of process clears the interrupts that it was given and no others, handles exactly
    their descriptors, in order, each once, and flips the ownership of each after it was
    handled.  Before that it hands back all that it holds if the hardware is at rest, and
    else none. *)
Theorem C114_process : forall s p avail busy own, reached s p ->
  snd (fst (process s avail busy own)) =
  Clear avail
  :: (if (busy =? 0) && (own =? 0) && negb (db s =? 0) then [Flip (db s)] else [])
  ++ flat_map (fun d => [Handle d; Flip (2 ^ d)]) (filter (N.testbit avail) all16).
Proof.
  intros s p avail busy own H. apply reached_inv in H. destruct H as [H _]. cbn [fst] in H.
  unfold process. pose proof (loop_acts descs avail (acked s busy own) s) as L.
  destruct (loop descs avail _ s) as [s' acts]. cbn [fst snd] in *. rewrite L, (acked_val s busy own H).
  destruct ((busy =? 0) && (own =? 0)); cbn [andb]; [|reflexivity].
  destruct (db s =? 0); reflexivity.
Qed.

(** In the hardware as it is, no available descriptor is handed back before it is done: while
    there are available ones nothing is handed back, and they are held afterwards. *)
Theorem C114_held : forall s avail busy own d, reached s (Busy avail) ->
  hw_ok avail busy -> avail <> 0 -> d < 16 ->
  data (fst (fst (process s avail busy own))) d = N.testbit avail d || data s d.
Proof.
  intros s avail busy own d H Hw Ha Hd. apply reached_inv in H. destruct H as [H _]. cbn [fst] in H.
  rewrite (process_data s avail busy own d H Hd), (acked_val s busy own H).
  assert (busy <> 0).
  { intros ->. apply Ha. apply N.bits_inj. intros i. rewrite N.bits_0.
    destruct (N.testbit avail i) eqn:E; [|reflexivity]. apply Hw in E. rewrite N.bits_0 in E. discriminate. }
  replace ((busy =? 0) && (own =? 0)) with false by lia. rewrite N.bits_0. reflexivity.
Qed.

(** Descriptors are handed back all 16 at once, and only when the hardware is at rest: with
    nothing available process writes the clear and at most this flip. *)
Theorem C114_all_at_once : forall s busy own, reached s (Busy 0) ->
  snd (fst (process s 0 busy own))
  = (if (busy =? 0) && (own =? 0) then [Clear 0; Flip 65535] else [Clear 0])
  /\ (busy = 0 -> own = 0 -> db (fst (fst (process s 0 busy own))) = 0).
Proof.
  intros s busy own H. pose proof (C114_process s (Busy 0) 0 busy own H) as P.
  apply reached_inv in H. destruct H as [H Hm]. cbn [fst snd] in *.
  split.
  - rewrite P, Hm. destruct ((busy =? 0) && (own =? 0)); reflexivity.
  - intros -> ->. pose proof (process_good s 0 0 0 H) as [G1 G2].
    apply N.bits_inj. intros i. rewrite N.bits_0, G1. destruct (i <? 16) eqn:E.
    + rewrite (process_data s 0 0 0 i H) by lia. rewrite (acked_val s 0 0 H).
      cbn [N.eqb andb]. rewrite N.bits_0. cbn [orb]. rewrite (proj1 H i). destruct (data s i); reflexivity.
    + apply G2. lia.
Qed.

(** When the thread sleeps, the hardware has a descriptor for a further transaction: at least
    one is not held. *)
Theorem C114_sleep : forall s, reached s Idle -> exists d, d < 16 /\ data s d = false.
Proof.
  intros s H. apply reached_inv in H. destruct H as [[H1 H2] Hm]. cbn [fst snd] in *.
  destruct (forallb (data s) descs) eqn:E.
  - exfalso. apply Hm. apply N.bits_inj. intros i. rewrite H1, mask_bit.
    destruct (i <? 16) eqn:Ei; [|apply H2; lia].
    exact (proj1 (forallb_forall _ _) E i (proj2 (descs_in i) ltac:(lia))).
  - assert (K : forall l, forallb (data s) l = false -> exists d, In d l /\ data s d = false).
    { clear. induction l as [|a l IH]; cbn [forallb]; [discriminate|]. intros H.
      destruct (data s a) eqn:Ea; [|exists a; split; [now left|exact Ea]].
      destruct (IH H) as [d [Hd E]]. exists d. split; [now right|exact E]. }
    destruct (K _ E) as [d [Hd Ed]]. exists d. split; [now apply descs_in|exact Ed].
Qed.

(** The thread goes to sleep when nothing is available and it holds fewer than 16; then it
    enables the interrupts.  Else it goes on with what has become available. *)
Theorem C114_thread : forall s avail busy own r, reached s (Busy avail) ->
  let s' := fst (fst (process s avail busy own)) in
  let acts := snd (fst (process s avail busy own)) in
  step (s, Busy avail) (Iter busy own r) =
    if (r =? 0) && negb (db s' =? 65535) then ((s', Idle), acts ++ [Enable 65535])
    else ((s', Busy r), acts).
Proof.
  intros s avail busy own r _. cbn zeta. rewrite step_iter. cbn zeta. unfold MASK.
  destruct (r =? 0), (db _ =? 65535); reflexivity.
Qed.

(** A sleeping thread starts with every set of available descriptors, with interrupts off. *)
Theorem C114_starts : forall s r, r <> 0 ->
  step (s, Idle) (Irq r) = ((s, Busy r), [Enable 0]).
Proof. intros s r H. cbn [step]. replace (r =? 0) with false by lia. reflexivity. Qed.

(** Descriptors 0 and 3 are handled; then the other 14; then all go back *)
Example C114_case :
  let x := run (init, Idle) [Irq 9; Iter 9 0 65526; Iter 65535 0 0] in
  (db (fst x), snd x) = (65535, Busy 0)
  /\ snd (step (init, Busy 9) (Iter 9 0 0))
     = [Clear 9; Handle 0; Flip 1; Handle 3; Flip 8; Enable 65535]
  /\ snd (step x (Iter 4 0 0)) = [Clear 0]
  /\ snd (step x (Iter 0 0 0)) = [Clear 0; Flip 65535; Enable 65535].
Proof. vm_compute. repeat split. Qed.

(** The code by itself does not keep this: were a descriptor available while BUSY and OWNERSHIP
    read 0, one that it holds would be handled and then forgotten. *)
Theorem C114_forgotten_refuted : exists s avail d, reached s (Busy avail) /\ d < 16
  /\ N.testbit avail d = true
  /\ In (Handle d) (snd (fst (process s avail 0 0)))
  /\ data (fst (fst (process s avail 0 0))) d = false.
Proof.
  exists (fst (run (init, Idle) [Irq 1; Iter 1 0 1])), 1, 0. split.
  - exists [Irq 1; Iter 1 0 1]. vm_compute. reflexivity.
  - vm_compute. repeat split; auto.
Qed.

(** Descriptors that are done are not handed back while fewer than 16 are held: after one
    transaction the thread sleeps and keeps it, whatever the hardware says. *)
Theorem C114_kept_refuted : forall busy own, hw_ok 1 busy ->
  let x := run (init, Idle) [Irq 1; Iter busy own 0] in
  snd x = Idle /\ data (fst x) 0 = true.
Proof.
  intros busy own Hw.
  assert (Hb : (busy =? 0) = false).
  { destruct (busy =? 0) eqn:E; [|reflexivity]. apply N.eqb_eq in E. subst.
    specialize (Hw 0 eq_refl). discriminate. }
  assert (G : good init) by exact (proj1 inv_init).
  cbn zeta. cbn [run step fst N.eqb]. unfold process. rewrite (acked_val init busy own G), Hb.
  cbn [andb]. vm_compute. split; reflexivity.
Qed.

Print Assumptions C114_books.
Print Assumptions C114_process.
Print Assumptions C114_held.
Print Assumptions C114_all_at_once.
Print Assumptions C114_sleep.
Print Assumptions C114_thread.
Print Assumptions C114_starts.
Print Assumptions C114_forgotten_refuted.
Print Assumptions C114_kept_refuted.
