(** C111: the interrupt wires of the hardware bridges. *)
From Coq Require Import ZArith.
From Verif Require Import Base HwWiresModel HwWiresProofs.
From Coq Require Import Lia ZifyN ZifyNat ZifyBool.
Open Scope N_scope.

(** The thread sleeps *)
Definition asleep (s : st) : Prop := at_ s = Wait.

(** Whenever the thread sleeps, no flag is set and each output has the level of its wire:
    however the changes of the wires fell between its accesses. *)
Theorem C111_settled : forall es i, asleep (run init es) -> i < 64 ->
  outp (run init es) i = level (run init es) i /\ flag (run init es) i = false.
Proof.
  intros es i Hs Hi. destruct (inv_run es init inv_init) as [H1 [H2 _]].
  specialize (H1 i Hi). specialize (H2 Hs). unfold irq in H2. apply negb_false_iff in H2.
  assert (Hf := proj1 (none_set_spec _) H2 i Hi). split; [|exact Hf].
  unfold inv1 in H1. rewrite Hs in H1. destruct H1 as [H1|H1]; [congruence|exact H1].
Qed.

(** When the wires keep still the thread goes to sleep within 18 accesses, from any point of
    any execution, and then each output has the level of its wire. *)
Theorem C111_progress : forall es i, i < 64 ->
  asleep (run init (es ++ repeat Thread 18))
  /\ outp (run init (es ++ repeat Thread 18)) i = level (run init es) i.
Proof.
  intros es i Hi.
  pose proof (run_rest es 18) as E.
  assert (Hs : asleep (run init (es ++ repeat Thread 18))) by (rewrite E; apply rest).
  split; [exact Hs|].
  destruct (C111_settled _ i Hs Hi) as [-> _]. rewrite E. apply threads_level.
Qed.

(** An output only ever shows a level that its wire had. *)
Theorem C111_no_ghosts : forall es i, i < 64 ->
  exists p q, es = p ++ q /\ level (run init p) i = outp (run init es) i.
Proof. intros es i Hi. exact (proj1 (kept_all es i Hi)). Qed.

(** A wire that changes while the thread sleeps wakes it. *)
Theorem C111_wakes : forall es i b, asleep (run init es) -> i < 64 ->
  level (run init es) i <> b -> ~ asleep (run init (es ++ [Hw i b])).
Proof.
  intros es i b Hs Hi Hb. rewrite run_snoc. cbn [step]. unfold asleep, hw_set in *.
  destruct (inv_run es init inv_init) as [_ [H2 _]]. specialize (H2 Hs).
  replace (i <? NW) with true by (unfold NW; lia).
  assert (Bool.eqb (level (run init es) i) b = false) as -> by (apply Bool.eqb_false_iff; exact Hb).
  cbn [andb negb]. cbn zeta. cbn [at_]. rewrite Hs, H2. discriminate.
Qed.

(** Wire 40 changes again between the clear and the read of its level, and wire 3 rises
    between the reads of the two halves of the flags *)
Example C111_case :
  let es := [Hw 40 true; Thread; Hw 3 true; Thread; Thread; Thread; Thread; Hw 40 false;
             Thread; Thread; Thread] in
  (outp (run init es) 40, outp (run init es) 3, flag (run init es) 40) = (false, true, true)
  /\ asleep (run init (es ++ repeat Thread 18)).
Proof. vm_compute. split; reflexivity. Qed.

(** A pulse that is over before the thread has read the level is never seen: no output rises,
    although the flag told of it. *)
Theorem C111_pulse_refuted :
  exists es, flag (run init es) 5 = true
    /\ level (run init [Hw 5 true]) 5 = true /\ es = [Hw 5 true; Hw 5 false]
    /\ forall n, outp (run init (es ++ repeat Thread n)) 5 = false.
Proof.
  exists [Hw 5 true; Hw 5 false]. split; [reflexivity|]. split; [reflexivity|].
  split; [reflexivity|]. intros n.
  set (es := [Hw 5 true; Hw 5 false]).
  rewrite run_rest. destruct (Nat.le_gt_cases n 18).
  - do 19 (destruct n as [|n]; [vm_compute; reflexivity|]). lia.
  - replace n with (18 + (n - 18))%nat by lia. rewrite threads_add.
    rewrite threads_wait by apply rest. vm_compute. reflexivity.
Qed.

Print Assumptions C111_settled.
Print Assumptions C111_progress.
Print Assumptions C111_no_ghosts.
Print Assumptions C111_wakes.
Print Assumptions C111_pulse_refuted.
