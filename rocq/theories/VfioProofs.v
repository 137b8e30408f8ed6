(** Lemmas about the VFIO bridge. *)
From Coq Require Import ZArith.
From Verif Require Import Base BaseFacts LeFacts VfioModel.
From Coq Require Import Lia ZifyN ZifyNat ZifyBool.
Open Scope N_scope.

Lemma get_length n : forall m off, length (get m off n) = n.
Proof. induction n as [|n IH]; intros; cbn [get length]; [reflexivity|now rewrite IH]. Qed.

Lemma get_nth n : forall m off i, (i < n)%nat -> nth i (get m off n) 0 = m (off + N.of_nat i).
Proof.
  induction n as [|n IH]; intros m off i H; [lia|]. destruct i as [|i]; cbn [get nth].
  - f_equal. lia.
  - rewrite IH by lia. f_equal. lia.
Qed.

Lemma get_bytes m : (forall i, m i < 256) -> forall n off, bytes_ok (get m off n).
Proof.
  intros H n. induction n as [|n IH]; intros off; cbn [get]; constructor; [apply H|apply IH].
Qed.

Lemma put_at l : forall m off i,
  put m off l i = if (off <=? i) && (i <? off + N.of_nat (length l))
                  then nth (N.to_nat (i - off)) l 0 else m i.
Proof.
  induction l as [|b l IH]; intros m off i; cbn [put length].
  - replace ((off <=? i) && (i <? off + N.of_nat 0)) with false by lia. reflexivity.
  - rewrite IH. destruct (N.eq_dec i off) as [->|Hn].
    + replace ((off + 1 <=? off) && (off <? off + 1 + N.of_nat (length l))) with false by lia.
      replace ((off <=? off) && (off <? off + N.of_nat (S (length l)))) with true by lia.
      rewrite N.eqb_refl, N.sub_diag. reflexivity.
    + destruct ((off + 1 <=? i) && (i <? off + 1 + N.of_nat (length l))) eqn:E.
      * replace ((off <=? i) && (i <? off + N.of_nat (S (length l)))) with true by lia.
        replace (N.to_nat (i - off)) with (S (N.to_nat (i - (off + 1)))) by lia. reflexivity.
      * replace ((off <=? i) && (i <? off + N.of_nat (S (length l)))) with false by lia.
        replace (i =? off) with false by lia. reflexivity.
Qed.

Lemma be_dec_zeros k l : be_dec (repeat 0 k ++ l) = be_dec l.
Proof. unfold be_dec. induction k as [|k IH]; [reflexivity|]. cbn [repeat app be_dec_acc]. exact IH. Qed.

Lemma rev_zeros k : rev (repeat 0 k) = repeat 0 k.
Proof.
  induction k as [|k IH]; [reflexivity|]. cbn [repeat rev]. rewrite IH.
  symmetry. apply repeat_cons.
Qed.

Lemma le_part l : bytes_ok l -> (length l <= 8)%nat ->
  firstn (length l) (le_enc 8 (le_dec l)) = l.
Proof.
  intros H Hl.
  assert (E : le_dec l = le_dec (l ++ repeat 0 (8 - length l))).
  { unfold le_dec. rewrite rev_app_distr, rev_zeros, be_dec_zeros. reflexivity. }
  rewrite E, le_enc_dec.
  - rewrite firstn_app, firstn_all, Nat.sub_diag. apply app_nil_r.
  - rewrite app_length, repeat_length. lia.
  - apply Forall_app. split; [exact H|]. apply Forall_forall. intros x Hx.
    apply repeat_spec in Hx. subst. reflexivity.
Qed.

Lemma single_le a n : single a n = true -> n <= 8.
Proof. unfold single. lia. Qed.

Lemma from_io_data base m off len : (forall i, m i < 256) ->
  fst (from_io false base m off len) = get m off len.
Proof.
  intros H. unfold from_io. destruct (N.of_nat len =? 1) eqn:E1; cbn [fst].
  - replace len with 1%nat by lia. reflexivity.
  - destruct (single _ _) eqn:E; cbn [fst]; [|reflexivity]. apply single_le in E.
    cbn [store load]. rewrite <- (get_length len m off) at 1. apply le_part.
    + now apply get_bytes.
    + rewrite get_length. lia.
Qed.

Lemma to_io_mem base m off d : fst (to_io base m off d) = put m off d.
Proof. unfold to_io. destruct (single _ _); reflexivity. Qed.

Lemma land_ones a k : a mod 2 ^ k = 0 -> N.land a (N.ones k) =? 0 = true.
Proof. intros H. rewrite N.land_ones, H. reflexivity. Qed.

Lemma single_ok a n : In n [1; 2; 4; 8] -> a mod n = 0 -> single a n = true.
Proof.
  intros Hn H. unfold single. cbn [In] in Hn.
  destruct Hn as [<-|[<-|[<-|[<-|[]]]]]; [reflexivity| | |].
  - change 1 with (N.ones 1) at 2. rewrite (land_ones a 1 H). reflexivity.
  - change 3 with (N.ones 2). rewrite (land_ones a 2 H). reflexivity.
  - change 7 with (N.ones 3). rewrite (land_ones a 3 H). reflexivity.
Qed.

Lemma align_sum b x n : In n [1; 2; 4; 8] -> b mod 4096 = 0 -> x mod n = 0 -> (b + x) mod n = 0.
Proof.
  intros Hn Hb Hx. cbn [In] in Hn.
  destruct Hn as [<-|[<-|[<-|[<-|[]]]]]; lia.
Qed.

(** Interrupts *)
Lemma run_app s a b : run s (a ++ b) = run (run s a) b.
Proof. apply fold_left_app. Qed.

Definition inv (s : st) : Prop :=
  (level s = true -> masked s = true)
  /\ (masked s = true -> cnt s = true \/ ph s = PSet \/ irq_val s = true)
  /\ (out s = irq_val s \/ ev s = true).

Lemma inv_init : inv init.
Proof. repeat split; try discriminate. right. reflexivity. Qed.

Lemma inv_step s e : inv s -> inv (step s e).
Proof.
  destruct s as [l m c p v e' o]. unfold inv. cbn [level masked cnt ph irq_val ev out].
  intros [H1 [H2 H3]].
  destruct e as [b| |n|]; cbn [step]; unfold set_line, poll, access, irq_ack, unmask, proxy;
    cbn [level masked cnt ph irq_val ev out].
  - destruct b, m; cbn [andb negb level masked cnt ph irq_val ev out]; intuition discriminate.
  - destruct p, c, l; cbn [orb level masked cnt ph irq_val ev out]; intuition discriminate.
  - destruct (n <? 8), v, l, c; cbn [orb level masked cnt ph irq_val ev out]; intuition discriminate.
  - destruct e'; cbn [level masked cnt ph irq_val ev out]; intuition.
Qed.

Lemma inv_run es : forall s, inv s -> inv (run s es).
Proof.
  induction es as [|e es IH]; intros s H; [exact H|]. cbn [run fold_left]. apply IH, inv_step, H.
Qed.
