(** Lemmas for C111. *)
From Coq Require Import ZArith.
From Verif Require Import Base HwWiresModel.
From Coq Require Import Lia ZifyN ZifyNat ZifyBool.
Open Scope N_scope.

Lemma none_set_spec w : none_set w = true <-> forall i, i < NW -> w i = false.
Proof.
  unfold none_set. rewrite forallb_forall. split; intros H.
  - intros i Hi. specialize (H (N.to_nat i)). rewrite N2Nat.id in H.
    apply negb_true_iff, H, in_seq. unfold NW in Hi. lia.
  - intros n Hn. apply in_seq in Hn. apply negb_true_iff, H. unfold NW. lia.
Qed.
Lemma lo_hi i : i < NW -> lo i = negb (hi i).
Proof. unfold lo, hi, NW. lia. Qed.

(** Output i is up to date, or the flag is set so that the thread will look, or the thread
    is about to write what it reads or has read after it cleared the flag. *)
Definition fine (s : st) (i : N) : Prop := flag s i = true \/ outp s i = level s i.
Definition inv1 (s : st) (i : N) : Prop :=
  match at_ s with
  | Clr1 t => fine s i \/ (lo i = true /\ t i = true)
  | St1 t => fine s i \/ t i = true
  | St0 t r => if t i then (hi i = true -> flag s i = true \/ r i = level s i) else fine s i
  | Out t r => if t i then flag s i = true \/ r i = level s i else fine s i
  | _ => fine s i
  end.
(** In wait() there is nothing to do *)
Definition inv2 (s : st) : Prop := at_ s = Wait -> irq s = false.
(** Bits read from one half of the register stay in it *)
Definition inv3 (s : st) : Prop :=
  match at_ s with
  | Rd0 t => forall i, i < NW -> lo i = true -> t i = false
  | St0 t r => forall i, i < NW -> lo i = true -> r i = false
  | _ => True
  end.
Definition inv (s : st) : Prop := (forall i, i < NW -> inv1 s i) /\ inv2 s /\ inv3 s.

Lemma fine_hw s i b k p :
  fine s k ->
  fine (mkSt (fun x => if x =? i then b else level s x) (fun x => (x =? i) || flag s x) (outp s) p) k.
Proof.
  unfold fine. cbn [flag outp level]. destruct (k =? i); [left; reflexivity|]. cbn [orb]. auto.
Qed.
Lemma inv_hw s i b : inv s -> inv (hw_set s i b).
Proof.
  intros [H1 [H2 H3]]. unfold hw_set.
  destruct ((i <? NW) && negb (Bool.eqb (level s i) b)) eqn:Ec; [|repeat split; assumption].
  cbn zeta. repeat split.
  - intros k Hk. specialize (H1 k Hk). unfold inv1 in *. cbn [at_].
    destruct (at_ s) as [| | | | | t|t|t r|t r];
      try (match goal with |- context [irq s] => destruct (irq s) end); try (apply fine_hw; exact H1).
    + destruct H1 as [H1|H1]; [left; apply fine_hw; exact H1|right; exact H1].
    + destruct H1 as [H1|H1]; [left; apply fine_hw; exact H1|right; exact H1].
    + cbn [flag level]. destruct (t k); [|apply fine_hw; exact H1].
      intros Hh. destruct (k =? i); [left; reflexivity|]. cbn [orb]. apply H1, Hh.
    + cbn [flag level]. destruct (t k); [|apply fine_hw; exact H1].
      destruct (k =? i); [left; reflexivity|]. cbn [orb]. exact H1.
  - unfold inv2 in *. cbn [at_]. destruct (at_ s); try discriminate.
    rewrite (H2 eq_refl). discriminate.
  - unfold inv3 in *. cbn [at_]. destruct (at_ s); try exact I; try exact H3.
    destruct (irq s); exact I.
Qed.
Lemma inv_kick s : inv s -> inv (kick s).
Proof.
  intros [H1 [H2 H3]]. unfold kick. destruct (at_ s) eqn:Ea; try (repeat split; assumption).
  repeat split.
  - intros k Hk. specialize (H1 k Hk). unfold inv1 in *. rewrite Ea in H1. exact H1.
  - unfold inv2. cbn [at_]. discriminate.
Qed.
Lemma inv_thread s : inv s -> inv (thread s).
Proof.
  intros [H1 [H2 H3]]. unfold thread. destruct (at_ s) as [|t|t| |t|t|t|t r|t r] eqn:Ea; cbn zeta.
  - repeat split.
    + intros k Hk. specialize (H1 k Hk). unfold inv1 in *. rewrite Ea in H1. exact H1.
    + unfold inv2. cbn [at_]. discriminate.
    + unfold inv3. cbn [at_]. intros k Hk Hlo. rewrite (lo_hi k Hk) in Hlo.
      apply negb_true_iff in Hlo. rewrite Hlo. reflexivity.
  - repeat split.
    + intros k Hk. specialize (H1 k Hk). unfold inv1 in *. rewrite Ea in H1. exact H1.
    + unfold inv2. cbn [at_]. discriminate.
  - destruct (none_set t).
    + repeat split.
      * intros k Hk. specialize (H1 k Hk). unfold inv1 in *. rewrite Ea in H1. cbn [at_].
        destruct (irq s); exact H1.
      * unfold inv2. cbn [at_]. destruct (irq s) eqn:Ei; [discriminate|]. intros _. exact Ei.
      * unfold inv3. cbn [at_]. destruct (irq s); exact I.
    + repeat split.
      * intros k Hk. specialize (H1 k Hk). unfold inv1 in *. rewrite Ea in H1. exact H1.
      * unfold inv2. cbn [at_]. discriminate.
  - repeat split; assumption.
  - repeat split.
    + intros k Hk. specialize (H1 k Hk). unfold inv1 in *. rewrite Ea in H1. cbn [at_].
      unfold fine in *. cbn [flag outp level]. destruct (flag s k), (lo k), (t k); cbn [andb negb];
        intuition.
    + unfold inv2. cbn [at_]. discriminate.
  - repeat split.
    + intros k Hk. specialize (H1 k Hk). unfold inv1 in *. rewrite Ea in H1. cbn [at_].
      unfold fine in *. cbn [flag outp level]. destruct (flag s k), (hi k), (t k); cbn [andb negb];
        intuition.
    + unfold inv2. cbn [at_]. discriminate.
  - repeat split.
    + intros k Hk. specialize (H1 k Hk). unfold inv1 in *. rewrite Ea in H1. cbn [at_ flag level].
      unfold fine in *. cbn [flag outp level]. destruct (t k).
      * intros ->. right. reflexivity.
      * destruct H1 as [H1|H1]; [exact H1|discriminate].
    + unfold inv2. cbn [at_]. discriminate.
    + unfold inv3. cbn [at_]. intros k Hk Hlo. rewrite (lo_hi k Hk) in Hlo.
      apply negb_true_iff in Hlo. rewrite Hlo. reflexivity.
  - repeat split.
    + intros k Hk. specialize (H1 k Hk). unfold inv3 in H3. rewrite Ea in H3. specialize (H3 k Hk).
      unfold inv1 in *. rewrite Ea in H1. cbn [at_ flag level].
      unfold fine in *. cbn [flag outp level]. destruct (t k); [|exact H1].
      pose proof (lo_hi k Hk) as Hl. destruct (hi k); cbn [negb] in Hl; rewrite Hl in *.
      * cbn [andb]. rewrite orb_false_r. apply H1. reflexivity.
      * right. rewrite (H3 eq_refl). reflexivity.
    + unfold inv2. cbn [at_]. discriminate.
  - repeat split.
    + intros k Hk. specialize (H1 k Hk). unfold inv1 in *. rewrite Ea in H1. cbn [at_].
      unfold fine in *. cbn [flag outp level]. destruct (t k); exact H1.
    + unfold inv2. cbn [at_]. discriminate.
Qed.
Lemma inv_run es : forall s, inv s -> inv (run s es).
Proof.
  induction es as [|e es IH]; intros s H; [exact H|]. unfold run in *. cbn [fold_left]. apply IH.
  destruct e; cbn [step]; [apply inv_thread|apply inv_hw|apply inv_kick]; exact H.
Qed.
Lemma inv_init : inv init.
Proof.
  repeat split. intros k _. unfold inv1, fine. cbn. right. reflexivity.
Qed.

(** ** the thread comes to rest *)
Fixpoint threads (n : nat) (s : st) : st :=
  match n with O => s | S n' => threads n' (thread s) end.
Lemma threads_add n k : forall s, threads (n + k) s = threads k (threads n s).
Proof. induction n as [|n IH]; intros s; [reflexivity|apply IH]. Qed.
Lemma threads_wait n : forall s, at_ s = Wait -> threads n s = s.
Proof.
  induction n as [|n IH]; intros s H; [reflexivity|]. cbn [threads].
  replace (thread s) with s by (unfold thread; rewrite H; reflexivity). apply IH, H.
Qed.
Lemma none_ext v w : (forall i, i < NW -> v i = w i) -> none_set v = none_set w.
Proof.
  intros H. apply Bool.eq_iff_eq_true. rewrite !none_set_spec.
  split; intros Hn i Hi; [rewrite <- H|rewrite H]; auto.
Qed.
Lemma read_all f : none_set (fun i => (hi i && f i) || (lo i && f i)) = none_set f.
Proof.
  apply none_ext. intros i Hi. rewrite (lo_hi i Hi). destruct (hi i), (f i); reflexivity.
Qed.
(** A round from the start with no flag set ends in wait() *)
Lemma rest_clear L f o : none_set f = true -> at_ (threads 3 (mkSt L f o Rd1)) = Wait.
Proof.
  intros H. cbn [threads]. unfold thread at 3. cbn [at_ level flag outp].
  unfold thread at 2. cbn [at_ level flag outp].
  unfold thread. cbn [at_ level flag outp]. rewrite read_all, H.
  unfold irq. cbn [at_ flag]. rewrite H. reflexivity.
Qed.
Lemma round_flags L f o : none_set f = false ->
  exists f' o', threads 8 (mkSt L f o Rd1) = mkSt L f' o' Rd1 /\ none_set f' = true.
Proof.
  intros H. cbn [threads]. unfold thread at 8. cbn [at_ level flag outp].
  unfold thread at 7. cbn [at_ level flag outp].
  unfold thread at 6. cbn [at_ level flag outp]. rewrite read_all, H. cbn [at_ level flag outp].
  unfold thread at 5. cbn [at_ level flag outp]. unfold thread at 4. cbn [at_ level flag outp].
  unfold thread at 3. cbn [at_ level flag outp]. unfold thread at 2. cbn [at_ level flag outp].
  unfold thread. cbn [at_ level flag outp]. eexists _, _. split; [reflexivity|].
  apply none_set_spec. intros i Hi. rewrite (lo_hi i Hi). destruct (hi i), (f i); reflexivity.
Qed.
Lemma rest_start s : at_ s = Rd1 -> at_ (threads 11 s) = Wait.
Proof.
  destruct s as [L f o p]. cbn [at_]. intros ->. destruct (none_set f) eqn:E.
  - pose proof (rest_clear L f o E) as H.
    rewrite (threads_add 3 8). rewrite threads_wait; exact H.
  - rewrite (threads_add 8 3). destruct (round_flags L f o E) as [f' [o' [-> E']]].
    apply rest_clear, E'.
Qed.
Lemma to_start s : exists n, (n <= 7)%nat /\ (at_ (threads n s) = Rd1 \/ at_ (threads n s) = Wait).
Proof.
  assert (G : forall k s, match at_ s with
            | Rd1 | Wait => True | Out _ _ => (1 <= k)%nat | St0 _ _ => (2 <= k)%nat
            | St1 _ => (3 <= k)%nat | Clr1 _ => (4 <= k)%nat | Clr0 _ => (5 <= k)%nat
            | Chk _ => (6 <= k)%nat | Rd0 _ => (7 <= k)%nat end ->
            exists n, (n <= k)%nat /\ (at_ (threads n s) = Rd1 \/ at_ (threads n s) = Wait)).
  { induction k as [|k IH]; intros [L f o p] H; cbn [at_] in H.
    - destruct p; try lia; exists 0%nat; cbn; auto.
    - destruct p; try (exists 0%nat; cbn; split; [lia|auto]; fail);
        match goal with |- exists n, _ /\ (at_ (threads n ?s) = _ \/ _) =>
          assert (Hn : exists n, (n <= k)%nat /\ (at_ (threads n (thread s)) = Rd1
                                                 \/ at_ (threads n (thread s)) = Wait)) end;
        try (destruct Hn as [n [Hn1 Hn2]]; exists (S n); split; [lia|exact Hn2]);
        apply IH; unfold thread; cbn [at_]; try lia; try exact I.
      destruct (none_set t); cbn [at_]; [destruct (irq _); exact I|lia]. }
  apply (G 7%nat). destruct (at_ s); lia || exact I.
Qed.
Lemma rest s : at_ (threads 18 s) = Wait.
Proof.
  destruct (to_start s) as [n [Hn [H|H]]].
  - apply rest_start in H. rewrite <- threads_add in H.
    replace 18%nat with ((n + 11) + (7 - n))%nat by lia.
    rewrite threads_add. rewrite threads_wait; exact H.
  - replace 18%nat with (n + (18 - n))%nat by lia.
    rewrite threads_add. rewrite threads_wait; exact H.
Qed.
Lemma run_threads n : forall s, run s (repeat Thread n) = threads n s.
Proof. induction n as [|n IH]; intros s; [reflexivity|]. apply IH. Qed.
Lemma run_rest es n : run init (es ++ repeat Thread n) = threads n (run init es).
Proof. rewrite <- run_threads. unfold run. apply fold_left_app. Qed.
Lemma threads_level n : forall s i, level (threads n s) i = level s i.
Proof.
  induction n as [|n IH]; intros s i; [reflexivity|]. cbn [threads]. rewrite IH.
  unfold thread. destruct (at_ s); try reflexivity. destruct (none_set t); reflexivity.
Qed.

(** ** outputs show what was there *)
Definition was (es : list ev) (i : N) (b : bool) : Prop :=
  exists p q, es = p ++ q /\ level (run init p) i = b.
Lemma was_more es e i b : was es i b -> was (es ++ [e]) i b.
Proof. intros [p [q [-> H]]]. exists p, (q ++ [e]). split; [symmetry; apply app_assoc|exact H]. Qed.
Lemma was_now es i : was es i (level (run init es) i).
Proof. exists es, []. split; [symmetry; apply app_nil_r|reflexivity]. Qed.
Definition kept (es : list ev) : Prop :=
  forall i, i < NW ->
    was es i (outp (run init es) i)
    /\ match at_ (run init es) with
       | St0 t r => hi i = true -> was es i (r i)
       | Out t r => was es i (r i)
       | _ => True
       end.
Lemma run_snoc s es e : run s (es ++ [e]) = step (run s es) e.
Proof. unfold run. rewrite fold_left_app. reflexivity. Qed.
Lemma kept_all es : kept es.
Proof.
  induction es as [|e es IH] using rev_ind.
  { intros i _. split; [exists [], []; split; reflexivity|exact I]. }
  intros i Hi. destruct (IH i Hi) as [Ho Hp].
  pose proof (was_now es i) as Hl. destruct (inv_run es init inv_init) as [_ [_ H3]].
  rewrite !run_snoc. set (s := run init es) in *. clearbody s.
  destruct e as [|k b|]; cbn [step].
  - unfold thread. unfold inv3 in H3. destruct (at_ s) as [|t|t| |t|t|t|t r|t r] eqn:Ea; cbn zeta;
      try (split; [apply was_more, Ho|cbn [at_]; exact I]).
    + destruct (none_set t); (split; [apply was_more, Ho|]); cbn [at_]; [destruct (irq s)|]; exact I.
    + rewrite Ea. split; [apply was_more, Ho|exact I].
    + split; [apply was_more, Ho|]. cbn [at_]. intros ->. apply was_more, Hl.
    + split; [apply was_more, Ho|]. cbn [at_]. specialize (H3 i Hi). rewrite (lo_hi i Hi) in *.
      destruct (hi i); cbn [negb andb] in *.
      * rewrite orb_false_r. apply was_more, Hp. reflexivity.
      * rewrite (H3 eq_refl). apply was_more, Hl.
    + cbn [at_ outp]. split; [|exact I]. destruct (t i); apply was_more; assumption.
  - unfold hw_set. destruct ((k <? NW) && negb (Bool.eqb (level s k) b)).
    + cbn zeta. cbn [outp at_]. split; [apply was_more, Ho|].
      destruct (at_ s); try exact I; [destruct (irq s); exact I| |];
        try intros Hh; apply was_more; auto.
    + split; [apply was_more, Ho|]. destruct (at_ s); try exact I; try intros Hh; apply was_more; auto.
  - unfold kick. destruct (at_ s) eqn:Ea; try rewrite Ea;
      (split; [apply was_more, Ho|]); try exact I; cbn [at_]; try exact I;
      try intros Hh; apply was_more; auto.
Qed.
