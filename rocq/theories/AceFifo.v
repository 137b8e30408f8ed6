(** Waiting transactions on the same range start in the order they arrived. *)
From Verif Require Import Base TlmModel TlmSpec AceSpec AceModel AceFacts AceOrder.
Open Scope N_scope.

(** [i] arrived before [j] *)
Definition before (l : list nat) (i j : nat) : Prop := exists l1 l2, l = l1 ++ i :: l2 /\ ~ In j l1.

Section Fifo.
Context (f : cfg).

Definition entered (p : pc) : bool := match p with Entered _ _ => true | _ => false end.
Definition fixed (s s' : state) : Prop :=
  (s_waiting s' = s_waiting s \/ exists m, s_waiting s' = s_waiting s ++ [m]) /\
  (forall w, s_pc s' w = s_pc s w \/
     waits (s_pc s w) = false /\ (entered (s_pc s w) = true -> waits (s_pc s' w) = false)).

Lemma fixed_goto s s1 m p :
  waits (s_pc s m) = false -> waits p = false -> s_pc s1 = s_pc s -> s_waiting s1 = s_waiting s -> fixed s (goto s1 m p).
Proof.
  intros H Hp E1 E2. split; [left; exact E2|]. intros w. cbn. rewrite E1.
  destruct (Nat.eq_dec w m) as [->|N]; [rewrite updn_eq; auto|left; now rewrite updn_ne by auto].
Qed.
Lemma fixed_issue s s1 m r k :
  waits (s_pc s m) = false -> entered (s_pc s m) = false -> s_pc s1 = s_pc s -> s_waiting s1 = s_waiting s ->
  fixed s (issue f s1 m r k).
Proof.
  intros H He E1 E2. unfold issue. destruct (is_overlapping _ _ _).
  - split; [right; exists m; cbn; now rewrite E2|]. intros w. cbn. rewrite E1.
    destruct (Nat.eq_dec w m) as [->|N]; [right; split; [exact H|congruence]|left; now rewrite updn_ne by auto].
  - now apply fixed_goto.
Qed.
Lemma fixed_fill s s1 m r k :
  waits (s_pc s m) = false -> entered (s_pc s m) = false -> s_pc s1 = s_pc s -> s_waiting s1 = s_waiting s ->
  fixed s (fill f s1 m r k).
Proof.
  intros H He E1 E2. unfold fill. destruct (l_valid _); [destruct (l_dirty _)|].
  - now apply fixed_goto.
  - now apply fixed_issue.
  - now apply fixed_issue.
Qed.

Lemma local_fixed s m r : s_pc s m = Head r -> fixed s (fst (local f s m r)).
Proof.
  intro E. assert (W : waits (s_pc s m) = false) by now rewrite E.
  assert (W' : entered (s_pc s m) = false) by now rewrite E. unfold local.
  destruct (o_kind (r_op r)).
  - destruct (_ <=? _); [now apply fixed_goto|]. destruct (in_cache _ _ _ _); [now apply fixed_goto|].
    destruct (f_wt f m); [|destruct (o_excl (r_op r))]; now apply fixed_fill.
  - destruct (_ <=? _); [now apply fixed_goto|]. destruct (f_wt f m); [now apply fixed_issue|].
    destruct (o_excl (r_op r) && _); [now apply fixed_goto|].
    destruct (in_cache _ _ _ _); [|now apply fixed_fill].
    destruct (negb _); [now apply fixed_goto|now apply fixed_issue].
  - destruct (in_cache _ _ _ _ && _); [now apply fixed_goto|now apply fixed_issue].
  - destruct (in_cache _ _ _ _); now apply fixed_issue.
  - destruct (in_cache _ _ _ _); now apply fixed_issue.
Qed.

(** every step is [fixed], or first takes a transaction off the list *)
Lemma step_fixed s lb s' es :
  step f s lb = Some (s', es) ->
  exists s1, (s1 = s \/ exists m r, waits (s_pc s m) = false /\ s1 = tx_leave f s m r) /\ fixed s1 s'.
Proof.
  intro H. destruct lb as [m o|m|m|m j|m|m|m|]; cbn [step] in H.
  - destruct (s_pc s m) eqn:E; try discriminate. destruct (m <? f_nm f)%nat; [|discriminate].
    injection H as <- <-. exists s. split; [now left|]. apply fixed_goto; auto. now rewrite E.
  - destruct (s_pc s m) eqn:E; try discriminate. injection H as H. exists s. split; [now left|].
    pose proof (local_fixed s m r E) as F. now rewrite H in F.
  - destruct (s_pc s m) eqn:E; try discriminate. exists s. split; [now left|].
    assert (s' = engine f s m r k) as -> by congruence.
    unfold engine. destruct (o_excl (r_op r)); [destruct k; try destruct (s_pos s m)|];
      apply fixed_goto; auto; now rewrite E.
  - destruct (s_pc s m) eqn:E; try discriminate. destruct (_ && _); [|discriminate].
    destruct (handle_snoop _ _ _ _ _). injection H as <- <-. exists s. split; [now left|].
    apply fixed_goto; auto; now rewrite E.
  - destruct (s_pc s m) eqn:E; try discriminate. destruct todo; [|discriminate].
    injection H as <- <-. exists s. split; [now left|]. apply fixed_goto; auto; [now rewrite E|]. now destruct (x_ds x).
  - exists s. split; [now left|]. unfold downstream in H. destruct (s_pc s m) eqn:E; try discriminate.
    + destruct (x_ds x); [|discriminate]. injection H as <- <-. apply fixed_goto; auto; now rewrite E.
    + destruct (x_ok x); [injection H as <- <-; apply fixed_goto; auto; now rewrite E|].
      destruct k; injection H as <- <-; apply fixed_goto; auto; now rewrite E.
    + injection H as <- <-. apply fixed_goto; auto; now rewrite E.
  - unfold complete in H. destruct (s_pc s m) eqn:E; try discriminate;
      exists (tx_leave f s m r); (split; [right; exists m, r; split; [now rewrite E|reflexivity]|]);
      pose proof (leave_pc_own f s m r) as Ep; assert (W : waits (s_pc (tx_leave f s m r) m) = false) by (now rewrite Ep);
      assert (W' : entered (s_pc (tx_leave f s m r) m) = false) by (now rewrite Ep).
    + destruct k.
      1-4: destruct (o_kind (r_op r)); [destruct (o_excl (r_op r) && _)|..]; injection H as <- <-; now apply fixed_goto.
      * destruct (o_excl (r_op r)); [destruct (_ && x_ex x)|]; injection H as <- <-; now apply fixed_goto.
      * destruct (o_excl (r_op r) && _); injection H as <- <-; now apply fixed_goto.
      * injection H as <- <-; now apply fixed_goto.
      * injection H as <- <-; now apply fixed_goto.
      * injection H as <- <-; now apply fixed_goto.
      * injection H as <- <-; now apply fixed_goto.
      * injection H as <- <-; now apply fixed_goto.
    + injection H as <- <-. now apply fixed_issue.
  - injection H as <- <-. exists s. split; [now left|]. split; now left.
Qed.

(** ** Restarting *)
Definition stuck (g : N * N) (s : state) (h : N * N) : Prop :=
  overlaps g h = false \/ is_overlapping f s h = true.

Lemma restart_one_ongoing g s w j : In j (s_ongoing s) -> In j (s_ongoing (restart_one f g s w)).
Proof.
  intro H. unfold restart_one. destruct (_ && _); [|exact H]. destruct (s_pc s w); auto. cbn.
  apply in_or_app. now left.
Qed.
Lemma stuck_step g s w h : stuck g s h -> stuck g (restart_one f g s w) h.
Proof.
  intros [H|H]; [now left|right]. unfold is_overlapping in *. apply existsb_exists in H as (j & Hj & Ho).
  apply existsb_exists. exists j. split; [now apply restart_one_ongoing|]. now rewrite tx_range_woken.
Qed.
Lemma stuck_stays g l s j h :
  stuck g s h -> tx_range f s j = h -> s_pc (fold_left (restart_one f g) l s) j = s_pc s j.
Proof.
  revert s. induction l as [|w l IH]; intros s H E; cbn; [reflexivity|].
  rewrite IH; [|now apply stuck_step|now rewrite tx_range_woken].
  unfold restart_one. destruct (Nat.eq_dec j w) as [->|N].
  - rewrite E. destruct H as [H|H]; rewrite H; [reflexivity|]. now rewrite andb_false_r.
  - destruct (_ && _); [|reflexivity]. destruct (s_pc s w); try reflexivity. cbn. now rewrite updn_ne by auto.
Qed.
Lemma absent_stays g l s j : ~ In j l -> s_pc (fold_left (restart_one f g) l s) j = s_pc s j.
Proof.
  revert s. induction l as [|w l IH]; intros s H; cbn; [reflexivity|].
  rewrite IH by (intro; apply H; now right). unfold restart_one. destruct (_ && _); [|reflexivity].
  destruct (s_pc s w); try reflexivity. cbn. apply updn_ne. intro. apply H. now left.
Qed.
Lemma restarts_range g l s i : tx_range f (fold_left (restart_one f g) l s) i = tx_range f s i.
Proof. revert s. induction l as [|w l IH]; intro s; cbn; [reflexivity|]. now rewrite IH, tx_range_woken. Qed.

Lemma restarts_fifo g l s i j :
  i <> j -> before l i j -> waits (s_pc s i) = true -> tx_range f s i = tx_range f s j ->
  let s' := fold_left (restart_one f g) l s in
  waits (s_pc s' i) = true -> s_pc s' j = s_pc s j.
Proof.
  intros Nij (l1 & l2 & -> & Nj) Wi Er. cbv zeta. rewrite fold_left_app. cbn [fold_left].
  set (s1 := fold_left (restart_one f g) l1 s).
  assert (Ej : s_pc s1 j = s_pc s j) by now apply absent_stays.
  assert (R1 : forall x, tx_range f s1 x = tx_range f s x) by (intro; apply restarts_range).
  intro Wi'.
  destruct (overlaps g (tx_range f s1 i) && negb (is_overlapping f s1 (tx_range f s1 i))) eqn:C.
  - exfalso. assert (Wi1 : waits (s_pc (restart_one f g s1 i) i) = false).
    { unfold restart_one. rewrite C. destruct (s_pc s1 i) eqn:E1; cbn; rewrite ?E1; auto. now rewrite updn_eq. }
    destruct (restarts_pc f g l2 (restart_one f g s1 i) i) as [E|(r & k & E & _)]; rewrite E in *; [congruence|discriminate].
  - assert (St : stuck g s1 (tx_range f s j)).
    { rewrite R1, Er in C. apply andb_false_iff in C as [C|C]; [now left|right]. now apply negb_false_iff in C. }
    rewrite (stuck_stays g l2 _ j (tx_range f s j)).
    + assert (restart_one f g s1 i = s1) as -> by (unfold restart_one; now rewrite C). exact Ej.
    + now apply stuck_step.
    + now rewrite tx_range_woken, R1.
Qed.

(** the list after restarting: what was before stays before *)
Lemma before_filter l i j w : i <> w -> before l i j -> before (filter (fun x => negb (Nat.eqb x w)) l) i j.
Proof.
  intros N (l1 & l2 & -> & Nj). exists (filter (fun x => negb (Nat.eqb x w)) l1), (filter (fun x => negb (Nat.eqb x w)) l2).
  rewrite filter_app. cbn. destruct (Nat.eqb_spec i w); [congruence|]. split; [reflexivity|].
  intro H. apply filter_In in H as [H _]. auto.
Qed.
Lemma restart_one_case g s w :
  restart_one f g s w = s \/ exists r k, s_pc s w = Wait r k /\
  restart_one f g s w = goto (st_lists s (s_ongoing s ++ [w])
      (filter (fun j => negb (Nat.eqb j w)) (s_waiting s))) w (Entered r k).
Proof. unfold restart_one. destruct (_ && _); [|now left]. destruct (s_pc s w); eauto 6. Qed.
Lemma restarts_before g l s i j :
  before (s_waiting s) i j -> waits (s_pc (fold_left (restart_one f g) l s) i) = true ->
  before (s_waiting (fold_left (restart_one f g) l s)) i j.
Proof.
  revert s. induction l as [|w l IH]; intros s B W; cbn [fold_left] in *; [exact B|]. apply IH; [|exact W].
  destruct (restart_one_case g s w) as [Q|(r & k & E & Q)]; rewrite Q in *; [exact B|].
  cbn. destruct (Nat.eq_dec i w) as [->|N]; [|now apply before_filter]. exfalso.
  match type of W with waits (s_pc (fold_left _ l ?s1) w) = true =>
    destruct (restarts_pc f g l s1 w) as [X|(r' & k' & X & _)] end.
  - rewrite X in W. cbn in W. rewrite updn_eq in W. discriminate.
  - cbn in X. rewrite updn_eq in X. discriminate.
Qed.

(** ** Steps *)
Lemma before_app l x i j : before l i j -> before (l ++ x) i j.
Proof. intros (l1 & l2 & -> & N). exists l1, (l2 ++ x). split; [now rewrite <- app_assoc|exact N]. Qed.
Lemma waits_range s s' i : s_pc s' i = s_pc s i -> waits (s_pc s i) = true -> tx_range f s' i = tx_range f s i.
Proof. intros E W. unfold tx_range. rewrite E. destruct (s_pc s i); try discriminate. reflexivity. Qed.

Lemma fixed_fifo s s' i j :
  fixed s s' -> before (s_waiting s) i j -> waits (s_pc s i) = true -> waits (s_pc s j) = true ->
  before (s_waiting s') i j /\ s_pc s' i = s_pc s i /\ s_pc s' j = s_pc s j.
Proof.
  intros [F1 F2] B Wi Wj. split; [|split].
  - destruct F1 as [->|[m ->]]; [exact B|now apply before_app].
  - destruct (F2 i) as [E|[E _]]; [exact E|congruence].
  - destruct (F2 j) as [E|[E _]]; [exact E|congruence].
Qed.

Lemma step_fifo s lb s' es i j :
  step f s lb = Some (s', es) -> i <> j -> before (s_waiting s) i j ->
  waits (s_pc s i) = true -> waits (s_pc s j) = true -> tx_range f s i = tx_range f s j ->
  waits (s_pc s' i) = true ->
  s_pc s' j = s_pc s j /\ before (s_waiting s') i j /\ tx_range f s' i = tx_range f s' j.
Proof.
  intros H N B Wi Wj Er Wi'. destruct (step_fixed _ _ _ _ H) as (s1 & Hs & F).
  assert (G : s_pc s1 i = s_pc s i -> s_pc s1 j = s_pc s j -> before (s_waiting s1) i j ->
     s_pc s' j = s_pc s j /\ before (s_waiting s') i j /\ tx_range f s' i = tx_range f s' j).
  { intros Ei Ej B1. destruct (fixed_fifo s1 s' i j F B1) as (B2 & Ei2 & Ej2); rewrite ?Ei, ?Ej; auto.
    split; [congruence|]. split; [exact B2|].
    rewrite (waits_range s s' i), (waits_range s s' j); auto; congruence. }
  destruct Hs as [->|(m & r & Wm & ->)]; [now apply G|].
  assert (Nim : i <> m) by congruence. assert (Njm : j <> m) by congruence.
  assert (Ei : s_pc (tx_leave f s m r) i = s_pc s i).
  { destruct (leave_pc f s m r i Nim) as [E|(r' & k & E1 & E2)]; [exact E|]. exfalso.
    destruct F as [_ F]. destruct (F i) as [E|[_ E]]; rewrite E2 in E; [rewrite E in Wi'; discriminate|].
    specialize (E eq_refl). congruence. }
  unfold tx_leave in *.
  match type of Ei with s_pc (fold_left (restart_one f ?g) ?l ?s1) i = _ =>
    pose proof (restarts_fifo g l s1 i j N B) as Q; pose proof (restarts_before g l s1 i j B) as Q' end.
  cbn [goto st_pc s_pc st_lists] in Q. rewrite !updn_ne in Q by auto.
  apply G; [exact Ei| |].
  - apply Q; [exact Wi| |now rewrite Ei].
    rewrite !tx_range_other by auto. exact Er.
  - apply Q'. now rewrite Ei.
Qed.

(** a newcomer on the same range waits as well *)
Lemma newcomer_waits s m r k w :
  InvB f s -> waits (s_pc s w) = true -> tx_range f s w = range_of f r k ->
  issue f s m r k = goto (st_lists s (s_ongoing s) (s_waiting s ++ [m])) m (Wait r k).
Proof.
  intros B W E. unfold issue. destruct (B w W) as (j & Hj & Ho).
  replace (is_overlapping f s (range_of f r k)) with true; [reflexivity|].
  symmetry. unfold is_overlapping. apply existsb_exists. exists j. now rewrite <- E.
Qed.

End Fifo.
