(** The overlapping-transaction orderer: snooping transactions in progress have
    disjoint ranges and every waiting one is blocked by one in progress. *)
From Verif Require Import Base TlmModel TlmSpec AceSpec AceModel AceFacts.
Open Scope N_scope.

Section Order.
Context (f : cfg).
Notation cl := (cl f).

Definition active (p : pc) : bool :=
  match p with
  | Entered _ _ | Snooping _ _ _ _ | DsWrite _ _ _ | Final _ _ _ | Finished _ _ _ => true
  | _ => false
  end.
Definition busy (p : pc) : bool := active p || writing p.
Definition waits (p : pc) : bool := match p with Wait _ _ => true | _ => false end.
Definition idle (p : pc) : bool := match p with Idle => true | _ => false end.

(** Cache maintenance is requested for one whole line. *)
Definition op_ok (o : op) : Prop :=
  match o_kind o with
  | O_Load | O_Store => True
  | _ => align f (o_addr o) = o_addr o /\ o_len o = cl
  end.
Definition run_ok (r : run) : Prop :=
  op_ok (r_op r) /\
  match o_kind (r_op r) with O_Load | O_Store => True | _ => r_pos r = 0 end.
Definition kind_ok (m : nat) (r : run) (k : kind) : Prop :=
  match o_kind (r_op r) with
  | O_Load => r_pos r < o_len (r_op r) /\
      if f_wt f m then k = K_ReadClean else k = K_ReadShared \/ k = K_ReadNSD
  | O_Store => r_pos r < o_len (r_op r) /\
      if f_wt f m then k = K_WriteUnique \/ k = K_WriteLineUnique /\ seg_len f r = cl /\ no_sparse f r = true
      else k = K_CleanUnique \/ k = K_ReadUnique \/ k = K_MakeUnique /\ seg_len f r = cl
  | O_CleanShared => k = K_CleanShared
  | O_CleanInvalid => k = K_CleanInvalid
  | O_MakeInvalid => k = K_MakeInvalid
  end.
Definition pc_ok (m : nat) (p : pc) : Prop :=
  match p with
  | Idle => True
  | Head r => run_ok r
  | Wait r k | Entered r k | Snooping r k _ _ | Wb r _ k | WbDone r _ k => run_ok r /\ kind_ok m r k
  | DsWrite r k x => run_ok r /\ kind_ok m r k /\ x_ds x <> None
  | Final r k x => run_ok r /\ kind_ok m r k /\ x_ds x = None
  | Finished r k x => run_ok r /\ kind_ok m r k /\ x_ds x = None /\
      (is_read_snoop (snoop_of k) = true -> x_ok x = true)
  end.

Definition run_of (p : pc) : option run :=
  match p with
  | Idle => None
  | Head r | Wait r _ | Entered r _ | Snooping r _ _ _ | DsWrite r _ _ | Final r _ _
  | Finished r _ _ | Wb r _ _ | WbDone r _ _ => Some r
  end.

(** ** Ranges *)
Lemma range_pos m r k : run_ok r -> kind_ok m r k -> 0 < snd (range_of f r k).
Proof.
  pose proof (cl_pos f) as Hc. intros [H1 H2] H3. unfold op_ok in H1. unfold kind_ok in H3.
  destruct (o_kind (r_op r)).
  - destruct H3 as [_ H3]. destruct (f_wt f m); [subst|destruct H3; subst]; cbn; auto.
  - destruct H3 as [P H3]. pose proof (seg_len_pos f r P).
    destruct (f_wt f m); [destruct H3 as [->|[-> _]]|destruct H3 as [->|[->|[-> _]]]]; cbn; auto.
  - subst. cbn. lia.
  - subst. cbn. lia.
  - subst. cbn. lia.
Qed.

Lemma overlaps_spec (g h : N * N) :
  0 < snd g -> 0 < snd h ->
  (overlaps g h = true <-> fst g < fst h + snd h /\ fst h < fst g + snd g).
Proof.
  destruct g as [a n], h as [b k]. cbn [fst snd]. intros Hn Hk.
  unfold overlaps, in_range, last_of. cbn [fst snd].
  rewrite !orb_true_iff, !andb_true_iff, !N.leb_le, !N.ltb_lt. lia.
Qed.
Lemma overlaps_sym (g h : N * N) :
  0 < snd g -> 0 < snd h -> overlaps g h = overlaps h g.
Proof.
  intros. destruct (overlaps g h) eqn:E, (overlaps h g) eqn:E'; try reflexivity; exfalso.
  - apply overlaps_spec in E; auto. assert (overlaps h g = true) by (apply overlaps_spec; tauto). congruence.
  - apply overlaps_spec in E'; auto. assert (overlaps g h = true) by (apply overlaps_spec; tauto). congruence.
Qed.

Lemma tx_range_pos s m :
  pc_ok m (s_pc s m) -> busy (s_pc s m) = true \/ waits (s_pc s m) = true -> 0 < snd (tx_range f s m).
Proof.
  unfold tx_range. intros H B. pose proof (cl_pos f).
  destruct (s_pc s m); cbn in *; try (destruct B; discriminate); try (destruct H as (H1 & H2); try destruct H2 as (H2 & _); eapply range_pos; eauto); auto.
Qed.

Record InvO (s : state) : Prop := {
  o_on : forall m, In m (s_ongoing s) <-> busy (s_pc s m) = true;
  o_wait : forall m, In m (s_waiting s) <-> waits (s_pc s m) = true;
  o_nm : forall m, idle (s_pc s m) = false -> (m < f_nm f)%nat;
  o_ok : forall m, pc_ok m (s_pc s m);
  o_disj : forall m m', m <> m' -> active (s_pc s m) = true -> active (s_pc s m') = true ->
             overlaps (tx_range f s m) (tx_range f s m') = false }.
Definition blocked (s : state) (w : nat) : Prop :=
  exists j, In j (s_ongoing s) /\ overlaps (tx_range f s w) (tx_range f s j) = true.
Definition InvB (s : state) : Prop := forall w, waits (s_pc s w) = true -> blocked s w.

(** Steps that leave the orderer alone. *)
Definition alike (p p' : pc) : Prop :=
  active p' = active p /\ writing p' = writing p /\ waits p' = waits p.

Lemma alike_busy p p' : alike p p' -> busy p' = busy p.
Proof. unfold busy. intros (-> & -> & _). reflexivity. Qed.

Lemma InvO_same s s' :
  InvO s -> s_ongoing s' = s_ongoing s -> s_waiting s' = s_waiting s ->
  (forall i, alike (s_pc s i) (s_pc s' i)) ->
  (forall i, idle (s_pc s' i) = false -> (i < f_nm f)%nat) ->
  (forall i, pc_ok i (s_pc s' i)) ->
  (forall i, busy (s_pc s i) = true \/ waits (s_pc s i) = true -> tx_range f s' i = tx_range f s i) ->
  InvO s'.
Proof.
  intros I Eo Ew A Hn Hp R. constructor; auto.
  - intro m. rewrite Eo, (o_on _ I). now rewrite (alike_busy _ _ (A m)).
  - intro m. rewrite Ew, (o_wait _ I). now destruct (A m) as (_ & _ & ->).
  - intros m m' N Hm Hm'.
    destruct (A m) as (E1 & _ & _), (A m') as (E2 & _ & _). rewrite E1 in Hm. rewrite E2 in Hm'.
    rewrite !R by (left; unfold busy; rewrite ?Hm, ?Hm'; reflexivity). now apply (o_disj _ I).
Qed.
Lemma InvB_same s s' :
  InvO s -> InvB s -> s_ongoing s' = s_ongoing s ->
  (forall i, alike (s_pc s i) (s_pc s' i)) ->
  (forall i, busy (s_pc s i) = true \/ waits (s_pc s i) = true -> tx_range f s' i = tx_range f s i) ->
  InvB s'.
Proof.
  intros I B Eo A R w Hw. destruct (A w) as (_ & _ & Ew). rewrite Ew in Hw.
  destruct (B w Hw) as (j & Hj & Ho). exists j. rewrite Eo. split; [exact Hj|].
  rewrite !R; [exact Ho| |]; [left; now apply (o_on _ I)|now right].
Qed.

(** ** Entering *)
Lemma not_overlapping s g :
  is_overlapping f s g = false -> forall j, In j (s_ongoing s) -> overlaps g (tx_range f s j) = false.
Proof.
  unfold is_overlapping. intros H j Hj. destruct (overlaps g (tx_range f s j)) eqn:E; [|reflexivity].
  assert (existsb (fun j => overlaps g (tx_range f s j)) (s_ongoing s) = true)
    by (apply existsb_exists; eauto). congruence.
Qed.
Lemma is_overlapping_blocked s g :
  is_overlapping f s g = true -> exists j, In j (s_ongoing s) /\ overlaps g (tx_range f s j) = true.
Proof. unfold is_overlapping. intro H. apply existsb_exists in H. exact H. Qed.

Lemma tx_range_other s m p i o w : i <> m -> tx_range f (goto (st_lists s o w) m p) i = tx_range f s i.
Proof. intro N. unfold tx_range. cbn. now rewrite updn_ne by auto. Qed.

Lemma enter_O s m r k w :
  InvO s -> busy (s_pc s m) = false -> (m < f_nm f)%nat -> run_ok r -> kind_ok m r k ->
  is_overlapping f s (range_of f r k) = false ->
  (forall i, In i w <-> waits (s_pc s i) = true /\ i <> m) ->
  InvO (goto (st_lists s (s_ongoing s ++ [m]) w) m (Entered r k)).
Proof.
  intros I B Hm Hr Hk Ho Hw.
  assert (R : 0 < snd (range_of f r k)) by (eapply range_pos; eauto).
  constructor; cbn.
  - intro i. rewrite in_app_iff, (o_on _ I). destruct (Nat.eq_dec i m) as [->|N].
    + rewrite updn_eq. cbn. tauto.
    + rewrite updn_ne by auto. cbn. intuition congruence.
  - intro i. rewrite Hw. destruct (Nat.eq_dec i m) as [->|N].
    + rewrite updn_eq. cbn. intuition congruence.
    + rewrite updn_ne by auto. tauto.
  - intros i H. destruct (Nat.eq_dec i m) as [->|N]; [exact Hm|].
    rewrite updn_ne in H by auto. now apply (o_nm _ I).
  - intro i. destruct (Nat.eq_dec i m) as [->|N]; [rewrite updn_eq; now split|].
    rewrite updn_ne by auto. apply (o_ok _ I).
  - assert (D : forall i, i <> m -> active (s_pc s i) = true ->
        overlaps (range_of f r k) (tx_range f s i) = false).
    { intros i Ni Hi. apply (not_overlapping _ _ Ho). apply (o_on _ I). unfold busy. now rewrite Hi. }
    assert (E : tx_range f (goto (st_lists s (s_ongoing s ++ [m]) w) m (Entered r k)) m = range_of f r k).
    { unfold tx_range. cbn. now rewrite updn_eq. }
    intros i i' N Hi Hi'.
    destruct (Nat.eq_dec i m) as [->|Ni], (Nat.eq_dec i' m) as [->|Ni'].
    + congruence.
    + rewrite E, tx_range_other by auto. rewrite updn_ne in Hi' by auto. now apply D.
    + rewrite E, tx_range_other by auto. rewrite updn_ne in Hi by auto.
      rewrite overlaps_sym; [now apply D| |exact R].
      apply tx_range_pos; [apply (o_ok _ I)|left; unfold busy; now rewrite Hi].
    + rewrite !tx_range_other by auto. rewrite updn_ne in Hi, Hi' by auto. now apply (o_disj _ I).
Qed.

Lemma enter_B s m r k w rest_ok :
  InvO s ->
  (forall i, i <> m -> waits (s_pc s i) = true -> blocked s i \/ rest_ok i) ->
  busy (s_pc s m) = false ->
  forall i, waits (s_pc (goto (st_lists s (s_ongoing s ++ [m]) w) m (Entered r k)) i) = true ->
    blocked (goto (st_lists s (s_ongoing s ++ [m]) w) m (Entered r k)) i \/ rest_ok i.
Proof.
  intros I H B i Hi. cbn in Hi.
  destruct (Nat.eq_dec i m) as [->|N]; [rewrite updn_eq in Hi; discriminate|].
  rewrite updn_ne in Hi by auto. destruct (H i N Hi) as [(j & Hj & Ho)|R]; [left|now right].
  assert (j <> m). { intro. subst. apply (o_on _ I) in Hj. congruence. }
  exists j. cbn. split; [apply in_or_app; now left|]. now rewrite !tx_range_other by auto.
Qed.

Lemma issue_O s m r k :
  InvO s -> busy (s_pc s m) = false -> waits (s_pc s m) = false -> (m < f_nm f)%nat ->
  run_ok r -> kind_ok m r k -> InvO (issue f s m r k).
Proof.
  intros I B W Hm Hr Hk. unfold issue. destruct (is_overlapping f s (range_of f r k)) eqn:Ho.
  - constructor; cbn.
    + intro i. rewrite (o_on _ I). destruct (Nat.eq_dec i m) as [->|N].
      * rewrite updn_eq. cbn. intuition congruence.
      * now rewrite updn_ne by auto.
    + intro i. rewrite in_app_iff, (o_wait _ I). destruct (Nat.eq_dec i m) as [->|N].
      * rewrite updn_eq. cbn. tauto.
      * rewrite updn_ne by auto. cbn. intuition congruence.
    + intros i H. destruct (Nat.eq_dec i m) as [->|N]; [exact Hm|].
      rewrite updn_ne in H by auto. now apply (o_nm _ I).
    + intro i. destruct (Nat.eq_dec i m) as [->|N]; [rewrite updn_eq; now split|].
      rewrite updn_ne by auto. apply (o_ok _ I).
    + intros i i' N Hi Hi'.
      destruct (Nat.eq_dec i m) as [->|Ni]; [rewrite updn_eq in Hi; discriminate|].
      destruct (Nat.eq_dec i' m) as [->|Ni']; [rewrite updn_eq in Hi'; discriminate|].
      rewrite updn_ne in Hi, Hi' by auto. rewrite !tx_range_other by auto. now apply (o_disj _ I).
  - apply enter_O; auto. intro i. rewrite (o_wait _ I).
    split; [|tauto]. intro H. split; [exact H|]. intro. subst. congruence.
Qed.
Lemma issue_B s m r k :
  InvO s -> InvB s -> busy (s_pc s m) = false -> InvB (issue f s m r k).
Proof.
  intros I HB B. unfold issue. destruct (is_overlapping f s (range_of f r k)) eqn:Ho.
  - intros w Hw. cbn in Hw. destruct (Nat.eq_dec w m) as [->|N].
    + apply is_overlapping_blocked in Ho as (j & Hj & Ho). exists j. cbn. split; [exact Hj|].
      assert (j <> m). { intro. subst. apply (o_on _ I) in Hj. congruence. }
      rewrite (tx_range_other s m _ j) by auto. unfold tx_range at 1. cbn. now rewrite updn_eq.
    + rewrite updn_ne in Hw by auto. destruct (HB w Hw) as (j & Hj & Hov).
      assert (j <> m). { intro. subst. apply (o_on _ I) in Hj. congruence. }
      exists j. cbn. split; [exact Hj|]. now rewrite !tx_range_other by auto.
  - intros w Hw. destruct (enter_B s m r k (s_waiting s) (fun _ => False) I) with (i := w) as [H|[]]; auto.
Qed.

Lemma issue_wb_O s m r c k :
  InvO s -> busy (s_pc s m) = false -> waits (s_pc s m) = false -> (m < f_nm f)%nat ->
  run_ok r -> kind_ok m r k -> InvO (issue_wb s m r c k).
Proof.
  intros I B W Hm Hr Hk. unfold issue_wb. constructor; cbn.
  - intro i. rewrite in_app_iff, (o_on _ I). destruct (Nat.eq_dec i m) as [->|N].
    + rewrite updn_eq. cbn. tauto.
    + rewrite updn_ne by auto. cbn. intuition congruence.
  - intro i. rewrite (o_wait _ I). destruct (Nat.eq_dec i m) as [->|N].
    + rewrite updn_eq. cbn. intuition congruence.
    + now rewrite updn_ne by auto.
  - intros i H. destruct (Nat.eq_dec i m) as [->|N]; [exact Hm|].
    rewrite updn_ne in H by auto. now apply (o_nm _ I).
  - intro i. destruct (Nat.eq_dec i m) as [->|N]; [rewrite updn_eq; now split|].
    rewrite updn_ne by auto. apply (o_ok _ I).
  - intros i i' N Hi Hi'.
    destruct (Nat.eq_dec i m) as [->|Ni]; [rewrite updn_eq in Hi; discriminate|].
    destruct (Nat.eq_dec i' m) as [->|Ni']; [rewrite updn_eq in Hi'; discriminate|].
    rewrite updn_ne in Hi, Hi' by auto. rewrite !tx_range_other by auto. now apply (o_disj _ I).
Qed.
Lemma issue_wb_B s m r c k :
  InvO s -> InvB s -> busy (s_pc s m) = false -> InvB (issue_wb s m r c k).
Proof.
  intros I HB B w Hw. unfold issue_wb in *. cbn in Hw. destruct (Nat.eq_dec w m) as [->|N].
  - rewrite updn_eq in Hw. discriminate.
  - rewrite updn_ne in Hw by auto. destruct (HB w Hw) as (j & Hj & Hov).
    assert (j <> m). { intro. subst. apply (o_on _ I) in Hj. congruence. }
    exists j. cbn. split; [apply in_or_app; now left|]. now rewrite !tx_range_other by auto.
Qed.

(** ** Leaving *)
Lemma restart_one_O g s w : InvO s -> InvO (restart_one f g s w).
Proof.
  intro I. unfold restart_one. destruct (andb _ _) eqn:C; [|exact I].
  destruct (s_pc s w) eqn:E; try exact I.
  apply andb_prop in C as [_ C]. apply negb_true_iff in C.
  pose proof (o_ok _ I w) as K. rewrite E in K. destruct K as [K1 K2].
  apply enter_O; auto.
  - now rewrite E.
  - apply (o_nm _ I). now rewrite E.
  - unfold tx_range in C. now rewrite E in C.
  - intro i. rewrite in_drop, (o_wait _ I). tauto.
Qed.
Lemma tx_range_woken g s w i :
  tx_range f (restart_one f g s w) i = tx_range f s i.
Proof.
  pose proof (restart_one_pc f g s w i) as H. unfold tx_range. rewrite restart_one_cache.
  destruct H as [->|(r & k & -> & ->)]; reflexivity.
Qed.

Lemma restarts_B g l s :
  InvO s ->
  (forall w, waits (s_pc s w) = true ->
     blocked s w \/ (In w l /\ overlaps g (tx_range f s w) = true)) ->
  InvO (fold_left (restart_one f g) l s) /\ InvB (fold_left (restart_one f g) l s).
Proof.
  revert s. induction l as [|w l IH]; intros s I H; cbn [fold_left].
  - split; [exact I|]. intros w Hw. destruct (H w Hw) as [B|[[] _]]. exact B.
  - apply IH; [now apply restart_one_O|].
    intros i Hi. unfold restart_one in Hi |- *. destruct (andb _ _) eqn:C.
    + destruct (s_pc s w) eqn:E;
        try (destruct (H i Hi) as [B|[[->|L] O]]; [now left|rewrite E in Hi; discriminate|right; now split]).
      assert (Ni : i <> w). { intro. subst. cbn in Hi. rewrite updn_eq in Hi. discriminate. }
      rewrite tx_range_other by exact Ni.
      apply (enter_B s w r k _ (fun i => In i l /\ overlaps g (tx_range f s i) = true)); auto; [|now rewrite E].
      intros j Nj Hj. destruct (H j Hj) as [B|[[->|L] O]]; [now left|congruence|right; now split].
    + destruct (H i Hi) as [B|[[->|L] O]]; [now left| |right; now split].
      left. rewrite O in C. cbn in C. apply negb_false_iff in C.
      now apply is_overlapping_blocked.
Qed.

Lemma leave_OB s m r :
  InvO s -> InvB s -> busy (s_pc s m) = true -> run_ok r -> 
  InvO (tx_leave f s m r) /\ InvB (tx_leave f s m r).
Proof.
  intros I HB B Hr. unfold tx_leave. apply restarts_B.
  - constructor; cbn.
    + intro i. rewrite in_drop, (o_on _ I). destruct (Nat.eq_dec i m) as [->|N].
      * rewrite updn_eq. cbn. intuition congruence.
      * rewrite updn_ne by auto. tauto.
    + intro i. rewrite (o_wait _ I). destruct (Nat.eq_dec i m) as [->|N].
      * rewrite updn_eq. cbn. destruct (s_pc s m); cbn in *; intuition congruence.
      * now rewrite updn_ne by auto.
    + intros i H. destruct (Nat.eq_dec i m) as [->|N].
      * apply (o_nm _ I). destruct (s_pc s m); cbn in *; congruence.
      * rewrite updn_ne in H by auto. now apply (o_nm _ I).
    + intro i. destruct (Nat.eq_dec i m) as [->|N]; [now rewrite updn_eq|].
      rewrite updn_ne by auto. apply (o_ok _ I).
    + intros i i' N Hi Hi'.
      destruct (Nat.eq_dec i m) as [->|Ni]; [rewrite updn_eq in Hi; discriminate|].
      destruct (Nat.eq_dec i' m) as [->|Ni']; [rewrite updn_eq in Hi'; discriminate|].
      rewrite updn_ne in Hi, Hi' by auto. rewrite !tx_range_other by auto. now apply (o_disj _ I).
  - intros w Hw. cbn in Hw.
    destruct (Nat.eq_dec w m) as [->|N]; [rewrite updn_eq in Hw; discriminate|].
    rewrite updn_ne in Hw by auto.
    destruct (HB w Hw) as (j & Hj & Ho). destruct (Nat.eq_dec j m) as [->|Nj].
    + right. split; [now apply (o_wait _ I)|]. rewrite tx_range_other by auto.
      rewrite overlaps_sym; [exact Ho| |]; apply tx_range_pos; auto using (o_ok _ I).
    + left. exists j. cbn. split; [rewrite in_drop; now split|]. now rewrite !tx_range_other by auto.
Qed.

(** ** Steps *)
Definition tags_same (c c' : cache) : Prop := forall i, l_tag (c_line c' i) = l_tag (c_line c i).
Lemma tags_refl c : tags_same c c.
Proof. intro i. reflexivity. Qed.
Lemma tags_put c a l : l_tag l = l_tag (get_line f c a) -> tags_same c (put_line f c a l).
Proof.
  intros E i. unfold put_line, set_line, get_line in *. cbn. unfold updN.
  destruct (N.eqb_spec i (slot f a)); [subst; exact E|reflexivity].
Qed.
Lemma tags_mon_reset c c' a : tags_same c c' -> tags_same c (mon_reset c' a).
Proof. intros H i. apply H. Qed.

Lemma snoop_tags q c a sec : tags_same c (fst (handle_snoop f q c a sec)).
Proof.
  unfold handle_snoop. destruct (in_cache f c a sec); [|apply tags_refl].
  destruct q; cbn [fst]; try apply tags_mon_reset; apply tags_put; reflexivity.
Qed.

Lemma range_same s s' i :
  (s_pc s' i = s_pc s i \/ active (s_pc s i) = true /\ tx_range f s' i = tx_range f s i) ->
  tags_same (s_cache s i) (s_cache s' i) -> tx_range f s' i = tx_range f s i.
Proof.
  intros [E|[_ E]] T; [|exact E]. unfold tx_range. rewrite E.
  destruct (s_pc s i); try reflexivity; unfold get_line; now rewrite T.
Qed.

(** changing only caches, keeping the tags *)
Lemma cache_to_OB s m c :
  tags_same (s_cache s m) c -> InvO s -> InvB s -> InvO (cache_to s m c) /\ InvB (cache_to s m c).
Proof.
  intros T I B.
  assert (R : forall i, tx_range f (cache_to s m c) i = tx_range f s i).
  { intro i. apply range_same; [now left|]. cbn. destruct (Nat.eq_dec i m) as [->|N];
      [now rewrite updn_eq|rewrite updn_ne by auto; apply tags_refl]. }
  split.
  - apply (InvO_same s); auto; try (intro; repeat split; reflexivity); intros; cbn;
      [now apply (o_nm _ I)|apply (o_ok _ I)].
  - apply (InvB_same s); auto; intro; repeat split; reflexivity.
Qed.
(** changing memory or the monitor *)
Lemma st_mem_OB s w : InvO s -> InvB s -> InvO (st_mem s w) /\ InvB (st_mem s w).
Proof.
  intros I B. split.
  - apply (InvO_same s); auto; try (intro; repeat split; reflexivity); intros; cbn;
      [now apply (o_nm _ I)|apply (o_ok _ I)].
  - apply (InvB_same s); auto; intro; repeat split; reflexivity.
Qed.
Lemma st_pos_OB s p l : InvO s -> InvB s -> InvO (st_pos s p l) /\ InvB (st_pos s p l).
Proof.
  intros I B. split.
  - apply (InvO_same s); auto; try (intro; repeat split; reflexivity); intros; cbn;
      [now apply (o_nm _ I)|apply (o_ok _ I)].
  - apply (InvB_same s); auto; intro; repeat split; reflexivity.
Qed.
(** moving one process on within the same transaction, or outside any *)
Lemma goto_OB s m p :
  alike (s_pc s m) p -> (idle p = false -> idle (s_pc s m) = false \/ (m < f_nm f)%nat) -> pc_ok m p ->
  (busy (s_pc s m) = true \/ waits (s_pc s m) = true -> tx_range f (goto s m p) m = tx_range f s m) ->
  InvO s -> InvB s -> InvO (goto s m p) /\ InvB (goto s m p).
Proof.
  intros A Hi Hp Hr I B.
  assert (R : forall i, busy (s_pc s i) = true \/ waits (s_pc s i) = true ->
     tx_range f (goto s m p) i = tx_range f s i).
  { intros i H. destruct (Nat.eq_dec i m) as [->|N]; [auto|].
    unfold tx_range, goto. cbn. now rewrite updn_ne by auto. }
  assert (A' : forall i, alike (s_pc s i) (s_pc (goto s m p) i)).
  { intro i. cbn. destruct (Nat.eq_dec i m) as [->|N]; [now rewrite updn_eq|rewrite updn_ne by auto].
    repeat split. }
  split.
  - apply (InvO_same s); auto; intros i; cbn; destruct (Nat.eq_dec i m) as [->|N].
    + rewrite updn_eq. intro H. destruct (Hi H) as [H'|H']; [now apply (o_nm _ I)|exact H'].
    + rewrite updn_ne by auto. apply (o_nm _ I).
    + now rewrite updn_eq.
    + rewrite updn_ne by auto. apply (o_ok _ I).
  - apply (InvB_same s); auto.
Qed.

Lemma fill_OB s m r k :
  InvO s -> InvB s -> busy (s_pc s m) = false -> waits (s_pc s m) = false -> (m < f_nm f)%nat ->
  run_ok r -> kind_ok m r k -> InvO (fill f s m r k) /\ InvB (fill f s m r k).
Proof.
  intros I B Hb Hw Hm Hr Hk. unfold fill.
  destruct (l_valid _); [destruct (l_dirty _)|].
  - destruct (cache_to_OB s m (mkCache (c_line (s_cache s m)) (negb (c_toggle (s_cache s m)))
      (c_mon (s_cache s m)))) as [I1 B1]; auto; [intro; reflexivity|].
    split; [apply issue_wb_O|apply issue_wb_B]; auto.
  - destruct (cache_to_OB s m (put_line f (s_cache s m) (cur_addr r)
      (set_valid (get_line f (s_cache s m) (cur_addr r)) false))) as [I1 B1]; auto;
      [apply tags_put; reflexivity|].
    split; [apply issue_O|apply issue_B]; auto.
  - split; [apply issue_O|apply issue_B]; auto.
Qed.

Definition label_ok (P : nat -> op -> Prop) (lb : label) : Prop :=
  match lb with L_Start m o => P m o | _ => True end.

Lemma head_goto_OB s m r r' :
  s_pc s m = Head r -> run_ok r' -> InvO s -> InvB s ->
  InvO (goto s m (Head r')) /\ InvB (goto s m (Head r')).
Proof.
  intros E Hr I B. apply goto_OB; auto; rewrite E.
  - repeat split.
  - now left.
  - cbn. intros [H|H]; discriminate.
Qed.
Lemma head_idle_OB s m r :
  s_pc s m = Head r -> InvO s -> InvB s -> InvO (goto s m Idle) /\ InvB (goto s m Idle).
Proof.
  intros E I B. apply goto_OB; auto; try rewrite E; cbn; auto.
  - repeat split.
  - intros [H|H]; discriminate.
Qed.

Lemma run_ok_advance r l : o_kind (r_op r) = O_Load \/ o_kind (r_op r) = O_Store ->
  run_ok r -> run_ok (advance f r l).
Proof. intros K [H1 H2]. split; [exact H1|]. cbn. destruct K as [-> | ->]; exact Logic.I. Qed.

Lemma store_here_OB s m r :
  s_pc s m = Head r -> run_ok r -> o_kind (r_op r) = O_Store -> InvO s -> InvB s ->
  InvO (fst (store_here f s m r)) /\ InvB (fst (store_here f s m r)).
Proof.
  intros E Hr K I B. unfold store_here. cbn [fst].
  match goal with |- InvO (goto (cache_to s m ?c) _ _) /\ _ => set (c2 := c) end.
  assert (T : tags_same (s_cache s m) c2).
  { unfold c2. destruct (o_excl _); [apply tags_mon_reset|]; apply tags_put; reflexivity. }
  destruct (cache_to_OB s m c2 T I B) as [I1 B1].
  apply head_goto_OB with r; auto. apply run_ok_advance; auto.
Qed.

Lemma local_OB s m r :
  s_pc s m = Head r -> InvO s -> InvB s ->
  InvO (fst (local f s m r)) /\ InvB (fst (local f s m r)).
Proof.
  intros E I B.
  assert (Hr : run_ok r) by (pose proof (o_ok _ I m) as H; rewrite E in H; exact H).
  assert (Hm : (m < f_nm f)%nat) by (apply (o_nm _ I); now rewrite E).
  assert (Hb : busy (s_pc s m) = false) by now rewrite E.
  assert (Hw : waits (s_pc s m) = false) by now rewrite E.
  unfold local. destruct (o_kind (r_op r)) eqn:K.
  - destruct (N.leb_spec (o_len (r_op r)) (r_pos r)) as [|P]; [cbn [fst finish]; eapply head_idle_OB; eauto|].
    destruct (in_cache _ _ _ _).
    { cbn [fst]. apply head_goto_OB with r; auto. apply run_ok_advance; auto. }
    destruct (f_wt f m) eqn:W; [|destruct (o_excl _)]; cbn [fst].
    + apply fill_OB; auto. unfold kind_ok. rewrite K, W. auto.
    + apply fill_OB; auto. unfold kind_ok. rewrite K, W. auto.
    + match goal with |- InvO (fill f (cache_to s m ?c) _ _ _) /\ _ =>
        destruct (cache_to_OB s m c) as [I1 B1]; auto; [intro; reflexivity|] end.
      apply fill_OB; auto. unfold kind_ok. rewrite K, W.
      destruct (negb _); auto.
  - destruct (N.leb_spec (o_len (r_op r)) (r_pos r)) as [|P]; [cbn [fst finish]; eapply head_idle_OB; eauto|].
    destruct (f_wt f m) eqn:W.
    { cbn [fst].
      assert (Kk : kind_ok m r (if (seg_len f r =? cl) && no_sparse f r then K_WriteLineUnique else K_WriteUnique)).
      { unfold kind_ok. rewrite K, W. split; [exact P|].
        destruct (N.eqb_spec (seg_len f r) cl); cbn [andb]; [destruct (no_sparse f r)|]; auto. }
      split; [apply issue_O|apply issue_B]; auto. }
    destruct (_ && _) eqn:X; [cbn [fst finish]; eapply head_idle_OB; eauto|].
    destruct (in_cache _ _ _ _).
    { destruct (l_shared _) eqn:Sh; cbn [negb]; [|now apply store_here_OB]. cbn [fst].
      split; [apply issue_O|apply issue_B]; auto; unfold kind_ok; rewrite K, W; auto. }
    cbn [fst]. apply fill_OB; auto. unfold kind_ok. rewrite K, W. split; [exact P|].
    destruct (N.eqb_spec (seg_len f r) cl); auto.
  - destruct (_ && _); cbn [fst].
    + split; [apply issue_wb_O|apply issue_wb_B]; auto; unfold kind_ok; now rewrite K.
    + split; [apply issue_O|apply issue_B]; auto; unfold kind_ok; now rewrite K.
  - cbn [fst]. destruct (in_cache _ _ _ _).
    + match goal with |- InvO (issue f (cache_to s m ?c) _ _ _) /\ _ =>
        destruct (cache_to_OB s m c) as [I1 B1]; auto; [apply tags_put; reflexivity|] end.
      split; [apply issue_O|apply issue_B]; auto; unfold kind_ok; now rewrite K.
    + split; [apply issue_O|apply issue_B]; auto; unfold kind_ok; now rewrite K.
  - cbn [fst]. destruct (in_cache _ _ _ _).
    + match goal with |- InvO (issue f (cache_to s m ?c) _ _ _) /\ _ =>
        destruct (cache_to_OB s m c) as [I1 B1]; auto; [apply tags_put; reflexivity|] end.
      split; [apply issue_O|apply issue_B]; auto; unfold kind_ok; now rewrite K.
    + split; [apply issue_O|apply issue_B]; auto; unfold kind_ok; now rewrite K.
Qed.

(** moving on within an active transaction *)
Lemma active_goto_OB s m r k p :
  active (s_pc s m) = true -> active p = true ->
  run_ok r -> kind_ok m r k ->
  pc_ok m p -> (forall s0, s_pc s0 m = s_pc s m \/ s_pc s0 m = p -> tx_range f s0 m = range_of f r k) ->
  InvO s -> InvB s -> InvO (goto s m p) /\ InvB (goto s m p).
Proof.
  intros A Ap Hr Hk Hp R I B. apply goto_OB; auto.
  - destruct (s_pc s m), p; cbn in *; try discriminate; repeat split.
  - intros _. left. destruct (s_pc s m); cbn in *; congruence.
  - intros _. rewrite !R; auto. right. cbn. now rewrite updn_eq.
Qed.

Lemma step_OB s lb s' es :
  label_ok (fun _ => op_ok) lb -> step f s lb = Some (s', es) -> InvO s -> InvB s -> InvO s' /\ InvB s'.
Proof.
  intros L H I B. destruct lb as [m o|m|m|m j|m|m|m|]; cbn [label_ok] in L; cbn [step] in H.
  - destruct (s_pc s m) eqn:E; try discriminate. destruct (Nat.ltb_spec m (f_nm f)); [|discriminate].
    injection H as <- <-. apply goto_OB; auto; rewrite ?E.
    + repeat split.
    + split; [exact L|]. cbn. destruct (o_kind o); auto.
    + cbn. intros [X|X]; discriminate.
  - destruct (s_pc s m) eqn:E; try discriminate.
    assert (s' = fst (local f s m r)) as -> by (injection H as H; now rewrite H).
    now apply local_OB.
  - destruct (s_pc s m) eqn:E; try discriminate.
    assert (s' = engine f s m r k) as -> by congruence. clear H.
    pose proof (o_ok _ I m) as Hp. rewrite E in Hp. destruct Hp as [Hr Hk].
    assert (G : forall p l q, active q = true -> pc_ok m q ->
       (forall s0, s_pc s0 m = q -> tx_range f s0 m = range_of f r k) ->
       InvO (goto (st_pos s p l) m q) /\ InvB (goto (st_pos s p l) m q)).
    { intros p l q Aq Hq Rq. destruct (st_pos_OB s p l I B) as [I1 B1].
      apply active_goto_OB with r k; auto; [cbn; now rewrite E|].
      intros s0 [X|X]; [|auto]. unfold tx_range. rewrite X. cbn. now rewrite E. }
    assert (G' : forall ex, InvO (goto s m (Snooping r k (others f m) (tx0 ex))) /\
                            InvB (goto s m (Snooping r k (others f m) (tx0 ex)))).
    { intro ex. apply active_goto_OB with r k; auto; [now rewrite E|now split|].
      intros s0 [X|X]; unfold tx_range; rewrite X; [now rewrite E|reflexivity]. }
    unfold engine. destruct (o_excl _); [|apply G'].
    destruct k; try apply G'.
    + apply G; auto; [now split|]. intros s0 X. unfold tx_range. now rewrite X.
    + apply G; auto; [now split|]. intros s0 X. unfold tx_range. now rewrite X.
    + destruct (s_pos s m); (apply G; auto; [now split|]; intros s0 X; unfold tx_range; now rewrite X).
  - destruct (s_pc s m) eqn:E; try discriminate.
    destruct (_ && _) eqn:C; [|discriminate].
    destruct (handle_snoop _ _ _ _ _) as [c' p] eqn:Hs. injection H as <- <-.
    pose proof (snoop_tags (snoop_of k) (s_cache s j) (snoop_addr f r k) (o_sec (r_op r))) as T.
    rewrite Hs in T. cbn [fst] in T.
    destruct (cache_to_OB s j c' T I B) as [I1 B1].
    pose proof (o_ok _ I m) as Hp. rewrite E in Hp. destruct Hp as [Hr Hk].
    apply active_goto_OB with r k; auto; [cbn; now rewrite E|now split|].
    intros s0 [X|X]; unfold tx_range; rewrite X; [cbn; now rewrite E|reflexivity].
  - destruct (s_pc s m) eqn:E; try discriminate. destruct todo; [|discriminate].
    injection H as <- <-.
    pose proof (o_ok _ I m) as Hp. rewrite E in Hp. destruct Hp as [Hr Hk].
    destruct (x_ds x) eqn:Ex; (apply active_goto_OB with r k; auto; [now rewrite E| |]);
      try (split; [exact Hr|split; [exact Hk|congruence]]);
      intros s0 [X|X]; unfold tx_range; rewrite X; try (rewrite E); reflexivity.
  - unfold downstream in H. pose proof (o_ok _ I m) as Hp.
    destruct (s_pc s m) eqn:E; try discriminate.
    + destruct (x_ds x); [|discriminate]. injection H as <- <-. destruct Hp as (Hr & Hk & _).
      match goal with |- InvO (goto (st_mem s ?w) _ _) /\ _ => destruct (st_mem_OB s w I B) as [I1 B1] end.
      apply active_goto_OB with r k; auto; [cbn; now rewrite E|now split|].
      intros s0 [X|X]; unfold tx_range; rewrite X; [cbn; now rewrite E|reflexivity].
    + destruct Hp as (Hr & Hk & Hd).
      assert (G : forall w x', x_ds x' = None -> (is_read_snoop (snoop_of k) = true -> x_ok x' = true) ->
                    InvO (goto (st_mem s w) m (Finished r k x')) /\
                    InvB (goto (st_mem s w) m (Finished r k x'))).
      { intros w x' D X. destruct (st_mem_OB s w I B) as [I1 B1].
        apply active_goto_OB with r k; auto; [cbn; now rewrite E|cbn; auto|].
        intros s0 [Y|Y]; unfold tx_range; rewrite Y; [cbn; now rewrite E|reflexivity]. }
      assert (G' : forall x', x_ds x' = None -> (is_read_snoop (snoop_of k) = true -> x_ok x' = true) ->
                    InvO (goto s m (Finished r k x')) /\ InvB (goto s m (Finished r k x'))).
      { intros x' D X. apply active_goto_OB with r k; auto; [now rewrite E|cbn; auto|].
        intros s0 [Y|Y]; unfold tx_range; rewrite Y; [now rewrite E|reflexivity]. }
      destruct (x_ok x) eqn:Ok; [injection H as <- <-; apply G'; auto|].
      destruct k; injection H as <- <-; (apply G || apply G'); auto; discriminate.
    + injection H as <- <-. destruct Hp as [Hr Hk].
      match goal with |- InvO (goto (st_mem s ?w) _ _) /\ _ => destruct (st_mem_OB s w I B) as [I1 B1] end.
      apply goto_OB; auto; cbn; try rewrite E; cbn; auto; [repeat split|].
      intros _. unfold tx_range. cbn. now rewrite updn_eq, E.
  - unfold complete in H. pose proof (o_ok _ I m) as Hp.
    assert (Hm : idle (s_pc s m) = false -> (m < f_nm f)%nat) by apply (o_nm _ I).
    destruct (s_pc s m) eqn:E; try discriminate.
    + destruct Hp as (Hr & Hk & _).
      destruct (leave_OB s m r I B) as [I1 B1]; [now rewrite E|exact Hr|].
      pose proof (leave_pc_own f s m r) as Ep. set (t := tx_leave f s m r) in *.
      assert (G : forall c r', run_ok r' -> InvO (goto (cache_to t m c) m (Head r')) /\ InvB (goto (cache_to t m c) m (Head r'))).
      { intros c r' Hr'. 
        assert (R : forall i, busy (s_pc t i) = true \/ waits (s_pc t i) = true ->
            tx_range f (goto (cache_to t m c) m (Head r')) i = tx_range f t i).
        { intros i Hi. assert (i <> m) by (intro; subst; rewrite Ep in Hi; destruct Hi; discriminate).
          unfold tx_range. cbn. now rewrite !updn_ne by auto. }
        assert (A : forall i, alike (s_pc t i) (s_pc (goto (cache_to t m c) m (Head r')) i)).
        { intro i. cbn. destruct (Nat.eq_dec i m) as [->|N]; [rewrite updn_eq, Ep|rewrite updn_ne by auto]; repeat split. }
        split.
        - apply (InvO_same t); auto; intros i; cbn; (destruct (Nat.eq_dec i m) as [->|N];
            [rewrite updn_eq|rewrite updn_ne by auto]); auto; [apply (o_nm _ I1)|apply (o_ok _ I1)].
        - apply (InvB_same t); auto. }
      assert (Gi : forall c, InvO (goto (cache_to t m c) m Idle) /\ InvB (goto (cache_to t m c) m Idle)).
      { intros c.
        assert (R : forall i, busy (s_pc t i) = true \/ waits (s_pc t i) = true ->
            tx_range f (goto (cache_to t m c) m Idle) i = tx_range f t i).
        { intros i Hi. assert (i <> m) by (intro; subst; rewrite Ep in Hi; destruct Hi; discriminate).
          unfold tx_range. cbn. now rewrite !updn_ne by auto. }
        assert (A : forall i, alike (s_pc t i) (s_pc (goto (cache_to t m c) m Idle) i)).
        { intro i. cbn. destruct (Nat.eq_dec i m) as [->|N]; [rewrite updn_eq, Ep|rewrite updn_ne by auto]; repeat split. }
        split.
        - apply (InvO_same t); auto; intros i; cbn; (destruct (Nat.eq_dec i m) as [->|N];
            [rewrite updn_eq|rewrite updn_ne by auto]); cbn; auto; try discriminate; [apply (o_nm _ I1)|apply (o_ok _ I1)].
        - apply (InvB_same t); auto. }
      destruct k.
      1-4: destruct (o_kind (r_op r)) eqn:K; [destruct (_ && _)| | | |];
           injection H as <- <-; apply G; try exact Hr.
      * destruct (o_excl (r_op r)); [destruct (l_valid _ && x_ex x)|]; injection H as <- <-; auto.
      * assert (K : o_kind (r_op r) = O_Store).
        { unfold kind_ok in Hk. destruct (o_kind (r_op r)); try congruence; try discriminate.
          destruct Hk as [_ Hk]. destruct (f_wt f m); [congruence|destruct Hk; congruence]. }
        destruct (o_excl (r_op r) && _).
        { injection H as <- <-. auto. }
        injection H as <- <-. cbn.
        assert (X : forall c c' r', run_ok r' ->
           InvO (goto (cache_to (cache_to t m c) m c') m (Head r')) /\
           InvB (goto (cache_to (cache_to t m c) m c') m (Head r'))).
        { intros c c' r' Hr'.
          assert (R : forall i, busy (s_pc t i) = true \/ waits (s_pc t i) = true ->
            tx_range f (goto (cache_to (cache_to t m c) m c') m (Head r')) i = tx_range f t i).
          { intros i Hi. assert (i <> m) by (intro; subst; rewrite Ep in Hi; destruct Hi; discriminate).
            unfold tx_range. cbn. now rewrite !updn_ne by auto. }
          assert (A : forall i, alike (s_pc t i) (s_pc (goto (cache_to (cache_to t m c) m c') m (Head r')) i)).
          { intro i. cbn. destruct (Nat.eq_dec i m) as [->|N]; [rewrite updn_eq, Ep|rewrite updn_ne by auto]; repeat split. }
          split.
          - apply (InvO_same t); auto; intros i; cbn; (destruct (Nat.eq_dec i m) as [->|N];
            [rewrite updn_eq|rewrite updn_ne by auto]); auto; [apply (o_nm _ I1)|apply (o_ok _ I1)].
          - apply (InvB_same t); auto. }
        apply X. apply run_ok_advance; auto.
      * injection H as <- <-. apply G. apply run_ok_advance; auto.
        unfold kind_ok in Hk. destruct (o_kind (r_op r)); auto; discriminate.
      * injection H as <- <-. apply G. apply run_ok_advance; auto.
        unfold kind_ok in Hk. destruct (o_kind (r_op r)); auto; discriminate.
      * injection H as <- <-. eapply head_idle_OB; eauto.
      * injection H as <- <-. eapply head_idle_OB; eauto.
      * injection H as <- <-. eapply head_idle_OB; eauto.
    + injection H as <- <-. destruct Hp as [Hr Hk].
      destruct (leave_OB s m r I B) as [I1 B1]; [now rewrite E|exact Hr|].
      pose proof (leave_pc_own f s m r) as Ep. set (t := tx_leave f s m r) in *.
      match goal with |- InvO (issue f (cache_to t m ?c) _ _ _) /\ _ =>
        destruct (cache_to_OB t m c) as [I2 B2]; auto; [apply tags_put; destruct next, clean; reflexivity|] end.
      split; [apply issue_O|apply issue_B]; auto; cbn; rewrite Ep; auto.
  - injection H as <- <-. now apply st_pos_OB.
Qed.

Lemma init_OB w d : InvO (init w d) /\ InvB (init w d).
Proof.
  split; [constructor; cbn; intros; try tauto; try discriminate; split; intros; try contradiction; discriminate|].
  intros i Hi. discriminate.
Qed.

Lemma exec_OB ls s s' es :
  Forall (label_ok (fun _ => op_ok)) ls -> exec f s ls = Some (s', es) -> InvO s -> InvB s -> InvO s' /\ InvB s'.
Proof.
  revert s es. induction ls as [|lb ls IH]; intros s es L H I B; cbn in H.
  - injection H as <- <-. auto.
  - inversion L as [|? ? L1 L2]; subst. destruct (step f s lb) as [[s1 e1]|] eqn:E; [|discriminate].
    destruct (exec f s1 ls) as [[s2 e2]|] eqn:E2; [|discriminate]. injection H as <- <-.
    destruct (step_OB s lb s1 e1 L1 E I B) as [I1 B1]. now apply (IH s1 e2).
Qed.

(** ** No deadlock *)
(** a step of the system itself, not a new request and not the lock timer *)
Definition works (lb : label) : bool :=
  match lb with L_Start _ _ | L_Unlock => false | _ => true end.

Lemma busy_enabled s m :
  InvO s -> busy (s_pc s m) = true -> exists lb s' es, step f s lb = Some (s', es) /\ works lb = true.
Proof.
  intros I B. pose proof (o_ok _ I m) as K.
  destruct (s_pc s m) eqn:E; try discriminate.
  - exists (L_Engine m). cbn. rewrite E. do 2 eexists. split; reflexivity.
  - destruct todo as [|j todo].
    + exists (L_SnoopDone m). cbn. rewrite E. do 2 eexists. split; reflexivity.
    + destruct (writing (s_pc s j)) eqn:W.
      * destruct (s_pc s j) eqn:Ej; try discriminate.
        -- exists (L_Ds j). cbn. unfold downstream. rewrite Ej. do 2 eexists. split; reflexivity.
        -- exists (L_Complete j). cbn. unfold complete. rewrite Ej. do 2 eexists. split; reflexivity.
      * exists (L_Snoop m j). cbn [step]. rewrite E, W. cbn [existsb]. rewrite Nat.eqb_refl. cbn [orb negb andb].
        destruct (handle_snoop _ _ _ _ _). do 2 eexists. split; reflexivity.
  - destruct K as (_ & _ & K). exists (L_Ds m). cbn. unfold downstream. rewrite E.
    destruct (x_ds x); [|congruence]. do 2 eexists. split; reflexivity.
  - exists (L_Ds m). cbn [step]. unfold downstream. rewrite E.
    destruct (x_ok x); [|destruct k]; do 2 eexists; split; reflexivity.
  - exists (L_Complete m). cbn [step]. unfold complete. rewrite E.
    destruct k; try (do 2 eexists; split; reflexivity).
    1-4: destruct (o_kind (r_op r)); [destruct (_ && _)| | | |]; do 2 eexists; split; reflexivity.
    + destruct (o_excl (r_op r)); [destruct (l_valid _ && x_ex x)|]; unfold finish;
        do 2 eexists; split; reflexivity.
    + destruct (o_excl (r_op r) && _); unfold finish, store_here; do 2 eexists; split; reflexivity.
  - exists (L_Ds m). cbn [step]. unfold downstream. rewrite E. do 2 eexists; split; reflexivity.
  - exists (L_Complete m). cbn [step]. unfold complete. rewrite E. do 2 eexists; split; reflexivity.
Qed.
Lemma live_enabled s m :
  InvO s -> InvB s -> s_pc s m <> Idle -> exists lb s' es, step f s lb = Some (s', es) /\ works lb = true.
Proof.
  intros I B Hm. destruct (busy (s_pc s m)) eqn:Bm; [eapply busy_enabled; eauto|].
  destruct (s_pc s m) eqn:E; try discriminate; try congruence.
  - exists (L_Local m). cbn [step]. rewrite E. destruct (local f s m r) as [s' es].
    do 2 eexists; split; reflexivity.
  - destruct (B m) as (j & Hj & _); [now rewrite E|]. apply (o_on _ I) in Hj.
    eapply busy_enabled; eauto.
Qed.

End Order.
