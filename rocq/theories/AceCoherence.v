(** The structural coherence invariant: a unique line has one holder, a dirty
    line one owner, and what a transaction has learnt from the caches it has
    already snooped stays true until it completes. *)
From Verif Require Import Base TlmModel TlmSpec AceSpec AceModel AceFacts AceOrder.
Open Scope N_scope.

(** What a process is doing, as far as lines are concerned. *)
Inductive view :=
| V_none
| V_pend (r : run) (k : kind)
| V_tx (r : run) (k : kind) (todo : list nat) (x : txst) (fin : bool)
| V_wb (r : run) (next : kind) (fin : bool).
Definition vw (p : pc) : view :=
  match p with
  | Idle | Head _ => V_none
  | Wait r k | Entered r k => V_pend r k
  | Snooping r k todo x => V_tx r k todo x false
  | DsWrite r k x | Final r k x => V_tx r k [] x false
  | Finished r k x => V_tx r k [] x true
  | Wb r _ next => V_wb r next false
  | WbDone r _ next => V_wb r next true
  end.
Definition is_wb (v : view) : bool := match v with V_wb _ _ _ => true | _ => false end.

Lemma vw_woken p p' : woken p p' -> vw p' = vw p.
Proof. intros [->|(r & k & -> & ->)]; reflexivity. Qed.
Lemma vw_writing p : is_wb (vw p) = writing p.
Proof. destruct p; reflexivity. Qed.

Definition fills (k : kind) : bool :=
  match k with K_ReadShared | K_ReadNSD | K_ReadUnique | K_ReadClean | K_MakeUnique => true | _ => false end.
Definition sharing (k : kind) : bool :=
  match k with K_ReadShared | K_ReadNSD | K_ReadClean | K_CleanShared => true | _ => false end.
Definition reads (k : kind) : bool := is_read_snoop (snoop_of k).

Section Coh.
Context (f : cfg).
Notation cl := (cl f).
Notation index := (index f).

Definition tl (r : run) : N := align f (cur_addr r).
Definition sc (r : run) : bool := o_sec (r_op r).

Implicit Types L : nat -> N -> line.
Implicit Types V : nat -> view.

Definition holds L (j : nat) (sec : bool) (t : N) : Prop := line_is (L j (index t)) t sec = true.

Lemma holds_iff L j sec t :
  holds L j sec t <-> l_valid (L j (index t)) = true /\ l_tag (L j (index t)) = t /\ l_sec (L j (index t)) = sec.
Proof.
  unfold holds, line_is. rewrite !andb_true_iff, N.eqb_eq, Bool.eqb_true_iff. tauto.
Qed.

Record base L : Prop := {
  b_nm : forall j i, (f_nm f <= j)%nat -> l_valid (L j i) = false;
  b_tag : forall j i, l_valid (L j i) = true ->
            index (l_tag (L j i)) = i /\ align f (l_tag (L j i)) = l_tag (L j i);
  b_sw : forall i j sec t, i <> j -> holds L i sec t -> holds L j sec t ->
           l_shared (L i (index t)) = true /\
           (l_dirty (L i (index t)) = true -> l_dirty (L j (index t)) = false) }.

Definition pend_ok L (m : nat) (r : run) (k : kind) : Prop :=
  let l := L m (index (tl r)) in
  (fills k = true -> l_valid l = false) /\
  (k = K_CleanUnique -> l_tag l = tl r /\ l_sec l = sc r).

Record tx_ok L (m : nat) (r : run) (k : kind) (todo : list nat) (x : txst) : Prop := {
  t_share : forall j, j <> m -> ~ In j todo -> holds L j (sc r) (tl r) ->
              sharing k = true /\ l_shared (L j (index (tl r))) = true /\ x_shared x = true;
  t_dirty : x_dirty x = true ->
              x_data x <> None /\ pass_dirty k = true /\
              (forall j, j <> m -> holds L j (sc r) (tl r) -> l_dirty (L j (index (tl r))) = false);
  t_data : x_data x <> None \/ x_ds x <> None ->
              forall j, j <> m -> holds L j (sc r) (tl r) -> l_shared (L j (index (tl r))) = true;
  t_none : reads k = true -> x_data x = None ->
              forall j, j <> m -> ~ In j todo -> ~ holds L j (sc r) (tl r);
  t_ok : reads k = true -> (x_ok x = true <-> x_data x <> None) }.

Definition view_ok L (m : nat) (v : view) : Prop :=
  match v with
  | V_none => True
  | V_pend r k => pend_ok L m r k
  | V_tx r k todo x _ => pend_ok L m r k /\ tx_ok L m r k todo x
  | V_wb r next _ =>
    let l := L m (index (tl r)) in
    l_valid l = true /\ l_dirty l = true /\
    (fills next = true \/ next = K_CleanShared /\ l_tag l = tl r /\ l_sec l = sc r)
  end.

Definition InvC L V : Prop := base L /\ forall m, view_ok L m (V m).

(** ** Lines only get weaker *)
Definition line_le (l' l : line) : Prop :=
  l_tag l' = l_tag l /\ l_sec l' = l_sec l /\
  (l_valid l' = true -> l_valid l = true /\
     (l_shared l = true -> l_shared l' = true) /\ (l_dirty l' = true -> l_dirty l = true)).
Lemma line_le_refl l : line_le l l.
Proof. repeat split; auto. Qed.

Lemma holds_le L L' j sec t :
  (forall i, line_le (L' j i) (L j i)) -> holds L' j sec t -> holds L j sec t.
Proof.
  intros E. rewrite !holds_iff. destruct (E (index t)) as (E1 & E2 & E3). rewrite E1, E2.
  intros (H & ? & ?). split; [now apply E3|auto].
Qed.
Lemma holds_le_valid L L' j sec t :
  (forall i, line_le (L' j i) (L j i)) -> holds L' j sec t ->
  (l_shared (L j (index t)) = true -> l_shared (L' j (index t)) = true) /\
  (l_dirty (L' j (index t)) = true -> l_dirty (L j (index t)) = true).
Proof.
  intros E H. apply holds_iff in H as (H & _). destruct (E (index t)) as (_ & _ & E3). now apply E3.
Qed.

Section Shrink.
Context (L L' : nat -> N -> line) (E : forall j i, line_le (L' j i) (L j i)).

Lemma base_shrink : base L -> base L'.
Proof.
  intros B. constructor.
  - intros j i Hj. destruct (l_valid (L' j i)) eqn:V; [|reflexivity].
    destruct (E j i) as (_ & _ & E3). destruct (E3 V) as (V' & _). now rewrite (b_nm _ B) in V'.
  - intros j i V. destruct (E j i) as (E1 & _ & E3). destruct (E3 V) as (V' & _).
    rewrite E1. now apply (b_tag _ B).
  - intros i j sec t N Hi Hj.
    pose proof (holds_le _ _ i sec t (E i) Hi) as Hi'. pose proof (holds_le _ _ j sec t (E j) Hj) as Hj'.
    destruct (b_sw _ B i j sec t N Hi' Hj') as [S D].
    destruct (holds_le_valid _ _ i sec t (E i) Hi) as [S1 D1].
    destruct (holds_le_valid _ _ j sec t (E j) Hj) as [S2 D2].
    split; [auto|]. intro H. destruct (l_dirty (L' j (index t))) eqn:Dj; [|reflexivity].
    rewrite (D (D1 H)) in D2. symmetry. now apply D2.
Qed.
Lemma pend_shrink m r k : pend_ok L m r k -> pend_ok L' m r k.
Proof.
  intros [P1 P2]. destruct (E m (index (tl r))) as (E1 & E2 & E3). split.
  - intro H. destruct (l_valid (L' m (index (tl r)))) eqn:V; [|reflexivity].
    destruct (E3 eq_refl) as (V' & _). now rewrite (P1 H) in V'.
  - intro H. rewrite E1, E2. auto.
Qed.
Lemma tx_shrink m r k todo x : tx_ok L m r k todo x -> tx_ok L' m r k todo x.
Proof.
  intros T. constructor.
  - intros j N1 N2 H. pose proof (holds_le _ _ j _ _ (E j) H) as H'.
    destruct (t_share _ _ _ _ _ _ T j N1 N2 H') as (S1 & S2 & S3).
    destruct (holds_le_valid _ _ j _ _ (E j) H) as [X _]. auto.
  - intros D. destruct (t_dirty _ _ _ _ _ _ T D) as (D1 & D2 & D3). split; [auto|]. split; [auto|].
    intros j N H. pose proof (holds_le _ _ j _ _ (E j) H) as H'.
    destruct (holds_le_valid _ _ j _ _ (E j) H) as [_ X].
    destruct (l_dirty (L' j _)) eqn:Dj; [|reflexivity]. rewrite (D3 j N H') in X. symmetry. now apply X.
  - intros D j N H. pose proof (holds_le _ _ j _ _ (E j) H) as H'.
    destruct (holds_le_valid _ _ j _ _ (E j) H) as [X _]. apply X. now apply (t_data _ _ _ _ _ _ T).
  - intros R D j N1 N2 H. apply (t_none _ _ _ _ _ _ T R D j N1 N2). eapply holds_le; eauto.
  - apply (t_ok _ _ _ _ _ _ T).
Qed.
Lemma view_shrink m v :
  (is_wb v = true -> forall i, L' m i = L m i) -> view_ok L m v -> view_ok L' m v.
Proof.
  intros W. destruct v; cbn; auto using pend_shrink.
  - intros [P T]. auto using pend_shrink, tx_shrink.
  - rewrite !(W eq_refl). auto.
Qed.
Lemma InvC_shrink V :
  (forall j, is_wb (V j) = true -> forall i, L' j i = L j i) -> InvC L V -> InvC L' V.
Proof. intros W [B H]. split; [now apply base_shrink|]. intro m. apply view_shrink; auto. Qed.
End Shrink.

Lemma InvC_ext L L' V V' :
  (forall j i, L' j i = L j i) -> (forall j, V' j = V j) -> InvC L V -> InvC L' V'.
Proof.
  intros EL EV I.
  assert (I1 : InvC L' V) by (eapply InvC_shrink; [|intros; apply EL|exact I]; intros; rewrite EL; apply line_le_refl).
  destruct I1 as [B H]. split; [exact B|]. intro m. rewrite EV. apply H.
Qed.
Lemma InvC_view L V m v : InvC L V -> view_ok L m v -> InvC L (updn V m v).
Proof.
  intros [B H] Hv. split; [exact B|]. intro i. destruct (Nat.eq_dec i m) as [->|N].
  - now rewrite updn_eq.
  - rewrite updn_ne by auto. apply H.
Qed.

(** ** One line becomes stronger *)
Definition upd2 L (m : nat) (i : N) (l : line) : nat -> N -> line := updn L m (updN (L m) i l).
Lemma upd2_eq L m i l : upd2 L m i l m i = l.
Proof. unfold upd2. now rewrite updn_eq, updN_eq. Qed.
Lemma upd2_ne L m i l j i' : j <> m \/ i' <> i -> upd2 L m i l j i' = L j i'.
Proof.
  unfold upd2. intros H. destruct (Nat.eq_dec j m) as [->|N].
  - rewrite updn_eq, updN_ne by (destruct H; congruence). reflexivity.
  - now rewrite updn_ne by auto.
Qed.
Lemma upd2_le L m i l :
  line_le l (L m i) -> forall j i', line_le (upd2 L m i l j i') (L j i').
Proof.
  intros H j i'. destruct (Nat.eq_dec j m) as [->|N]; [destruct (N.eq_dec i' i) as [->|Ni]|].
  - now rewrite upd2_eq.
  - rewrite upd2_ne by auto. apply line_le_refl.
  - rewrite upd2_ne by auto. apply line_le_refl.
Qed.

(** the holders of any line after an update *)
Lemma holds_upd L m i l j sec t :
  holds (upd2 L m i l) j sec t ->
  (j = m /\ index t = i /\ l_valid l = true /\ l_tag l = t /\ l_sec l = sec) \/
  ((j <> m \/ index t <> i) /\ holds L j sec t).
Proof.
  intro H. destruct (Nat.eq_dec j m) as [->|N]; [destruct (N.eq_dec (index t) i) as [Ei|Ni]|].
  - left. rewrite holds_iff, Ei, upd2_eq in H. tauto.
  - right. split; [now right|]. rewrite holds_iff, upd2_ne in H by auto. now rewrite holds_iff.
  - right. split; [now left|]. rewrite holds_iff, upd2_ne in H by auto. now rewrite holds_iff.
Qed.

(** [m] gets line [t]; no other transaction is working on [t]. *)
Lemma InvC_upgrade L V m t l :
  InvC L V -> (m < f_nm f)%nat -> align f t = t -> l_valid l = true -> l_tag l = t ->
  V m = V_none ->
  (forall j r k todo x fin, j <> m -> V j = V_tx r k todo x fin -> tl r <> t) ->
  (forall j, j <> m -> holds L j (l_sec l) t ->
     l_shared (L j (index t)) = true /\ l_shared l = true /\
     (l_dirty l = true -> l_dirty (L j (index t)) = false)) ->
  InvC (upd2 L m (index t) l) V.
Proof.
  intros [B H] Hm At Vl Tl Vm Hno Hs. split; [constructor|].
  - intros j i Hj. rewrite upd2_ne by (left; lia). now apply (b_nm _ B).
  - intros j i Hv. destruct (Nat.eq_dec j m) as [->|N]; [destruct (N.eq_dec i (index t)) as [->|Ni]|].
    + rewrite upd2_eq in *. now rewrite Tl.
    + rewrite upd2_ne in * by auto. now apply (b_tag _ B).
    + rewrite upd2_ne in * by auto. now apply (b_tag _ B).
  - intros i j sec t' N Hi Hj.
    pose proof (holds_upd _ _ _ _ _ _ _ Hi) as [(-> & Ei & _ & T1 & S1)|(Ni & Hi')];
    pose proof (holds_upd _ _ _ _ _ _ _ Hj) as [(-> & Ej & _ & T2 & S2)|(Nj & Hj')].
    + congruence.
    + subst t'. subst t. subst sec. destruct (Hs j (not_eq_sym N) Hj') as (Q1 & Q2 & Q3).
      rewrite upd2_eq, upd2_ne by auto. auto.
    + subst t'. subst t. subst sec. destruct (Hs i N Hi') as (Q1 & Q2 & Q3).
      rewrite upd2_eq, upd2_ne by auto. split; [auto|].
      intro D. destruct (l_dirty l); [|reflexivity]. rewrite Q3 in D; auto. 
    + rewrite !upd2_ne by auto. eapply (b_sw _ B); eauto.
  - intro i. destruct (Nat.eq_dec i m) as [->|N]; [rewrite Vm; exact Logic.I|].
    pose proof (H i) as Hv.
    assert (P : forall r k, pend_ok L i r k -> pend_ok (upd2 L m (index t) l) i r k).
    { intros r k. unfold pend_ok. now rewrite upd2_ne by auto. }
    destruct (V i) as [|r k|r k todo x fin|r k fin] eqn:Vi; cbn in *; auto.
    + destruct Hv as [Hp T]. split; [auto|].
      assert (Nt : tl r <> t) by (apply (Hno i r k todo x fin N Vi)).
      assert (Hh : forall j, holds (upd2 L m (index t) l) j (sc r) (tl r) ->
                 holds L j (sc r) (tl r) /\ upd2 L m (index t) l j (index (tl r)) = L j (index (tl r))).
      { intros j Hj. apply holds_upd in Hj as [(-> & E1 & _ & E2 & _)|(Q & Hj)]; [congruence|].
        split; [exact Hj|now rewrite upd2_ne by auto]. }
      constructor.
      * intros j N1 N2 Hj. apply Hh in Hj as [Hj ->]. now apply (t_share _ _ _ _ _ _ T).
      * intros D. destruct (t_dirty _ _ _ _ _ _ T D) as (D1 & D2 & D3).
        split; [exact D1|]. split; [exact D2|]. intros j N1 Hj. apply Hh in Hj as [Hj ->]. auto.
      * intros D j N1 Hj. apply Hh in Hj as [Hj ->]. now apply (t_data _ _ _ _ _ _ T).
      * intros R D j N1 N2 Hj. apply Hh in Hj as [Hj _]. now apply (t_none _ _ _ _ _ _ T R D j).
      * apply (t_ok _ _ _ _ _ _ T).
    + now rewrite upd2_ne by auto.
Qed.

(** A holder with a unique line stores into it. *)
Lemma InvC_dirtied L V m i l :
  InvC L V -> V m = V_none ->
  l_valid (L m i) = true -> l_shared (L m i) = false ->
  l_valid l = true -> l_tag l = l_tag (L m i) -> l_sec l = l_sec (L m i) -> l_shared l = false ->
  InvC (upd2 L m i l) V.
Proof.
  intros [B H] Vm Hv Hs Lv Lt Ls Lsh.
  assert (Own : holds L m (l_sec l) (l_tag l)).
  { destruct (b_tag _ B m i Hv) as [Ei _]. apply holds_iff. rewrite Lt, Ls, Ei. auto. }
  assert (Ei : index (l_tag l) = i) by (rewrite Lt; now apply (b_tag _ B)).
  assert (Alone : forall j, j <> m -> ~ holds L j (l_sec l) (l_tag l)).
  { intros j N Hj. destruct (b_sw _ B m j _ _ (not_eq_sym N) Own Hj) as [X _]. rewrite Ei in X. congruence. }
  split; [constructor|].
  - intros j i' Hj. destruct (Nat.eq_dec j m) as [->|N].
    + rewrite (b_nm _ B) in Hv by auto. discriminate.
    + rewrite upd2_ne by auto. now apply (b_nm _ B).
  - intros j i' Hj. destruct (Nat.eq_dec j m) as [->|N]; [destruct (N.eq_dec i' i) as [->|Ni]|].
    + rewrite upd2_eq in *. rewrite Lt. now apply (b_tag _ B).
    + rewrite upd2_ne in * by auto. now apply (b_tag _ B).
    + rewrite upd2_ne in * by auto. now apply (b_tag _ B).
  - intros a b sec t N Ha Hb.
    pose proof (holds_upd _ _ _ _ _ _ _ Ha) as [(-> & E1 & _ & T1 & S1)|(Ni & Ha')];
    pose proof (holds_upd _ _ _ _ _ _ _ Hb) as [(-> & E2 & _ & T2 & S2)|(Nj & Hb')].
    + congruence.
    + subst t sec. exfalso. apply (Alone b); auto.
    + subst t sec. exfalso. apply (Alone a); auto.
    + rewrite !upd2_ne by auto. eapply (b_sw _ B); eauto.
  - intro a. destruct (Nat.eq_dec a m) as [->|N]; [rewrite Vm; exact Logic.I|].
    pose proof (H a) as Hva.
    assert (P : forall r k, pend_ok L a r k -> pend_ok (upd2 L m i l) a r k).
    { intros r k. unfold pend_ok. now rewrite upd2_ne by auto. }
    destruct (V a) as [|r k|r k todo x fin|r k fin] eqn:Va; cbn in *; auto.
    + destruct Hva as [Hp T]. split; [auto|].
      assert (Hh : forall j, holds (upd2 L m i l) j (sc r) (tl r) ->
         holds L j (sc r) (tl r) /\
         (upd2 L m i l j (index (tl r)) = L j (index (tl r)) \/
          j = m /\ l_shared (L j (index (tl r))) = false)).
      { intros j Hj. apply holds_upd in Hj as [(-> & E1 & _ & E2 & E3)|(Q & Hj)].
        - rewrite <- E2, <- E3. split; [exact Own|]. right. rewrite Ei. auto.
        - split; [exact Hj|]. left. now rewrite upd2_ne by auto. }
      constructor.
      * intros j N1 N2 Hj. apply Hh in Hj as [Hj [->|[-> Q]]]; [now apply (t_share _ _ _ _ _ _ T)|].
        destruct (t_share _ _ _ _ _ _ T m N1 N2 Hj) as (_ & X & _). congruence.
      * intros D. destruct (t_dirty _ _ _ _ _ _ T D) as (D1 & D2 & D3).
        split; [exact D1|]. split; [exact D2|]. intros j N1 Hj. apply Hh in Hj as [Hj [->|[-> Q]]]; [auto|].
        rewrite (t_data _ _ _ _ _ _ T) in Q; auto. discriminate.
      * intros D j N1 Hj. apply Hh in Hj as [Hj [->|[-> Q]]]; [now apply (t_data _ _ _ _ _ _ T)|].
        rewrite (t_data _ _ _ _ _ _ T) in Q; auto. discriminate.
      * intros R D j N1 N2 Hj. apply Hh in Hj as [Hj _]. now apply (t_none _ _ _ _ _ _ T R D j).
      * apply (t_ok _ _ _ _ _ _ T).
    + now rewrite upd2_ne by auto.
Qed.

(** ** A snoop *)
Lemma index_tl r : slot f (cur_addr r) = index (tl r).
Proof. reflexivity. Qed.
Lemma slot_tl r : slot f (tl r) = index (tl r).
Proof. unfold slot, tl. now rewrite align_align. Qed.

Definition lines (c : nat -> cache) : nat -> N -> line := fun j => c_line (c j).

Lemma snoop_line q c a sec :
  forall i, line_le (c_line (fst (handle_snoop f q c a sec)) i) (c_line c i).
Proof.
  intro i. unfold handle_snoop. destruct (in_cache f c a sec); [|apply line_le_refl].
  assert (G : forall l, line_le l (get_line f c a) -> line_le (c_line (put_line f c a l) i) (c_line c i)).
  { intros l Hl. unfold put_line, set_line, get_line in *. cbn. unfold updN.
    destruct (N.eqb_spec i (slot f a)); [now subst|apply line_le_refl]. }
  destruct q; cbn [fst]; try (apply G); try (change (c_line (mon_reset ?c0 a)) with (c_line c0); apply G);
    repeat split; cbn; auto; discriminate.
Qed.

(** the snooped cache after the snoop and its answer *)
Lemma snoop_case (k : kind) (c : cache) (a : N) (sec : bool) (i : N) :
  in_cache f c a sec = true ->
  let l := get_line f c a in
  let l' := c_line (fst (handle_snoop f (snoop_of k) c a sec)) (slot f a) in
  let p := snd (handle_snoop f (snoop_of k) c a sec) in
  (sharing k = true -> l_valid l' = true /\ l_shared l' = true /\ p_shared p = true) /\
  (sharing k = false -> l_valid l' = false /\ p_shared p = false) /\
  (reads k = true -> p_data p = Some (l_data l)) /\
  (p_data p <> None -> p_data p = Some (l_data l)) /\
  (p_dirty p = true -> l_dirty l = true /\ p_data p <> None /\ (l_valid l' = true -> l_dirty l' = false)).
Proof.
  intro H. unfold handle_snoop. rewrite H.
  unfold in_cache, line_is in H. apply andb_prop in H as [H _]. apply andb_prop in H as [H _].
  unfold put_line, set_line, get_line in *.
  destruct k; cbn; rewrite !updN_eq; cbn; repeat split; auto; try discriminate; try congruence;
    destruct (l_dirty _); congruence.
Qed.

Lemma tx_snooped L m r k todo x j c' p :
  base L -> base (updn L j (c_line c')) ->
  tx_ok L m r k todo x -> tx_ok (updn L j (c_line c')) m r k todo x ->
  forall c, L j = c_line c -> j <> m -> In j todo ->
  handle_snoop f (snoop_of k) c (tl r) (sc r) = (c', p) ->
  tx_ok (updn L j (c_line c')) m r k (filter (fun i => negb (Nat.eqb i j)) todo) (port_done k x p).
Proof.
  intros B B' T0 T c Ec Nj Hj Hs.
  assert (Hin : in_cache f c (tl r) (sc r) = true <-> holds L j (sc r) (tl r)).
  { unfold in_cache, holds, get_line. rewrite Ec, slot_tl. unfold tl at 2 4.
    rewrite align_align. fold (tl r). tauto. }
  destruct (in_cache f c (tl r) (sc r)) eqn:Ic.
  - pose proof (snoop_case k c (tl r) (sc r) (index (tl r)) Ic) as S.
    pose proof (proj1 Hin eq_refl) as Hh.
    rewrite Hs in S. unfold get_line in S. cbn [fst snd] in S. rewrite slot_tl in S.
    cbv zeta in S. destruct S as (S1 & S2 & S3 & S4 & S5).
    set (L' := updn L j (c_line c')) in *.
    assert (Lj : L' j = c_line c') by apply updn_eq.
    assert (Li : forall i, i <> j -> L' i = L i) by (intros; now apply updn_ne).
    assert (Hi : forall i, i <> j -> holds L' i (sc r) (tl r) -> holds L i (sc r) (tl r)).
    { intros i N. unfold holds. now rewrite Li. }
    assert (Vj : holds L' j (sc r) (tl r) -> l_valid (L' j (index (tl r))) = true).
    { intro X. apply holds_iff in X. tauto. }
    constructor.
    + intros i N1 N2 H. destruct (Nat.eq_dec i j) as [->|N].
      * destruct (sharing k) eqn:Sk.
        -- destruct (S1 eq_refl) as (_ & X2 & X3). rewrite Lj. split; [reflexivity|]. split; [exact X2|].
           cbn. rewrite X3. apply orb_true_r.
        -- destruct (S2 eq_refl) as (X & _). rewrite <- Lj in X. rewrite Vj in X; [discriminate|exact H].
      * assert (~ In i todo) by (intro Q; apply N2; apply in_drop; auto).
        destruct (t_share _ _ _ _ _ _ T i N1 H0 H) as (X1 & X2 & X3).
        split; [auto|]. split; [auto|]. cbn. now rewrite X3.
    + cbn. intro D. apply orb_prop in D as [D|D].
      * destruct (t_dirty _ _ _ _ _ _ T D) as (D1 & D2 & D3). split; [|auto].
        destruct (_ && is_read_snoop _) eqn:G; [|exact D1].
        apply andb_prop in G as [G _]. destruct (p_data p); discriminate.
      * apply andb_prop in D as [D Dp]. apply andb_prop in D as [D Pd].
        destruct (S5 Dp) as (Ld & Pn & Lc).
        split.
        { destruct (p_data p) eqn:Pp; [|congruence].
          destruct k; cbn in Pd; try discriminate; cbn; discriminate. }
        split; [exact Pd|]. intros i Ni H. destruct (Nat.eq_dec i j) as [->|N].
        { rewrite Lj. apply Lc. rewrite <- Lj. now apply Vj. }
        rewrite Li by auto. apply (b_sw _ B j i (sc r) (tl r)); auto. now rewrite Ec.
    + cbn. intros D i Ni H.
      assert (D' : p_data p <> None \/ (x_data x <> None \/ x_ds x <> None)).
      { destruct (p_data p) as [d|]; [left; discriminate|right]. cbn in D. exact D. }
      destruct D' as [D'|D']; [|now apply (t_data _ _ _ _ _ _ T D')].
      destruct (Nat.eq_dec i j) as [->|N].
      * destruct (sharing k) eqn:Sk.
        -- destruct (S1 eq_refl) as (_ & X2 & _). now rewrite Lj.
        -- destruct (S2 eq_refl) as (X & _). rewrite <- Lj in X. rewrite Vj in X; [discriminate|exact H].
      * rewrite Li by auto. eapply (b_sw _ B i j); eauto.
    + cbn. intros R D. exfalso. specialize (S3 R). unfold reads in R. rewrite S3, R in D. cbn in D. discriminate.
    + intro R. pose proof (S3 R) as S3'. cbn. unfold reads in R. rewrite S3', R. cbn.
      assert (P : port_ok k p = true) by (unfold port_ok; rewrite S3'; destruct k; cbn in *; reflexivity || discriminate).
      rewrite P, orb_true_r. split; [discriminate|reflexivity].
  - unfold handle_snoop in Hs. rewrite Ic in Hs. injection Hs as <- <-.
    assert (Hn : ~ holds L j (sc r) (tl r)) by (intro X; apply Hin in X; discriminate).
    assert (Ex : forall i i', updn L j (c_line c) i i' = L i i').
    { intros i i'. destruct (Nat.eq_dec i j) as [->|N]; [now rewrite updn_eq, Ec|now rewrite updn_ne by auto]. }
    assert (Nd : forall i, ~ In i (filter (fun i => negb (Nat.eqb i j)) todo) ->
                 holds (updn L j (c_line c)) i (sc r) (tl r) -> ~ In i todo).
    { intros i Hi H Q. destruct (Nat.eq_dec i j) as [->|N].
      - apply Hn. unfold holds in *. now rewrite Ex in H.
      - apply Hi. apply in_drop. auto. }
    unfold port_done, no_resp. cbn [p_data p_shared p_dirty andb]. rewrite !orb_false_r.
    constructor; cbn [x_shared x_dirty x_data x_ds x_ok].
    + intros i N1 N2 H. apply (t_share _ _ _ _ _ _ T); eauto.
    + apply (t_dirty _ _ _ _ _ _ T).
    + apply (t_data _ _ _ _ _ _ T).
    + intros R D i N1 N2 H. apply (t_none _ _ _ _ _ _ T R D i N1); eauto.
    + intro R. pose proof (t_ok _ _ _ _ _ _ T R) as X.
      replace (port_ok k (mkResp false false None)) with false by (destruct k; cbn in *; reflexivity || discriminate).
      now rewrite orb_false_r.
Qed.

End Coh.
