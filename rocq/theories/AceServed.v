(** A request is answered once all its bytes have been carried out, in order. *)
From Verif Require Import Base TlmModel TlmSpec AceSpec AceModel AceFacts AceOrder AceCoherence AceCohStep AceData.
Open Scope N_scope.

Section Served.
Context (f : cfg).
Notation cl := (cl f).

Definition pr (a : access) : N * bool := (a_addr a, a_en a).
Definition acc_ok (r : run) : Prop :=
  match o_kind (r_op r) with
  | O_Load => r_pos r <= o_len (r_op r) /\ map pr (r_acc r) = map pr (op_bytes (r_op r) 0 (r_pos r))
  | O_Store => r_pos r <= o_len (r_op r) /\ r_acc r = op_bytes (r_op r) 0 (r_pos r)
  | _ => r_acc r = []
  end.
Definition acc_of (p : pc) : list access :=
  match p with
  | Idle => []
  | Finished r k _ => if writes k then r_acc r ++ write_piece f r else r_acc r
  | Head r | Wait r _ | Entered r _ | Snooping r _ _ _ | DsWrite r _ _ | Final r _ _
  | Wb r _ _ | WbDone r _ _ => r_acc r
  end.
Definition curs_ok (cur : nat -> list access) (s : state) : Prop := forall m, cur m = acc_of (s_pc s m).

Lemma seq_app_map {A} (g : nat -> A) a b : map g (seq 0 (a + b)) = map g (seq 0 a) ++ map (fun i => g (a + i)%nat) (seq 0 b).
Proof.
  rewrite seq_app, map_app. f_equal. cbn. rewrite <- (Nat.add_0_r a) at 1.
  generalize 0%nat. induction b as [|b IH]; intro k; cbn; [reflexivity|]. f_equal.
  rewrite <- IH. now rewrite Nat.add_succ_r.
Qed.
Lemma op_bytes_app o p n : op_bytes o 0 (p + n) = op_bytes o 0 p ++ op_bytes o p n.
Proof.
  unfold op_bytes. rewrite N2Nat.inj_add, seq_app_map. f_equal. apply map_ext. intro i. f_equal. lia.
Qed.
Lemma read_piece_pr l r : map pr (read_piece f l r) = map pr (op_bytes (r_op r) (r_pos r) (seg_len f r)).
Proof. unfold read_piece, op_bytes. rewrite !map_map. reflexivity. Qed.

Lemma acc_read l r :
  o_kind (r_op r) = O_Load -> acc_ok r -> acc_ok (advance f r (read_piece f l r)).
Proof.
  unfold acc_ok. cbn. intros ->. intros [H1 H2]. split; [unfold seg_len; lia|].
  now rewrite op_bytes_app, !map_app, H2, read_piece_pr.
Qed.
Lemma acc_write r :
  o_kind (r_op r) = O_Store -> acc_ok r -> acc_ok (advance f r (write_piece f r)).
Proof.
  unfold acc_ok. cbn. intros ->. intros [H1 H2]. split; [unfold seg_len; lia|].
  now rewrite op_bytes_app, H2.
Qed.
Lemma acc_done r :
  (o_kind (r_op r) = O_Load \/ o_kind (r_op r) = O_Store -> o_len (r_op r) <= r_pos r) ->
  acc_ok r -> answered (r_op r) (r_acc r).
Proof.
  unfold acc_ok, answered. intros H. destruct (o_kind (r_op r)); auto; intros [H1 H2];
    assert (r_pos r = o_len (r_op r)) as E by (specialize (H ltac:(auto)); lia); rewrite E in H2; auto.
Qed.

(** a write-through store is only ever carried out by the final write *)
Definition wok (p : pc) : Prop :=
  match p with
  | Snooping _ k _ x | DsWrite _ k x | Final _ k x => writes k = true -> x_ok x = false
  | _ => True
  end.

Lemma writes_store m r k : kind_ok f m r k -> writes k = true -> o_kind (r_op r) = O_Store.
Proof.
  intros K Q. unfold kind_ok in K. destruct (o_kind (r_op r)); auto; try (subst; discriminate).
  destruct K as [_ K]. destruct (f_wt f m); [subst; discriminate|destruct K; subst; discriminate].
Qed.

Lemma kind_maint m r k : kind_ok f m r k -> o_kind (r_op r) = O_Load \/ o_kind (r_op r) = O_Store ->
  match k with K_CleanShared | K_CleanInvalid | K_MakeInvalid => False | _ => True end.
Proof.
  unfold kind_ok. intros K [Q|Q]; rewrite Q in K; destruct K as [_ K]; destruct (f_wt f m).
  - now subst.
  - now destruct K; subst.
  - now destruct K as [->|[-> _]].
  - now destruct K as [->|[->|[-> _]]].
Qed.

(** ** Bookkeeping *)
Lemma leave_acc s m r i : i <> m -> acc_of (s_pc (tx_leave f s m r) i) = acc_of (s_pc s i).
Proof.
  intro N. destruct (leave_pc f s m r i N) as [->|(r1 & k & -> & ->)]; reflexivity.
Qed.
Lemma leave_wok s m r i : i <> m -> wok (s_pc s i) -> wok (s_pc (tx_leave f s m r) i).
Proof.
  intro N. destruct (leave_pc f s m r i N) as [->|(r1 & k & -> & ->)]; auto.
Qed.
Lemma leave_run s m r i : i <> m -> run_of (s_pc (tx_leave f s m r) i) = run_of (s_pc s i).
Proof.
  intro N. destruct (leave_pc f s m r i N) as [->|(r1 & k & -> & ->)]; reflexivity.
Qed.

(** The step concerns only what [m] does. *)
Definition moved (s s' : state) (m : nat) : Prop :=
  forall i, i <> m -> acc_of (s_pc s' i) = acc_of (s_pc s i) /\ run_of (s_pc s' i) = run_of (s_pc s i) /\
    (wok (s_pc s i) -> wok (s_pc s' i)).

Lemma moved_goto s m p : moved s (goto s m p) m.
Proof. intros i N. cbn. now rewrite updn_ne by auto. Qed.
Lemma moved_trans s1 s2 s3 m : moved s1 s2 m -> moved s2 s3 m -> moved s1 s3 m.
Proof. intros A B i N. destruct (A i N) as (A1 & A2 & A3), (B i N) as (B1 & B2 & B3).
  split; [congruence|]. split; [congruence|auto]. Qed.
Lemma moved_pc s s1 s' m : s_pc s1 = s_pc s -> moved s1 s' m -> moved s s' m.
Proof. intros E H. unfold moved. now rewrite <- E. Qed.
Lemma moved_issue s m r k : moved s (issue f s m r k) m.
Proof. unfold issue. destruct (is_overlapping _ _ _); (eapply moved_pc; [|apply moved_goto]); reflexivity. Qed.
Lemma moved_issue_wb s m r c k : moved s (issue_wb s m r c k) m.
Proof. unfold issue_wb. (eapply moved_pc; [|apply moved_goto]); reflexivity. Qed.
Lemma moved_leave s m r : moved s (tx_leave f s m r) m.
Proof. intros i N. split; [now apply leave_acc|]. split; [now apply leave_run|now apply leave_wok]. Qed.

Lemma at_issue s m r k : acc_of (s_pc (issue f s m r k) m) = r_acc r /\ run_of (s_pc (issue f s m r k) m) = Some r /\
  wok (s_pc (issue f s m r k) m).
Proof. unfold issue. destruct (is_overlapping _ _ _); cbn; now rewrite updn_eq. Qed.
Lemma at_issue_wb s m r c k : acc_of (s_pc (issue_wb s m r c k) m) = r_acc r /\ run_of (s_pc (issue_wb s m r c k) m) = Some r /\
  wok (s_pc (issue_wb s m r c k) m).
Proof. unfold issue_wb. cbn. now rewrite updn_eq. Qed.
Lemma fill_moved s m r k : moved s (fill f s m r k) m /\
  acc_of (s_pc (fill f s m r k) m) = r_acc r /\ run_of (s_pc (fill f s m r k) m) = Some r /\
  wok (s_pc (fill f s m r k) m).
Proof.
  unfold fill. destruct (l_valid _); [destruct (l_dirty _)|].
  - split; [|apply at_issue_wb]. eapply moved_pc; [|apply moved_issue_wb]. reflexivity.
  - split; [|apply at_issue]. eapply moved_pc; [|apply moved_issue]. reflexivity.
  - split; [|apply at_issue]. apply moved_issue.
Qed.

(** What one step does to the pieces of [m], the only master it concerns. *)
Inductive shape (m : nat) (s s' : state) : list event -> Prop :=
| Sh_quiet : acc_of (s_pc s' m) = acc_of (s_pc s m) -> shape m s s' []
| Sh_read sec l : acc_of (s_pc s' m) = acc_of (s_pc s m) ++ l -> shape m s s' [Ev_Read m sec l]
| Sh_write sec l : acc_of (s_pc s' m) = acc_of (s_pc s m) ++ l -> shape m s s' [Ev_Write m sec l]
| Sh_done o l ex : l = acc_of (s_pc s m) -> s_pc s' m = Idle -> (o_excl o = false -> answered o l) ->
    shape m s s' [Ev_Done m o l ex].

Lemma shape_step m s s' es cur :
  shape m s s' es -> moved s s' m -> curs_ok cur s ->
  served cur es /\ curs_ok (fun i => fold_left (piece i) es (cur i)) s'.
Proof.
  intros Sh Mv C.
  assert (Hm : forall i, i <> m -> acc_of (s_pc s' i) = cur i).
  { intros i N. rewrite (proj1 (Mv i N)). symmetry. apply C. }
  destruct Sh as [E|sec l E|sec l E|o l ex E E2 Ha]; cbn [served fold_left].
  - split; [exact Logic.I|]. intro i. cbn. destruct (Nat.eq_dec i m) as [->|N]; [now rewrite E|now rewrite Hm].
  - split; [exact (conj Logic.I Logic.I)|]. intro i. cbn.
    destruct (Nat.eqb_spec m i) as [<-|N]; [rewrite E; now rewrite C|rewrite Hm; auto].
  - split; [exact (conj Logic.I Logic.I)|]. intro i. cbn.
    destruct (Nat.eqb_spec m i) as [<-|N]; [rewrite E; now rewrite C|rewrite Hm; auto].
  - split; [split; [|exact Logic.I]|]. 
    + split; [rewrite E; symmetry; apply C|exact Ha].
    + intro i. cbn. destruct (Nat.eqb_spec m i) as [<-|N]; [now rewrite E2|rewrite Hm; auto].
Qed.

Definition who (lb : label) : nat :=
  match lb with
  | L_Start m _ | L_Local m | L_Engine m | L_Snoop m _ | L_SnoopDone m | L_Ds m | L_Complete m => m
  | L_Unlock => O
  end.

(** what is kept of [m]'s own position *)
Definition fine (s' : state) (m : nat) : Prop :=
  (forall r, run_of (s_pc s' m) = Some r -> acc_ok r) /\ wok (s_pc s' m).

Definition good s m s' es := moved s s' m /\ shape m s s' es /\ fine s' m.

Lemma good_quiet s m r s' :
  run_of (s_pc s m) = Some r -> acc_of (s_pc s m) = r_acc r -> acc_ok r -> moved s s' m ->
  acc_of (s_pc s' m) = r_acc r -> run_of (s_pc s' m) = Some r -> wok (s_pc s' m) -> good s m s' [].
Proof.
  intros E1 E2 Ar Mv F1 F2 F3. split; [exact Mv|]. split; [apply Sh_quiet; congruence|].
  split; [|exact F3]. intros r0 Er. congruence.
Qed.
Lemma good_goto s m r s1 p :
  s_pc s1 = s_pc s -> run_of (s_pc s m) = Some r -> acc_of (s_pc s m) = r_acc r -> acc_ok r ->
  acc_of p = r_acc r -> run_of p = Some r -> wok p -> good s m (goto s1 m p) [].
Proof.
  intros E E1 E2 Ar F1 F2 F3. apply good_quiet with r; auto.
  - apply (moved_pc s s1 _ m E), moved_goto.
  - cbn. now rewrite updn_eq.
  - cbn. now rewrite updn_eq.
  - cbn. now rewrite updn_eq.
Qed.
Lemma good_leave s m r s1 p :
  s_pc s1 = s_pc (tx_leave f s m r) -> run_of (s_pc s m) = Some r -> acc_of (s_pc s m) = r_acc r -> acc_ok r ->
  acc_of p = r_acc r -> run_of p = Some r -> wok p -> good s m (goto s1 m p) [].
Proof.
  intros E E1 E2 Ar F1 F2 F3. apply good_quiet with r; auto.
  - apply (moved_trans _ (tx_leave f s m r)); [apply moved_leave|]. apply (moved_pc _ s1 _ m E), moved_goto.
  - cbn. now rewrite updn_eq.
  - cbn. now rewrite updn_eq.
  - cbn. now rewrite updn_eq.
Qed.
Lemma good_finish s m r s1 ex :
  moved s s1 m -> acc_of (s_pc s m) = r_acc r ->
  (o_excl (r_op r) = false -> answered (r_op r) (r_acc r)) ->
  good s m (goto s1 m Idle) [Ev_Done m (r_op r) (r_acc r) ex].
Proof.
  intros Mv E Ha. split; [apply (moved_trans _ s1); [exact Mv|apply moved_goto]|]. split.
  - apply Sh_done; auto. cbn. apply updn_eq.
  - split; cbn; rewrite updn_eq; [discriminate|exact Logic.I].
Qed.

Lemma step_good s lb s' es :
  step f s lb = Some (s', es) -> InvO f s -> fine s (who lb) -> good s (who lb) s' es.
Proof.
  intros H O [A Wk]. destruct lb as [m o|m|m|m j|m|m|m|]; cbn [step who] in *.
  - destruct (s_pc s m) eqn:E; try discriminate. destruct (m <? f_nm f)%nat; [|discriminate].
    injection H as <- <-. split; [apply moved_goto|]. split.
    + apply Sh_quiet. cbn. rewrite updn_eq, E. reflexivity.
    + split; cbn; rewrite updn_eq; cbn; auto. intros r Er. injection Er as <-. unfold acc_ok. cbn.
      destruct (o_kind o); auto; (split; [lia|reflexivity]).
  - destruct (s_pc s m) eqn:E; try discriminate. injection H as H.
    assert (Ar : acc_ok r) by (apply A; reflexivity).
    assert (E1 : run_of (s_pc s m) = Some r) by now rewrite E.
    assert (E2 : acc_of (s_pc s m) = r_acc r) by now rewrite E.
    assert (Fi : forall k s1, s_pc s1 = s_pc s -> good s m (fill f s1 m r k) []).
    { intros k s1 Es. destruct (fill_moved s1 m r k) as (M1 & M2 & M3 & M4).
      apply good_quiet with r; auto. exact (moved_pc s s1 _ m Es M1). }
    assert (Is : forall k s1, s_pc s1 = s_pc s -> good s m (issue f s1 m r k) []).
    { intros k s1 Es. destruct (at_issue s1 m r k) as (M2 & M3 & M4).
      apply good_quiet with r; auto. exact (moved_pc s s1 _ m Es (moved_issue s1 m r k)). }
    assert (Fn : forall ex, (o_excl (r_op r) = false -> o_len (r_op r) <= r_pos r) ->
         finish s m r ex = (s', es) -> good s m s' es).
    { intros ex Hl Ek. injection Ek as <- <-. apply good_finish; auto; [intros i N; auto|].
      intro X. apply acc_done; auto. }
    unfold local in H. destruct (o_kind (r_op r)) eqn:K.
    + destruct (N.leb_spec (o_len (r_op r)) (r_pos r)); [eapply Fn; eauto|].
      destruct (in_cache _ _ _ _).
      { injection H as <- <-. split; [apply moved_goto|]. split.
        - apply Sh_read. cbn. rewrite updn_eq, E. reflexivity.
        - split; cbn; rewrite updn_eq; cbn; auto. intros r0 Er. injection Er as <-. now apply acc_read. }
      destruct (f_wt f m); [|destruct (o_excl (r_op r))]; injection H as <- <-; now apply Fi.
    + destruct (N.leb_spec (o_len (r_op r)) (r_pos r)); [eapply Fn; eauto|].
      destruct (f_wt f m); [injection H as <- <-; now apply Is|].
      destruct (o_excl (r_op r) && _) eqn:X.
      { apply andb_prop in X as [X _]. eapply Fn; eauto. congruence. }
      destruct (in_cache _ _ _ _).
      * destruct (negb (l_shared _)).
        -- injection H as <- <-. split; [eapply moved_pc; [|apply moved_goto]; reflexivity|]. split.
           ++ apply Sh_write. cbn. rewrite updn_eq, E. reflexivity.
           ++ split; cbn; rewrite updn_eq; cbn; auto. intros r0 Er. injection Er as <-. now apply acc_write.
        -- injection H as <- <-; now apply Is.
      * injection H as <- <-; now apply Fi.
    + destruct (in_cache _ _ _ _ && _).
      * injection H as <- <-. destruct (at_issue_wb s m r true K_CleanShared) as (M2 & M3 & M4).
        apply good_quiet with r; auto. apply moved_issue_wb.
      * injection H as <- <-; now apply Is.
    + injection H as <- <-. apply Is. now destruct (in_cache _ _ _ _).
    + injection H as <- <-. apply Is. now destruct (in_cache _ _ _ _).
  - destruct (s_pc s m) eqn:E; try discriminate.
    assert (Ar : acc_ok r) by (apply A; reflexivity).
    assert (E1 : run_of (s_pc s m) = Some r) by now rewrite E.
    assert (E2 : acc_of (s_pc s m) = r_acc r) by now rewrite E.
    pose proof (o_ok _ _ O m) as K. rewrite E in K. destruct K as [_ Hk].
    injection H as H1 H2. subst es. assert (s' = engine f s m r k) as -> by congruence.
    unfold engine. destruct (o_excl (r_op r)); [destruct k; try destruct (s_pos s m)|];
      apply good_goto with r; auto; cbn; auto; discriminate.
  - destruct (s_pc s m) eqn:E; try discriminate.
    assert (Ar : acc_ok r) by (apply A; reflexivity).
    destruct (_ && _); [|discriminate]. destruct (handle_snoop _ _ _ _ _). injection H as <- <-.
    apply good_goto with r; auto; try (now rewrite E).
    cbn. intro Q. cbn in Wk. rewrite (Wk Q). destruct k; try discriminate; reflexivity.
  - destruct (s_pc s m) eqn:E; try discriminate.
    assert (Ar : acc_ok r) by (apply A; reflexivity).
    destruct todo; [|discriminate]. injection H as <- <-.
    destruct (x_ds x); (apply good_goto with r; auto; now rewrite E).
  - unfold downstream in H. destruct (s_pc s m) eqn:E; try discriminate.
    + assert (Ar : acc_ok r) by (apply A; reflexivity).
      destruct (x_ds x); [|discriminate]. injection H as <- <-.
      apply good_goto with r; auto; now rewrite E.
    + assert (Ar : acc_ok r) by (apply A; reflexivity).
      cbn in Wk.
      assert (G : forall x', writes k = false -> good s m (goto s m (Finished r k x')) []).
      { intros x' Q. apply good_goto with r; auto; try (now rewrite E); cbn; rewrite ?Q; auto. }
      destruct (x_ok x) eqn:Xo.
      { injection H as <- <-. apply G. destruct (writes k); [|reflexivity]. now specialize (Wk eq_refl). }
      assert (Gw : forall s1, s_pc s1 = s_pc s -> writes k = true ->
         good s m (goto s1 m (Finished r k x)) [Ev_Write m (o_sec (r_op r)) (write_piece f r)]).
      { intros s1 Es Q. split; [apply (moved_pc s s1 _ m Es), moved_goto|]. split.
        - apply Sh_write. cbn. rewrite updn_eq, E. cbn. now rewrite Q.
        - split; cbn; rewrite updn_eq; cbn; auto. }
      destruct k; injection H as <- <-; (apply Gw || apply G); reflexivity.
    + assert (Ar : acc_ok r) by (apply A; reflexivity).
      injection H as <- <-. apply good_goto with r; auto; now rewrite E.
  - unfold complete in H. pose proof (o_ok _ _ O m) as K.
    destruct (s_pc s m) eqn:E; try discriminate.
    + assert (Ar : acc_ok r) by (apply A; reflexivity).
      destruct K as (_ & Hk & _). set (t := tx_leave f s m r) in *.
      assert (E1 : run_of (s_pc s m) = Some r) by now rewrite E.
      assert (G : forall s1 p, s_pc s1 = s_pc t -> writes k = false ->
         acc_of p = r_acc r -> run_of p = Some r -> wok p -> good s m (goto s1 m p) []).
      { intros s1 p Es Q F1 F2 F3. apply good_leave with r; auto. rewrite E. cbn. now rewrite Q. }
      assert (Mv : forall s1, s_pc s1 = s_pc t -> moved s s1 m).
      { intros s1 Es i N. rewrite Es. now apply moved_leave. }
      assert (Fn : forall s1 ex, s_pc s1 = s_pc t -> writes k = false ->
          (o_excl (r_op r) = false -> answered (r_op r) (r_acc r)) ->
          good s m (goto s1 m Idle) [Ev_Done m (r_op r) (r_acc r) ex]).
      { intros s1 ex Es Q Ha. apply good_finish; auto. rewrite E. cbn. now rewrite Q. }
      assert (Gs : forall s1, s_pc s1 = s_pc t -> writes k = true ->
         good s m (goto s1 m (Head (advance f r (write_piece f r)))) []).
      { intros s1 Es Q. split; [apply (moved_trans _ s1); [auto|apply moved_goto]|]. split.
        - apply Sh_quiet. cbn. rewrite updn_eq, E. cbn. now rewrite Q.
        - split; cbn; rewrite updn_eq; cbn; auto. intros r0 Er. injection Er as <-.
          apply acc_write; auto. now apply (writes_store m r k). }
      destruct k.
      1-4: destruct (o_kind (r_op r)); [destruct (o_excl (r_op r) && _)|..]; injection H as <- <-;
           try solve [apply G; auto];
           (split; [match goal with |- moved _ (goto ?s1 _ _) _ => apply (moved_trans _ s1); [apply Mv; reflexivity|apply moved_goto] end|]);
           (split; [apply Sh_quiet; cbn; rewrite updn_eq, E; reflexivity|]);
           (split; cbn; rewrite updn_eq; cbn; auto; intros r0 Er; injection Er as <-; exact Ar).
      * destruct (o_excl (r_op r)) eqn:X; [destruct (_ && x_ex x)|]; injection H as <- <-; [apply G| |apply G]; auto.
        apply Fn; auto. congruence.
      * destruct (o_excl (r_op r) && _) eqn:X; injection H as <- <-.
        { apply andb_prop in X as [X _]. apply Fn; auto. congruence. }
        split; [match goal with |- moved _ (goto ?s1 _ _) _ => apply (moved_trans _ s1); [apply Mv; reflexivity|apply moved_goto] end|].
        split.
        -- apply Sh_write. cbn. rewrite updn_eq, E. reflexivity.
        -- split; cbn; rewrite updn_eq; cbn; auto. intros r0 Er. injection Er as <-. apply acc_write; auto.
           unfold kind_ok in Hk. destruct (o_kind (r_op r)); auto; try discriminate.
           exfalso. destruct Hk as [_ Hk]. destruct (f_wt f m); [discriminate|destruct Hk; discriminate].
      * injection H as <- <-. now apply Gs.
      * injection H as <- <-. now apply Gs.
      * injection H as <- <-. apply Fn; auto. intros _. apply acc_done; auto.
        intro Q. exfalso. now apply (kind_maint m r _ Hk) in Q.
      * injection H as <- <-. apply Fn; auto. intros _. apply acc_done; auto.
        intro Q. exfalso. now apply (kind_maint m r _ Hk) in Q.
      * injection H as <- <-. apply Fn; auto. intros _. apply acc_done; auto.
        intro Q. exfalso. now apply (kind_maint m r _ Hk) in Q.
    + assert (Ar : acc_ok r) by (apply A; reflexivity).
      injection H as <- <-.
      match goal with |- good _ _ (issue f ?s1 m r next) _ => destruct (at_issue s1 m r next) as (M2 & M3 & M4);
        apply good_quiet with r; auto; try (now rewrite E); apply (moved_trans _ s1); [|apply moved_issue] end.
      intros i N. now apply moved_leave.
  - injection H as <- <-. split; [intros i N; auto|]. split; [now apply Sh_quiet|]. now split.
Qed.

Lemma served_app cur l1 l2 :
  served cur l1 -> served (fun i => fold_left (piece i) l1 (cur i)) l2 -> served cur (l1 ++ l2).
Proof.
  revert cur. induction l1 as [|e l1 IH]; intro cur; cbn [served app fold_left]; auto.
  intros [H1 H2] H3. split; [exact H1|]. now apply IH.
Qed.

Lemma exec_served ls s s' es cur :
  Forall (label_ok (fun _ => op_ok f)) ls -> exec f s ls = Some (s', es) ->
  InvO f s -> InvB f s -> (forall m, fine s m) -> curs_ok cur s -> served cur es.
Proof.
  revert s es cur. induction ls as [|lb ls IH]; intros s es cur HL H O B Fs C; cbn [exec] in H.
  - injection H as <- <-. exact Logic.I.
  - inversion HL as [|? ? L1 L2]; subst. destruct (step f s lb) as [[s1 e1]|] eqn:E; [|discriminate].
    destruct (exec f s1 ls) as [[s2 e2]|] eqn:E2; [|discriminate]. injection H as <- <-.
    destruct (step_OB f s lb s1 e1 L1 E O B) as [O1 B1].
    destruct (step_good s lb s1 e1 E O (Fs _)) as (Mv & Sh & Fi).
    destruct (shape_step _ _ _ _ _ Sh Mv C) as [S1 C1].
    apply served_app; [exact S1|]. apply (IH s1 e2); auto.
    intro m. destruct (Nat.eq_dec m (who lb)) as [->|N]; [exact Fi|].
    destruct (Mv m N) as (M1 & M2 & M3), (Fs m) as [F1 F2]. split; [now rewrite M2|auto].
Qed.

Lemma init_fine w d m : fine (init w d) m.
Proof. split; [discriminate|exact Logic.I]. Qed.
Lemma init_curs w d : curs_ok (fun _ => []) (init w d).
Proof. intro m. reflexivity. Qed.

End Served.
