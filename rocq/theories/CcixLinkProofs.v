(** Lemmas for the credits of a CCIX link. *)
From Verif Require Import Base CcixLinkModel CcixLinkSpec.
From Coq Require Import Lia ZifyN ZifyNat Permutation.
Open Scope N_scope.

Lemma w32_small : forall x, x < 2 ^ 32 -> w32 x = x.
Proof. intros. unfold w32. now apply N.mod_small. Qed.
Lemma dec32_ok : forall x n, n <= x -> x < 2 ^ 32 -> dec32 x n + n = x.
Proof.
  intros x n H L. unfold dec32, w32.
  replace (x + 2 ^ 32 - n) with (x - n + 1 * 2 ^ 32) by lia.
  rewrite N.mod_add by discriminate. rewrite N.mod_small; lia.
Qed.
Lemma total_app : forall f a b, total f (a ++ b) = total f a + total f b.
Proof. induction a; intros; cbn [total app]; [reflexivity|]. rewrite IHa. lia. Qed.
Lemma count_app : forall f a b, count f (a ++ b) = count f a + count f b.
Proof. intros. unfold count. rewrite filter_app, app_length. apply Nat2N.inj_add. Qed.
Lemma count_cons : forall f m l, count f (m :: l) = (if f m then 1 else 0) + count f l.
Proof. intros. unfold count. cbn [filter]. destruct (f m); cbn [length]; lia. Qed.
Lemma count_perm : forall f a b, Permutation a b -> count f a = count f b.
Proof.
  intros f a b H. unfold count. induction H; cbn [filter]; auto.
  - destruct (f x); cbn [length]; lia.
  - destruct (f x), (f y); cbn [length]; lia.
  - lia.
Qed.
Lemma remove_nth_perm : forall (l : list lmsg) i m, nth_error l i = Some m ->
  Permutation l (m :: remove_nth i l).
Proof.
  induction l as [|x l IH]; intros [|i] m E; simpl in E; try discriminate.
  - injection E as ->. unfold remove_nth. simpl. apply Permutation_refl.
  - specialize (IH i m E). unfold remove_nth in *. simpl. etransitivity.
    + apply perm_skip. exact IH.
    + apply perm_swap.
Qed.

(** Credits that wake hands out are those of the messages sent. *)
Definition wake_keeps (get : credits -> N) (kind : lmsg -> bool) (rx : credits) (ws : list lmsg) : Prop :=
  let '(rx', sent, rest) := wake rx ws in get rx = get rx' + count kind sent.

(** What the lemma below needs to know about a kind of credit. *)
Record kind_ok (get : credits -> N) (kind : lmsg -> bool) (P : lmsg -> Prop) : Prop := {
  ko_inc : forall x y, get (cr_inc x y) = w32 (get x + get y);
  ko_req : forall rx t op, get rx < 2 ^ 32 -> can_send rx op = true ->
    get (take_req rx op) + (if kind (LReq t op) then 1 else 0) = get rx;
  ko_snp : forall rx t, get rx < 2 ^ 32 -> c_snp rx <> 0 ->
    get (take_snp rx) + (if kind (LSnp t) then 1 else 0) = get rx;
  ko_give : forall tx m, P m -> get (give_back tx m) = w32 (get tx + (if kind m then 1 else 0));
  ko_grant : forall tx, get tx < 2 ^ 32 -> get (grant_of tx) + get (grant_rest tx) = get tx
}.

Lemma conserve_step : forall get kind P, kind_ok get kind P ->
  forall s e, Forall P (k_open s) ->
  (e = GrantArrives -> forall g gs, k_grants s = g :: gs -> get (cr_inc (k_rx s) g) = get (k_rx s) + get g ->
     wake_keeps get kind (cr_inc (k_rx s) g) (k_wait s)) ->
  credit_sum get kind s = 256 -> credit_sum get kind (lstep s e) = 256.
Proof.
  intros get kind P K s e Fo W H. unfold credit_sum in *.
  destruct e as [[t op|t]| | | |i]; simpl.
  - destruct (can_send (k_rx s) op) eqn:E; simpl; [|exact H].
    pose proof (ko_req _ _ _ K (k_rx s) t op ltac:(lia) E).
    rewrite count_app, count_cons. unfold count at 2. simpl. lia.
  - destruct (c_snp (k_rx s) =? 0) eqn:E; simpl; [exact H|]. apply N.eqb_neq in E.
    pose proof (ko_snp _ _ _ K (k_rx s) t ltac:(lia) E).
    rewrite count_app, count_cons. unfold count at 2. simpl. lia.
  - destruct (has_credits (k_tx s)); simpl; [|exact H].
    pose proof (ko_grant _ _ _ K (k_tx s) ltac:(lia)).
    rewrite total_app. simpl. lia.
  - destruct (k_grants s) as [|g gs] eqn:G; [rewrite G; exact H|].
    simpl in H.
    assert (A : get (cr_inc (k_rx s) g) = get (k_rx s) + get g)
      by (rewrite (ko_inc _ _ _ K); apply w32_small; lia).
    specialize (W eq_refl g gs eq_refl A). unfold wake_keeps in W.
    destruct (wake (cr_inc (k_rx s) g) (k_wait s)) as [[rx sent] rest]. simpl.
    rewrite count_app. lia.
  - destruct (k_wire s) as [|m ms] eqn:E; [rewrite E; exact H|]. simpl.
    rewrite count_cons in H. rewrite count_app, count_cons. unfold count at 3. simpl. lia.
  - destruct (nth_error (k_open s) i) as [m|] eqn:E; [|exact H]. simpl.
    assert (Pm : P m) by (rewrite Forall_forall in Fo; apply Fo; eapply nth_error_In; eauto).
    rewrite (ko_give _ _ _ K _ _ Pm).
    pose proof (count_perm kind _ _ (remove_nth_perm _ _ _ E)) as Cp.
    rewrite count_cons in Cp. rewrite w32_small; lia.
Qed.

(** Requests and their data *)
Lemma wake_keeps_req : forall get kind P, kind_ok get kind P ->
  (forall t, kind (LSnp t) = false) -> (forall rx, get (take_snp rx) = get rx) ->
  forall ws rx, get rx < 2 ^ 32 -> wake_keeps get kind rx ws.
Proof.
  intros get kind P K Ks Gs. unfold wake_keeps.
  induction ws as [|[t op|t] ws IH]; intros rx L; simpl.
  - unfold count. simpl. lia.
  - destruct (can_send rx op) eqn:E.
    + pose proof (ko_req _ _ _ K rx t op L E) as Q.
      specialize (IH (take_req rx op) ltac:(lia)).
      destruct (wake (take_req rx op) ws) as [[rx' sent] rest]. rewrite count_cons. lia.
    + specialize (IH rx L). destruct (wake rx ws) as [[rx' sent] rest]. exact IH.
  - specialize (IH (take_snp rx)). rewrite Gs in IH. specialize (IH L).
    destruct (wake (take_snp rx) ws) as [[rx' sent] rest]. rewrite count_cons, Ks. exact IH.
Qed.

Lemma can_send_spec : forall rx op, can_send rx op = true <->
  0 < c_req rx /\ (is_write op = true -> 0 < c_data rx).
Proof.
  intros. unfold can_send. rewrite andb_true_iff, N.ltb_lt.
  destruct (is_write op); [rewrite N.ltb_lt|]; intuition congruence.
Qed.
Lemma is_wr_eq : forall t op, is_wr (LReq t op) = is_write op.
Proof.
  intros. unfold is_wr, is_write. apply eq_true_iff_eq. rewrite !existsb_exists.
  split; intros [x [H E]]; exists x; split; auto; simpl in *; intuition.
Qed.

Lemma ok_req : kind_ok c_req is_req (fun _ => True).
Proof.
  split; simpl; intros.
  - reflexivity.
  - apply can_send_spec in H0. apply dec32_ok; lia.
  - lia.
  - destruct m; simpl; reflexivity.
  - rewrite N.add_comm. apply dec32_ok; lia.
Qed.
Lemma ok_data : kind_ok c_data is_wr (fun m => with_data m = is_wr m).
Proof.
  split; intros.
  - reflexivity.
  - apply can_send_spec in H0. rewrite is_wr_eq. unfold take_req. simpl.
    destruct (is_write op); [|lia]. apply dec32_ok; [|lia]. destruct H0 as [_ H0].
    specialize (H0 eq_refl). lia.
  - simpl. lia.
  - destruct m as [t op|t]; [|reflexivity]. rewrite is_wr_eq. simpl.
    unfold with_data in H. rewrite is_wr_eq in H. fold (is_atomic op) in H.
    unfold gives_data. now rewrite H.
  - simpl. rewrite N.add_comm. apply dec32_ok; lia.
Qed.
Lemma ok_snp : kind_ok c_snp is_snp (fun _ => True).
Proof.
  split; simpl; intros.
  - reflexivity.
  - lia.
  - apply dec32_ok; lia.
  - destruct m; simpl; reflexivity.
  - rewrite N.add_comm. apply dec32_ok; lia.
Qed.

Lemma lrun_app : forall es e, lrun (es ++ [e]) = lstep (lrun es) e.
Proof. intros. unfold lrun. now rewrite fold_left_app. Qed.

Lemma conserve_req : forall es, credit_sum c_req is_req (lrun es) = 256.
Proof.
  intros es. induction es as [|e es IH] using rev_ind; [reflexivity|]. rewrite lrun_app.
  apply (conserve_step _ _ _ ok_req); auto.
  - apply Forall_forall. auto.
  - intros _ g gs G A. apply (wake_keeps_req _ _ _ ok_req); auto.
    unfold credit_sum in IH. rewrite G in IH. simpl in IH. rewrite A. lia.
Qed.

(** Every message is in one place. *)
Lemma wake_perm : forall ws rx,
  let '(rx', sent, rest) := wake rx ws in Permutation ws (sent ++ rest).
Proof.
  induction ws as [|[t op|t] ws IH]; intros rx; simpl.
  - constructor.
  - destruct (can_send rx op).
    + specialize (IH (take_req rx op)). destruct (wake (take_req rx op) ws) as [[rx' sent] rest].
      simpl. now constructor.
    + specialize (IH rx). destruct (wake rx ws) as [[rx' sent] rest].
      apply Permutation_cons_app. exact IH.
  - specialize (IH (take_snp rx)). destruct (wake (take_snp rx) ws) as [[rx' sent] rest].
    simpl. now constructor.
Qed.
Definition places (s : link) : list lmsg := k_done s ++ k_open s ++ k_wire s ++ k_wait s.
Lemma perm_cnt : forall (a b : list lmsg), (forall d : forall x y : lmsg, {x = y} + {x <> y},
  forall x, count_occ d a x = count_occ d b x) -> Permutation a b.
Proof.
  intros a b H.
  assert (d : forall x y : lmsg, {x = y} + {x <> y}) by (decide equality; apply N.eq_dec).
  apply (Permutation_count_occ d). apply H.
Qed.
Ltac perm := apply perm_cnt; intros d x;
  repeat match goal with H : Permutation _ _ |- _ =>
    apply (fun Q => proj1 (Permutation_count_occ d _ _) Q x) in H; rewrite ?count_occ_app in H;
    cbn [count_occ] in H end;
  rewrite ?count_occ_app; cbn [count_occ]; rewrite ?count_occ_app;
  repeat match goal with |- context [d ?u ?v] => destruct (d u v) end;
  repeat match goal with H : context [d ?u ?v] |- _ => destruct (d u v) end; lia.
Lemma lstep_places : forall s e,
  Permutation (places (lstep s e)) (places s ++ match e with Ask m => [m] | _ => [] end).
Proof.
  intros s e. unfold places. destruct e as [[t op|t]| | | |i]; simpl.
  - destruct (can_send (k_rx s) op); simpl; perm.
  - destruct (c_snp (k_rx s) =? 0); simpl; perm.
  - destruct (has_credits (k_tx s)); simpl; perm.
  - destruct (k_grants s) as [|g gs]; [perm|].
    pose proof (wake_perm (k_wait s) (cr_inc (k_rx s) g)) as W.
    destruct (wake (cr_inc (k_rx s) g) (k_wait s)) as [[rx sent] rest].
    cbv beta iota in W. simpl. perm.
  - destruct (k_wire s) as [|m ms] eqn:E; simpl; [rewrite E; perm|]. perm.
  - destruct (nth_error (k_open s) i) as [m|] eqn:E; simpl; [|perm].
    apply remove_nth_perm in E. perm.
Qed.
Lemma run_places : forall es, Permutation (asked es) (places (lrun es)).
Proof.
  intros es. induction es as [|e es IH] using rev_ind; [constructor|].
  rewrite lrun_app. pose proof (lstep_places (lrun es) e) as L.
  unfold asked in *. rewrite flat_map_app. simpl. rewrite app_nil_r. perm.
Qed.

Lemma open_asked : forall es m, In m (k_open (lrun es)) -> In m (asked es).
Proof.
  intros es m H. apply Permutation_in with (places (lrun es)).
  - apply Permutation_sym, run_places.
  - unfold places. rewrite !in_app_iff. auto.
Qed.
Lemma asked_app : forall a b, asked (a ++ b) = asked a ++ asked b.
Proof. intros. apply flat_map_app. Qed.

Lemma conserve_data : forall es, (forall m, In m (asked es) -> with_data m = is_wr m) ->
  credit_sum c_data is_wr (lrun es) = 256.
Proof.
  intros es. induction es as [|e es IH] using rev_ind; [reflexivity|]. intros A. rewrite lrun_app.
  assert (A' : forall m, In m (asked es) -> with_data m = is_wr m)
    by (intros; apply A; rewrite asked_app, in_app_iff; auto).
  specialize (IH A').
  apply (conserve_step _ _ _ ok_data); auto.
  - apply Forall_forall. intros m H. apply A'. now apply open_asked.
  - intros _ g gs G E. apply (wake_keeps_req _ _ _ ok_data); auto.
    unfold credit_sum in IH. rewrite G in IH. simpl in IH. rewrite E. lia.
Qed.

(** Snoops *)
Lemma wake_keeps_snp : forall ws rx, c_snp rx < 2 ^ 32 -> count is_snp ws <= c_snp rx ->
  wake_keeps c_snp is_snp rx ws.
Proof.
  unfold wake_keeps. induction ws as [|[t op|t] ws IH]; intros rx L C; simpl.
  - unfold count. simpl. lia.
  - rewrite count_cons in C. simpl in C. destruct (can_send rx op).
    + specialize (IH (take_req rx op) L C).
      destruct (wake (take_req rx op) ws) as [[rx' sent] rest]. rewrite count_cons. simpl. exact IH.
    + specialize (IH rx L C). destruct (wake rx ws) as [[rx' sent] rest]. exact IH.
  - rewrite count_cons in C. change (is_snp (LSnp t)) with true in C. cbv iota in C.
    assert (D : c_snp (take_snp rx) + 1 = c_snp rx) by (apply dec32_ok; lia).
    specialize (IH (take_snp rx) ltac:(lia) ltac:(lia)).
    destruct (wake (take_snp rx) ws) as [[rx' sent] rest]. rewrite count_cons.
    change (is_snp (LSnp t)) with true. cbv iota. lia.
Qed.
Lemma conserve_snp : forall es,
  (forall e1 e2 g gs, es = e1 ++ GrantArrives :: e2 -> k_grants (lrun e1) = g :: gs ->
     count is_snp (k_wait (lrun e1)) <= c_snp (k_rx (lrun e1)) + c_snp g) ->
  credit_sum c_snp is_snp (lrun es) = 256.
Proof.
  intros es. induction es as [|e es IH] using rev_ind; [reflexivity|]. intros A. rewrite lrun_app.
  assert (IH' : credit_sum c_snp is_snp (lrun es) = 256).
  { apply IH. intros e1 e2 g gs E. apply (A e1 (e2 ++ [e])). rewrite E, <- app_assoc. reflexivity. }
  apply (conserve_step _ _ _ ok_snp); auto.
  - apply Forall_forall. auto.
  - intros -> g gs G E. apply wake_keeps_snp; rewrite E.
    + unfold credit_sum in IH'. rewrite G in IH'. simpl in IH'. lia.
    + apply (A es []  g gs); auto.
Qed.

(** Requests that wait may not go. *)
Definition stuck (rx : credits) (m : lmsg) : Prop :=
  match m with LReq _ op => can_send rx op = false | LSnp _ => True end.
Definition le_cr (a b : credits) : Prop := c_req a <= c_req b /\ c_data a <= c_data b.
Lemma stuck_le : forall a b m, le_cr a b -> stuck b m -> stuck a m.
Proof.
  intros a b [t op|t] [H1 H2] S; simpl in *; [|auto].
  destruct (can_send a op) eqn:E; [|reflexivity]. apply can_send_spec in E.
  assert (can_send b op = true) by (apply can_send_spec; split; [lia|intros; destruct E as [_ E]; specialize (E H); lia]).
  congruence.
Qed.
Lemma take_req_le : forall rx op, c_req rx < 2 ^ 32 -> c_data rx < 2 ^ 32 -> can_send rx op = true ->
  le_cr (take_req rx op) rx.
Proof.
  intros rx op L1 L2 E. apply can_send_spec in E. destruct E as [E1 E2]. unfold le_cr, take_req. simpl.
  pose proof (dec32_ok (c_req rx) 1 ltac:(lia) L1). split; [lia|].
  destruct (is_write op); [|lia]. pose proof (dec32_ok (c_data rx) 1 ltac:(specialize (E2 eq_refl); lia) L2). lia.
Qed.
Lemma wake_stuck : forall ws rx, c_req rx < 2 ^ 32 -> c_data rx < 2 ^ 32 ->
  let '(rx', sent, rest) := wake rx ws in le_cr rx' rx /\ Forall (stuck rx') rest.
Proof.
  induction ws as [|[t op|t] ws IH]; intros rx L1 L2; simpl.
  - split; [unfold le_cr; lia|constructor].
  - destruct (can_send rx op) eqn:E.
    + pose proof (take_req_le rx op L1 L2 E) as [T1 T2].
      specialize (IH (take_req rx op) ltac:(lia) ltac:(lia)).
      destruct (wake (take_req rx op) ws) as [[rx' sent] rest]. destruct IH as [[I1 I2] I3].
      split; [unfold le_cr; lia|exact I3].
    + specialize (IH rx L1 L2). destruct (wake rx ws) as [[rx' sent] rest]. destruct IH as [I1 I3].
      split; [exact I1|]. constructor; [|exact I3]. apply stuck_le with rx; [exact I1|exact E].
  - specialize (IH (take_snp rx) L1 L2). destruct (wake (take_snp rx) ws) as [[rx' sent] rest].
    exact IH.
Qed.
Lemma run_stuck : forall es, (forall m, In m (asked es) -> with_data m = is_wr m) ->
  Forall (stuck (k_rx (lrun es))) (k_wait (lrun es)).
Proof.
  intros es. induction es as [|e es IH] using rev_ind; [constructor|]. intros A. rewrite lrun_app.
  assert (A' : forall m, In m (asked es) -> with_data m = is_wr m)
    by (intros; apply A; rewrite asked_app, in_app_iff; auto).
  specialize (IH A').
  pose proof (conserve_req es) as Cr. pose proof (conserve_data es A') as Cd.
  unfold credit_sum in Cr, Cd. set (s := lrun es) in *. clearbody s.
  destruct e as [[t op|t]| | | |i]; simpl.
  - destruct (can_send (k_rx s) op) eqn:E; simpl.
    + pose proof (take_req_le (k_rx s) op ltac:(lia) ltac:(lia) E) as T.
      eapply Forall_impl; [|exact IH]. intros m. now apply stuck_le.
    + apply Forall_app. split; [exact IH|]. constructor; [exact E|constructor].
  - destruct (c_snp (k_rx s) =? 0); simpl.
    + apply Forall_app. split; [exact IH|]. constructor; [exact I|constructor].
    + eapply Forall_impl; [|exact IH]. intros m. apply stuck_le. unfold le_cr. simpl. lia.
  - destruct (has_credits (k_tx s)); simpl; exact IH.
  - destruct (k_grants s) as [|g gs] eqn:G; [exact IH|]. simpl in Cr, Cd.
    assert (B1 : c_req (cr_inc (k_rx s) g) < 2 ^ 32) by (simpl; unfold w32; apply N.mod_lt; discriminate).
    assert (B2 : c_data (cr_inc (k_rx s) g) < 2 ^ 32) by (simpl; unfold w32; apply N.mod_lt; discriminate).
    pose proof (wake_stuck (k_wait s) _ B1 B2) as W.
    destruct (wake (cr_inc (k_rx s) g) (k_wait s)) as [[rx sent] rest]. simpl. exact (proj2 W).
  - destruct (k_wire s); simpl; exact IH.
  - destruct (nth_error (k_open s) i); simpl; exact IH.
Qed.
