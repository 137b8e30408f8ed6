(** The exclusive monitor of the interconnect: who can set and clear it. *)
From Verif Require Import Base TlmModel TlmSpec AceSpec AceModel AceFacts.
Open Scope N_scope.

(** the engine is about to let an exclusive CleanUnique of [m] through *)
Definition grants (s : state) (m : nat) : Prop :=
  exists r, s_pc s m = Entered r K_CleanUnique /\ o_excl (r_op r) = true /\ s_pos s m = true.
(** the engine is about to set the monitor of [m] *)
Definition arms (s : state) (m : nat) : Prop :=
  exists r k, s_pc s m = Entered r k /\ o_excl (r_op r) = true /\ s_lock s = false.

Section Pos.
Context (f : cfg).

Lemma issue_pos s m r k : s_pos (issue f s m r k) = s_pos s.
Proof. unfold issue. destruct (is_overlapping _ _ _); reflexivity. Qed.
Lemma fill_pos s m r k : s_pos (fill f s m r k) = s_pos s.
Proof. unfold fill. destruct (l_valid _); [destruct (l_dirty _)|]; rewrite ?issue_pos; reflexivity. Qed.
Lemma restart_one_pos g s w : s_pos (restart_one f g s w) = s_pos s.
Proof. unfold restart_one. destruct (_ && _); [|reflexivity]. destruct (s_pc s w); reflexivity. Qed.
Lemma leave_pos s m r : s_pos (tx_leave f s m r) = s_pos s.
Proof.
  unfold tx_leave. match goal with |- s_pos (fold_left (restart_one f ?g) ?l ?s1) = _ =>
    enough (H : forall s0, s_pos (fold_left (restart_one f g) l s0) = s_pos s0) by (now rewrite H);
    induction l as [|w l' IH]; intro s0; cbn; [reflexivity|now rewrite IH, restart_one_pos] end.
Qed.
Lemma local_pos s m r : s_pos (fst (local f s m r)) = s_pos s.
Proof.
  unfold local. destruct (o_kind (r_op r)).
  - destruct (_ <=? _); [reflexivity|]. destruct (in_cache _ _ _ _); [reflexivity|].
    destruct (f_wt f m); [|destruct (o_excl (r_op r))]; cbn [fst]; now rewrite fill_pos.
  - destruct (_ <=? _); [reflexivity|]. destruct (f_wt f m); [apply issue_pos|].
    destruct (o_excl (r_op r) && _); [reflexivity|].
    destruct (in_cache _ _ _ _); [|apply fill_pos]. destruct (negb _); [reflexivity|apply issue_pos].
  - destruct (in_cache _ _ _ _ && _); [reflexivity|apply issue_pos].
  - destruct (in_cache _ _ _ _); cbn [fst]; now rewrite issue_pos.
  - destruct (in_cache _ _ _ _); cbn [fst]; now rewrite issue_pos.
Qed.

Lemma step_pos s lb s' es j :
  step f s lb = Some (s', es) -> s_pos s' j = true -> s_pos s j = true \/ lb = L_Engine j /\ arms s j.
Proof.
  intros H P. destruct lb as [m o|m|m|m i|m|m|m|]; cbn [step] in H.
  - destruct (s_pc s m); try discriminate. destruct (m <? f_nm f)%nat; [|discriminate]. injection H as <- <-. now left.
  - destruct (s_pc s m); try discriminate. injection H as H. left. now rewrite <- (local_pos s m r), H.
  - destruct (s_pc s m) eqn:E; try discriminate. assert (s' = engine f s m r k) as -> by congruence.
    unfold engine in P. destruct (o_excl (r_op r)) eqn:X; [|now left].
    assert (G : (if s_lock s then s_pos s else updn (s_pos s) m true) j = true ->
                s_pos s j = true \/ L_Engine m = L_Engine j /\ arms s j).
    { destruct (s_lock s) eqn:Lk; [now left|]. destruct (Nat.eq_dec j m) as [->|N].
      - intros _. right. split; [reflexivity|]. exists r, k. auto.
      - rewrite updn_ne by auto. now left. }
    destruct k; cbn in P; auto.
    destruct (s_pos s m); cbn in P; auto. destruct (Nat.eqb j m); [auto|discriminate].
  - destruct (s_pc s m); try discriminate. destruct (_ && _); [|discriminate].
    destruct (handle_snoop _ _ _ _ _). injection H as <- <-. now left.
  - destruct (s_pc s m); try discriminate. destruct todo; [|discriminate]. injection H as <- <-. now left.
  - left. unfold downstream in H. destruct (s_pc s m); try discriminate.
    + destruct (x_ds x); [|discriminate]. now injection H as <- <-.
    + destruct (x_ok x); [now injection H as <- <-|]. destruct k; now injection H as <- <-.
    + now injection H as <- <-.
  - left. unfold complete in H. destruct (s_pc s m); try discriminate;
      rewrite <- (leave_pos s m r).
    + destruct k.
      1-4: destruct (o_kind (r_op r)); [destruct (o_excl (r_op r) && _)|..]; now injection H as <- <-.
      * destruct (o_excl (r_op r)); [destruct (_ && x_ex x)|]; now injection H as <- <-.
      * destruct (o_excl (r_op r) && _); now injection H as <- <-.
      * now injection H as <- <-.
      * now injection H as <- <-.
      * now injection H as <- <-.
      * now injection H as <- <-.
      * now injection H as <- <-.
    + injection H as <- <-. now rewrite issue_pos in P.
  - injection H as <- <-. now left.
Qed.

Lemma grant_clears s m s1 es j :
  grants s m -> step f s (L_Engine m) = Some (s1, es) -> j <> m -> s_pos s1 j = false.
Proof.
  intros (r & E & X & P) H N. cbn in H. rewrite E in H.
  assert (s1 = engine f s m r K_CleanUnique) as -> by congruence. unfold engine. rewrite X, P. cbn.
  destruct (Nat.eqb_spec j m); [congruence|reflexivity].
Qed.

Lemma exec_pos ls s1 s2 es j :
  exec f s1 ls = Some (s2, es) -> s_pos s1 j = false -> s_pos s2 j = true ->
  exists la lb sa ea, ls = la ++ L_Engine j :: lb /\ exec f s1 la = Some (sa, ea) /\ arms sa j.
Proof.
  revert s1 es. induction ls as [|lb ls IH]; intros s1 es H P1 P2; cbn [exec] in H.
  - injection H as <- <-. congruence.
  - destruct (step f s1 lb) as [[s' e1]|] eqn:E; [|discriminate].
    destruct (exec f s' ls) as [[s'' e2]|] eqn:E2; [|discriminate]. injection H as <- <-.
    destruct (s_pos s' j) eqn:P'.
    + destruct (step_pos _ _ _ _ _ E P') as [Q|[-> A]]; [congruence|].
      exists [], ls, s1, []. auto.
    + destruct (IH s' e2 E2 P' P2) as (la & lc & sa & ea & -> & Ha & A).
      exists (lb :: la), lc, sa, (e1 ++ ea). split; [reflexivity|]. split; [|exact A].
      cbn [exec]. now rewrite E, Ha.
Qed.
End Pos.
