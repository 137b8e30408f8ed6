(** Property C22: CHI transaction ids. *)
From Verif Require Import Base TxnIdsModel TxnIdsProofs.
From Coq Require Import Permutation.
Open Scope N_scope.

(** In every state reached, by any number of threads in any order, no id is held
    twice, no free id is held, and no id is ever lost. *)
Theorem C22_ids_unique_partial es s :
  texec ids_init es (Ok s) ->
  NoDup (map snd (t_held s)) /\
  (forall id, In id (t_ids s) -> ~ In id (map snd (t_held s))) /\
  (forall id, id < 256 -> In id (t_ids s) \/ In id (map snd (t_held s))).
Proof.
  intros H. pose proof (texec_inv _ _ _ tinv_init H) as Hi. pose proof (tinv_nodup _ Hi) as Hn.
  split; [eapply NoDup_app_r, Hn|]. split.
  - intros id H1 H2. clear - Hn H1 H2. induction (t_ids s) as [|x l IH]; [destruct H1|].
    cbn in Hn. inversion Hn as [|? ? Hx Hn']; subst. destruct H1 as [->|H1].
    + apply Hx, in_or_app. right. exact H2.
    + apply IH; assumption.
  - intros id Hid. apply in_app_or. apply (Permutation_in id (Permutation_sym Hi)).
    unfold all_ids. apply in_map_iff. exists (N.to_nat id). split; [apply N2Nat.id|].
    apply in_seq. lia.
Qed.

(** A returned id is free again; a request is served at once while any id is
    free, otherwise the caller waits. *)
Theorem C22_return_and_get es s : texec ids_init es (Ok s) ->
  (forall t id s', In (t, id) (t_held s) -> tstep s (Ret t id) = Ok s' -> In id (t_ids s')) /\
  (forall t, (length (t_held s) < 256)%nat ->
     exists id ids, t_ids s = id :: ids /\
       tstep s (Get t) = Ok (mkT ids (t_waiting s) (t_ready s) ((t, id) :: t_held s))) /\
  (forall t, length (t_held s) = 256%nat ->
     tstep s (Get t) = Ok (mkT [] (t :: t_waiting s) (t_ready s) (t_held s))).
Proof.
  intros H. pose proof (texec_inv _ _ _ tinv_init H) as Hi.
  assert (Hl : (length (t_ids s) + length (t_held s) = 256)%nat).
  { pose proof (Permutation_length Hi) as L. unfold all_ids in L.
    rewrite app_length, !map_length, seq_length in L. exact L. }
  split; [|split].
  - intros t id s' _ E. injection E as <-. cbn [t_ids]. apply in_or_app. right. left. reflexivity.
  - intros t Ht. destruct (t_ids s) as [|id ids] eqn:E; [cbn in Hl; lia|].
    exists id, ids. split; [reflexivity|]. cbn [tstep]. unfold take_id. rewrite E. reflexivity.
  - intros t Ht. destruct (t_ids s) as [|id ids] eqn:E; [|cbn in Hl; lia].
    cbn [tstep]. rewrite E. reflexivity.
Qed.

(** 256 holders and two waiters: one return wakes both, the second pops from an
    empty list. *)
Definition ex_fill : list tevent := map (fun t => Get t) (seq 0 258).
Theorem C22_two_waiters_refuted :
  texec ids_init (ex_fill ++ [Ret 0 0; Resume 256; Resume 257]) UB.
Proof. apply ends_ub_ok. vm_compute. reflexivity. Qed.

Example C22_case :
  exists s, texec ids_init [Get 7; Get 8; Ret 7 0; Get 9] (Ok s) /\ t_held s = [(9%nat, 2); (8%nat, 1)].
Proof.
  destruct (run_events ids_init [Get 7; Get 8; Ret 7 0; Get 9]) as [s|] eqn:E.
  - exists s. split; [apply run_events_ok, E|].
    assert (F : option_map t_held (run_events ids_init [Get 7; Get 8; Ret 7 0; Get 9]) = Some [(9%nat, 2); (8%nat, 1)])
      by (vm_compute; reflexivity).
    rewrite E in F. injection F as F. exact F.
  - exfalso. vm_compute in E. discriminate.
Qed.

Print Assumptions C22_ids_unique_partial.
Print Assumptions C22_return_and_get.
Print Assumptions C22_two_waiters_refuted.
