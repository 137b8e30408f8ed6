(** Property C33, slave side: scheduling in the AXI-to-TLM bridge.  [ace = false]
    is AXI; with [ace = true] the results hold while no barriers are sent
    ([no_barrier], part of [reached]). *)
From Verif Require Import Base Axi2TlmSpec Axi2TlmSched Axi2TlmSchedProofs.
From Coq Require Import Permutation.
Open Scope N_scope.

(** Issue and answer follow arrival, id by id. *)
Theorem C33_order_partial ace s : reached ace s ->
  in_order t_id (arrived s) (issued s) /\ in_order t_id (arrived s) (answered s).
Proof. intros R. split; [exact (issue_order ace s R)|exact (answer_order ace s R)]. Qed.

(** Within a 4K page, transactions reach the target one at a time in the order
    they entered the list; so do those of one id. *)
Theorem C33_page_partial ace s : reached ace s ->
  in_order t_page (entered s) (issued s) /\
  (forall c, (length (pick_key t_page c (issued s)) <= S (length (pick_key t_page c (finished s))))%nat) /\
  (forall c, (length (pick_key t_id c (issued s)) <= S (length (pick_key t_id c (finished s))))%nat).
Proof.
  intros R. split; [exact (page_order ace s R)|].
  split; intros c; apply (one_each ace s); try exact R; [right|left]; reflexivity.
Qed.

(** Answers are to accepted transactions, at most one each; the number in flight
    stays within the limit. *)
Theorem C33_once_partial ace s : reached ace s ->
  NoDup (map t_obj (arrived s)) /\ NoDup (map t_obj (answered s)) /\ incl (answered s) (arrived s) /\
  (length (arrived s) - length (answered s) <= 16)%nat.
Proof.
  intros R. pose proof (reached_inv _ _ R) as I. destruct (answered_once ace s R) as [H1 H2].
  pose proof (iv_log _ _ I) as L.
  pose proof (lg_num _ _ _ L) as lg_num0. pose proof (lg_all _ _ _ L) as lg_all0. pose proof (lg_fin _ _ _ L) as lg_fin0.
  pose proof (lg_max _ _ _ L) as lg_max0. pose proof (lg_cnt _ _ _ L) as lg_cnt0. split; [fold (objs (arrived s)); rewrite lg_num0; apply num_nodup|].
  split; [exact H1|]. split; [exact H2|].
  rewrite (Permutation_length lg_all0), lg_fin0, !app_length.
  unfold MAX_TX in lg_max0. rewrite lg_cnt0 in lg_max0. lia.
Qed.

(** No deadlock: from every state, events other than new requests lead to all
    accepted transactions being answered. *)
Theorem C33_progress_partial ace s : reached ace s ->
  exists es s', Forall (fun e => is_new e = false) es /\ steps ace es s = Some s' /\
    Permutation (arrived s) (answered s').
Proof. intros R. destruct (drain_all ace s R) as [es [s' [H1 [H2 [H3 _]]]]]. exists es, s'. tauto. Qed.

(** Three reads, two of id 1; the read of id 2 is in the page of the first and
    waits; the second of id 1 is issued only after the first came back. *)
Example C33_sched_case :
  option_map (fun s => (map t_obj (issued s), map t_obj (answered s), map snd (s_thr s)))
    (steps false [E_Addr 1 7 false false false; E_Addr 2 7 false false false; E_Addr 1 8 false false false;
                  E_Thread 0; E_Thread 1; E_Thread 0; E_Thread 1; E_Thread 1; E_Pop; E_Resp] sched0) =
  Some ([0; 2; 1], [0], [P_Busy (mkTr 2 1 8 false false)]).
Proof. reflexivity. Qed.

(** With barriers, which are not counted, the response fifo can be full when the
    target returns.  The thread blocks after removing its transaction from the
    list; the next request of the id starts a second thread and both run it: the
    same transaction is issued and answered twice (and freed twice). *)
Definition many_barriers : list ev :=
  concat (map (fun n => [E_Addr (N.of_nat n) (N.of_nat n) true false false; E_Thread 0; E_Thread 0]) (seq 100 17)).
Theorem C33_barrier_refuted :
  exists s, steps true
    ([E_Addr 99 99 true false false; E_Thread 0; E_Thread 0; E_Pop] ++ firstn 48 many_barriers ++
     [E_Addr 5 1 false false false; E_Thread 0; E_Thread 0;         (* fifo full: blocked *)
      E_Addr 5 2 false false false; E_Thread 1;                     (* second thread of id 5 *)
      E_Resp; E_Pop; E_Thread 0;                                    (* room: first thread goes on *)
      E_Resp; E_Pop; E_Thread 0; E_Resp; E_Pop; E_Thread 0] ++
     concat (repeat [E_Resp; E_Pop] 16) ++ [E_Resp]) sched0 = Some s /\
  length (arrived s) = 19%nat /\ pick_key t_id 5 (issued s) = [mkTr 17 5 1 false false; mkTr 18 5 2 false false; mkTr 18 5 2 false false] /\
  ~ NoDup (map t_obj (answered s)).
Proof.
  eexists. split; [vm_compute; reflexivity|]. split; [reflexivity|]. split; [reflexivity|].
  cbn. intros H. repeat (apply NoDup_cons_iff in H; destruct H as [?H H]).
  repeat match goal with X : ~ _ |- _ => try (apply X; cbn; tauto); clear X end.
Qed.

Print Assumptions C33_order_partial.
Print Assumptions C33_page_partial.
Print Assumptions C33_once_partial.
Print Assumptions C33_progress_partial.
Print Assumptions C33_barrier_refuted.
