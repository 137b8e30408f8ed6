(** Response matching of remote-port requesters. *)
From Verif Require Import Base RpSlotsModel RpSlotsSpec RpSlotsProofs.
Open Scope N_scope.

(** C06.  In every interleaving of requests, answers and wake-ups, every response a
    thread gets answers the request it is waiting for ... *)
Theorem C06_own_response : forall os y h,
  always_young os -> run sys0 os = Ok (y, h) -> own_responses h.
Proof. exact slots_own. Qed.
Print Assumptions C06_own_response.

(** ... no step fails, except a 257th simultaneous request (in particular no
    response arrives without a waiter) ... *)
Theorem C06_no_failure : forall os y h o,
  always_young os -> run sys0 os = Ok (y, h) ->
  (forall y' b, step y o <> Ok (y', b)) ->
  exists t, o = Request t false /\ length (y_wait y) = 256%nat.
Proof. exact slots_safe. Qed.
Print Assumptions C06_no_failure.

(** ... and a response that has arrived is there when its thread is scheduled, however
    many other responses arrived in between. *)
Theorem C06_response_not_lost : forall os y h t q,
  always_young os -> run sys0 os = Ok (y, h) ->
  pending t h = Some q -> ~ In (q, false) (y_net y) ->
  exists y', step y (Wake t) = Ok (y', Got t q).
Proof. exact slots_delivered. Qed.
Print Assumptions C06_response_not_lost.

Definition ex_ops : list op :=
  [Request 1 false; Request 2 true; Request 3 false; Answer 2; Wake 1; Wake 3; Request 3 false;
   Answer 1; Answer 0; Answer 0; Wake 1; Wake 3].
Example C06_case : exists y,
  run sys0 ex_ops =
    Ok (y, [Sent 1 0 false; Sent 2 1 true; Sent 3 2 false; Nothing; Nothing; Got 3 2;
            Sent 3 3 false; Nothing; Nothing; Nothing; Got 1 0; Got 3 3])
  /\ always_young ex_ops.
Proof.
  eexists. split; [vm_compute; reflexivity|].
  intros pre post y h E R.
  assert (L : forall os y h, run sys0 os = Ok (y, h) -> y_seq y <= N.of_nat (length os)).
  { clear. induction os as [|o os IH] using rev_ind; intros y h R.
    - injection R as <- _. reflexivity.
    - rewrite run_snoc in R. destruct (run sys0 os) as [[y1 h1]| | |]; try discriminate.
      specialize (IH y1 h1 eq_refl). cbn [rbind] in R.
      assert (St : forall y' b, step y1 o = Ok (y', b) -> y_seq y' <= y_seq y1 + 1).
      { clear. intros y' b S. destruct o as [t p|k|t]; cbn [step] in S.
        - destruct (waiting t (y_wait y1)); [injection S as <- _; lia|].
          destruct p; [injection S as <- _; cbn; lia|].
          destruct (response_claim _ _) as [[l i]| | |]; try discriminate.
          injection S as <- _; cbn; lia.
        - destruct (nth_error _ _) as [[q p]|]; [|injection S as <- _; lia].
          destruct (response_deliver _ _ _ _) as [l| | |]; try discriminate.
          injection S as <- _; cbn; lia.
        - destruct (waiting t (y_wait y1)); [|injection S as <- _; lia].
          destruct (sl_valid _); injection S as <- _; cbn; lia. }
      destruct (step y1 o) as [[y2 b]| | |]; try discriminate.
      injection R as <- _. specialize (St y2 b eq_refl).
      rewrite app_length. cbn [length]. lia. }
  apply L in R. apply (f_equal (@length op)) in E. rewrite app_length in E.
  change (length ex_ops) with 12%nat in E.
  intros w _. lia.
Qed.
