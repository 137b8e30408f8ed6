(** C105: the credits of a CCIX link. *)
From Verif Require Import Base CcixLinkModel CcixLinkSpec CcixLinkProofs.
From Coq Require Import Lia ZifyN ZifyNat Permutation.
Open Scope N_scope.

(** C105: the 256 request credits are never lost or multiplied, so that the receiver
    never has more than 256 requests and 256 identifiers are enough. *)
Theorem C105_requests : forall es,
  c_req (k_rx (lrun es)) + total c_req (k_grants (lrun es)) + c_req (k_tx (lrun es))
    + count is_req (k_wire (lrun es)) + count is_req (k_open (lrun es)) = 256 /\
  count is_req (k_open (lrun es)) <= 256.
Proof.
  intros es. pose proof (conserve_req es) as H. unfold credit_sum in H.
  split; [exact H|]. lia.
Qed.
Example C105_requests_case :
  let s := lrun [Ask (LReq 1 4); Grant; Grant; GrantArrives; Ask (LReq 2 28); Arrives] in
  k_open s = [LReq 1 4] /\ k_wire s = [LReq 2 28] /\ k_rx s = mkCr 253 254 255 /\ k_grants s = [mkCr 1 1 1].
Proof. repeat split. Qed.

(** C105: nor are the data credits, as long as there are no atomics. *)
Theorem C105_data_partial : forall es,
  (forall m, In m (asked es) -> with_data m = is_wr m) ->
  c_data (k_rx (lrun es)) + total c_data (k_grants (lrun es)) + c_data (k_tx (lrun es))
    + count is_wr (k_wire (lrun es)) + count is_wr (k_open (lrun es)) = 256.
Proof. intros es H. exact (conserve_data es H). Qed.
Example C105_data_case :
  let s := lrun [Grant; GrantArrives; Ask (LReq 1 27); Ask (LReq 2 1); Arrives; Arrives; Done 1; Done 0; Grant] in
  k_rx s = mkCr 253 254 255 /\ k_grants s = [mkCr 3 2 1] /\ k_done s = [LReq 2 1; LReq 1 27].
Proof. repeat split. Qed.

(** C105: nor are the snoop credits, as long as a grant that arrives covers the snoops
    that wait. *)
Theorem C105_snoops_partial : forall es,
  (forall e1 e2 g gs, es = e1 ++ GrantArrives :: e2 -> k_grants (lrun e1) = g :: gs ->
     count is_snp (k_wait (lrun e1)) <= c_snp (k_rx (lrun e1)) + c_snp g) ->
  c_snp (k_rx (lrun es)) + total c_snp (k_grants (lrun es)) + c_snp (k_tx (lrun es))
    + count is_snp (k_wire (lrun es)) + count is_snp (k_open (lrun es)) = 256.
Proof. intros es H. exact (conserve_snp es H). Qed.
Example C105_snoops_case :
  let s := lrun [Ask (LSnp 7); Grant; GrantArrives; Arrives; Ask (LSnp 8)] in
  k_rx s = mkCr 255 255 253 /\ k_open s = [LSnp 7] /\ k_wire s = [LSnp 8].
Proof. repeat split. Qed.

(** C105: every message given to the link is in exactly one place: waiting, on the way,
    at the receiver or done. *)
Theorem C105_once : forall es,
  Permutation (asked es) (k_done (lrun es) ++ k_open (lrun es) ++ k_wire (lrun es) ++ k_wait (lrun es)).
Proof. exact run_places. Qed.
Example C105_once_case :
  let s := lrun [Ask (LReq 1 4); Ask (LSnp 2); Grant; GrantArrives; Ask (LReq 3 25); Arrives; Done 0; Arrives] in
  (k_done s, k_open s, k_wire s, k_wait s) = ([LReq 1 4], [LSnp 2], [LReq 3 25], []).
Proof. reflexivity. Qed.

(** C105: without atomics, a request waits only while credits are on their way or held by
    messages that are not done: once all is quiet none waits. *)
Theorem C105_progress_partial : forall es,
  (forall m, In m (asked es) -> with_data m = is_wr m) ->
  k_wire (lrun es) = [] -> k_open (lrun es) = [] -> k_grants (lrun es) = [] ->
  k_tx (lrun es) = mkCr 0 0 0 ->
  forall t op, ~ In (LReq t op) (k_wait (lrun es)).
Proof.
  intros es A W O G T t op I.
  pose proof (conserve_req es) as Cr. pose proof (conserve_data es A) as Cd.
  pose proof (run_stuck es A) as S. unfold credit_sum in Cr, Cd.
  rewrite W, O, G, T in Cr, Cd. unfold count in Cr, Cd. simpl in Cr, Cd.
  rewrite Forall_forall in S. specialize (S _ I). simpl in S.
  assert (can_send (k_rx (lrun es)) op = true) by (apply can_send_spec; split; intros; lia).
  congruence.
Qed.
Example C105_progress_case :
  let s := lrun [Ask (LReq 1 25); Ask (LReq 2 1)] in
  k_wait s = [LReq 1 25; LReq 2 1] /\ k_wait (lstep (lstep s Grant) GrantArrives) = [].
Proof. split; reflexivity. Qed.

(** C105: a grant fits the four fields of 8 bits and is not empty. *)
Theorem C105_grants : forall es g, In g (k_grants (lrun es)) ->
  c_req g < 256 /\ c_data g < 256 /\ c_snp g < 256 /\ 0 < c_req g + c_data g + c_snp g.
Proof.
  intros es. induction es as [|e es IH] using rev_ind; [easy|]. rewrite lrun_app.
  set (s := lrun es) in *. clearbody s. intros g H.
  destruct e as [[t op|t]| | | |i]; simpl in H.
  - destruct (can_send (k_rx s) op); auto.
  - destruct (c_snp (k_rx s) =? 0); auto.
  - destruct (has_credits (k_tx s)) eqn:E; [|auto]. simpl in H. apply in_app_iff in H.
    destruct H as [H|[<-|[]]]; [auto|]. unfold has_credits in E.
    rewrite !orb_true_iff, !N.ltb_lt in E. unfold grant_of. cbn [c_req c_data c_snp]. lia.
  - destruct (k_grants s) as [|x gs] eqn:E; [rewrite E in H; easy|].
    destruct (wake (cr_inc (k_rx s) x) (k_wait s)) as [[rx sent] rest]. apply IH. now right.
  - destruct (k_wire s); auto.
  - destruct (nth_error (k_open s) i); auto.
Qed.
Example C105_grants_case : k_grants (lrun [Grant; Grant; Grant]) = [mkCr 255 255 255; mkCr 1 1 1].
Proof. reflexivity. Qed.

(** C105, refuted: an atomic takes no data credit but gives one back.  After [n] of them,
    with nothing under way, the sender has 256 + n data credits; the CCIX limit is 1023. *)
Definition start : list lev := [Grant; Grant; GrantArrives; GrantArrives].
Definition one_atomic : list lev := [Ask (LReq 0 40); Arrives; Done 0; Grant; GrantArrives].
Lemma atomic_turn : forall d ds,
  fold_left lstep one_atomic (mkLink (mkCr 256 d 256) [] [] [] ds (mkCr 0 0 0) []) =
  mkLink (mkCr 256 (w32 (d + 1)) 256) [] [] [] (ds ++ [LReq 0 40]) (mkCr 0 0 0) [].
Proof. reflexivity. Qed.
Theorem C105_atomics_refuted : forall n, (n < 2 ^ 32 - 256) ->
  let s := lrun (start ++ concat (repeat one_atomic (N.to_nat n))) in
  c_data (k_rx s) = 256 + n /\ k_wire s = [] /\ k_open s = [] /\ k_wait s = [].
Proof.
  intros n H.
  assert (Q : forall k d ds, d + N.of_nat k < 2 ^ 32 -> exists ds',
    fold_left lstep (concat (repeat one_atomic k)) (mkLink (mkCr 256 d 256) [] [] [] ds (mkCr 0 0 0) []) =
    mkLink (mkCr 256 (d + N.of_nat k) 256) [] [] [] ds' (mkCr 0 0 0) []).
  { induction k as [|k IH]; intros d ds L.
    - exists ds. simpl. rewrite N.add_0_r. reflexivity.
    - cbn [repeat concat]. rewrite fold_left_app, atomic_turn, w32_small by lia.
      destruct (IH (d + 1) (ds ++ [LReq 0 40]) ltac:(lia)) as [ds' E]. exists ds'. rewrite E.
      replace (d + 1 + N.of_nat k) with (d + N.of_nat (S k)) by lia. reflexivity. }
  unfold lrun. rewrite fold_left_app.
  change (fold_left lstep start link_init) with (mkLink (mkCr 256 256 256) [] [] [] [] (mkCr 0 0 0) []).
  destruct (Q (N.to_nat n) 256 [] ltac:(lia)) as [ds' E]. rewrite E.
  cbv zeta. cbn [k_rx c_data k_wire k_open k_wait]. rewrite N2Nat.id. repeat split.
Qed.
Example C105_atomics_case :
  k_rx (lrun (start ++ one_atomic ++ one_atomic ++ one_atomic)) = mkCr 256 259 256.
Proof. reflexivity. Qed.

(** C105, refuted: a snoop that waits goes on after any grant, one without snoop credits
    as well, and the count of the sender passes below zero; from then on snoops are sent
    without limit.  257 + n of them are at the receiver, for any n.  (A port of this
    home has at most one snoop for each agent under way.) *)
Definition before_wrap : list lev :=
  start ++ [Ask (LReq 0 4); Arrives; Done 0] ++ repeat (Ask (LSnp 0)) 257 ++ [Grant; GrantArrives].
Lemma asks : forall n x ws, N.of_nat n <= x -> x < 2 ^ 32 -> forall ds,
  fold_left lstep (repeat (Ask (LSnp 0)) n) (mkLink (mkCr 256 256 x) [] ws [] ds (mkCr 0 0 0) []) =
  mkLink (mkCr 256 256 (x - N.of_nat n)) [] (ws ++ repeat (LSnp 0) n) [] ds (mkCr 0 0 0) [].
Proof.
  induction n as [|n IH]; intros x ws H L ds.
  - simpl. rewrite app_nil_r, N.sub_0_r. reflexivity.
  - cbn [repeat fold_left]. unfold lstep at 2. cbn [k_rx c_snp].
    destruct (x =? 0) eqn:E; [apply N.eqb_eq in E; lia|]. clear E.
    unfold take_snp. cbn [k_rx k_wait k_wire k_open k_done k_tx k_grants c_req c_data c_snp].
    pose proof (dec32_ok x 1 ltac:(lia) L) as D.
    rewrite IH by lia. rewrite <- app_assoc.
    replace (dec32 x 1 - N.of_nat n) with (x - N.of_nat (S n)) by lia. reflexivity.
Qed.
Lemma arrivals : forall n rx op ds,
  fold_left lstep (repeat Arrives n) (mkLink rx [] (repeat (LSnp 0) n) op ds (mkCr 0 0 0) []) =
  mkLink rx [] [] (op ++ repeat (LSnp 0) n) ds (mkCr 0 0 0) [].
Proof.
  induction n as [|n IH]; intros rx op ds.
  - simpl. now rewrite app_nil_r.
  - cbn [repeat fold_left]. unfold lstep at 2. cbn [k_rx k_wait k_wire k_open k_done k_tx k_grants].
    rewrite IH, <- app_assoc. reflexivity.
Qed.
Theorem C105_snoops_refuted : forall n, N.of_nat n < 2 ^ 32 - 1 ->
  let s := lrun (before_wrap ++ repeat (Ask (LSnp 0)) n ++ repeat Arrives (257 + n)) in
  count is_snp (k_open s) = 257 + N.of_nat n.
Proof.
  intros n H. unfold lrun. rewrite !fold_left_app.
  replace (fold_left lstep before_wrap link_init) with
    (mkLink (mkCr 256 256 (2 ^ 32 - 1)) [] (repeat (LSnp 0) 257) [] [LReq 0 4] (mkCr 0 0 0) [])
    by (vm_compute; reflexivity).
  rewrite asks by lia. rewrite <- repeat_app, arrivals. cbn [k_open app].
  assert (Q : forall k, count is_snp (repeat (LSnp 0) k) = N.of_nat k).
  { induction k as [|k IH]; [reflexivity|]. cbn [repeat]. rewrite count_cons, IH.
    change (is_snp (LSnp 0)) with true. cbv iota. lia. }
  rewrite Q. lia.
Qed.
Example C105_snoops_refuted_case :
  c_snp (k_rx (lrun before_wrap)) = 4294967295 /\ length (k_wire (lrun before_wrap)) = 257%nat.
Proof. vm_compute. split; reflexivity. Qed.

(** C105, refuted: of the credits in a message header (two bits each for requests, data
    and snoops) those for snoops are read from the bits of the data credits. *)
Theorem C105_header_refuted : forall r d s, r < 4 -> d < 4 -> s < 4 ->
  piggy (mkCr 0 0 0) (r + 4 * d + 16 * s) = mkCr r d d.
Proof.
  intros r d s Hr Hd Hs.
  assert (In r [0; 1; 2; 3]) as R by (simpl; lia).
  assert (In d [0; 1; 2; 3]) as D by (simpl; lia).
  assert (In s [0; 1; 2; 3]) as S by (simpl; lia).
  clear Hr Hd Hs. simpl in R, D, S.
  repeat match goal with H : _ \/ _ |- _ => destruct H as [<-|H] end; try contradiction; reflexivity.
Qed.
Example C105_header_case : piggy (mkCr 0 0 0) 48 = mkCr 0 0 0 /\ piggy (mkCr 0 0 0) 4 = mkCr 0 1 1.
Proof. split; reflexivity. Qed.

Print Assumptions C105_requests.
Print Assumptions C105_data_partial.
Print Assumptions C105_snoops_partial.
Print Assumptions C105_once.
Print Assumptions C105_progress_partial.
Print Assumptions C105_grants.
Print Assumptions C105_atomics_refuted.
Print Assumptions C105_snoops_refuted.
Print Assumptions C105_header_refuted.
