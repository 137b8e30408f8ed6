(** C96-C98: the Ethernet MAC soc/net/ethernet/xilinx/mrmac. *)
From Verif Require Import Base LeFacts CrcSpec MrmacModel MrmacSpec MrmacProofs.
From Coq Require Import Lia.
Open Scope N_scope.

(** ** C96: transmission *)

(** Packets of 14 to 65532 bytes leave once each, whole and in order, followed by their frame
    check sequence if insertion is on, however they are cut into transactions and whatever
    reception and register accesses happen in between.  Missing: other lengths, changes of the
    configuration and resets between the packets. *)
Theorem C96_sends_partial ins s l ps r :
  idle s -> tx_enable s = true -> Forall steady l -> packets [] l = (ps, r) ->
  Forall (fun p => 14 <= N.of_nat (length p) <= 65532) ps -> N.of_nat (length r) <= 65532 ->
  exists s' outs, run ins s l = Ok (s', outs) /\
    sent outs = map (fun p => if tx_ins s then sealed p else p) ps.
Proof.
  intros [I1 I2] E St P F R.
  assert (S : sound s) by (split; rewrite ?I1, ?I2; constructor).
  rewrite <- I1 in P.
  destruct (run_all ins l s ps r S E St P F R) as (s' & outs & h1 & h2 & _).
  exists s', outs. split; [exact h1|exact h2].
Qed.

Definition pk1 : list N := [2; 1; 2; 3; 4; 5; 6; 7; 8; 9; 10; 11; 8; 0].
Definition pk2 : list N := [255; 255; 255; 255; 255; 255; 1; 2; 3; 4; 5; 6; 129; 0].
Example C96_sends_case :
  rmap (fun x => sent (snd x))
    (run false m0 [OTx [2; 1; 2; 3; 4] false; OPhy (sealed pk2) 18; OTurn;
                   OTx [5; 6; 7; 8; 9; 10; 11; 8; 0] true; write_tick; OTx pk2 true]) =
  Ok [pk1 ++ [220; 43; 92; 146]; pk2 ++ [243; 196; 29; 110]].
Proof. vm_compute. reflexivity. Qed.

(** A packet that is too short is not sent, but its bytes stay and begin the next packet. *)
Theorem C96_runt_refuted :
  exists l, Forall steady l /\ packets [] l = ([[1; 2; 3]; pk1], []) /\
    rmap (fun x => sent (snd x)) (run false m0 l) = Ok [sealed ([1; 2; 3] ++ pk1)].
Proof.
  exists [OTx [1; 2; 3] true; OTx pk1 true]. split; [|split; [reflexivity|vm_compute; reflexivity]].
  repeat constructor.
Qed.
(** Disabling transmission within a packet leaves the first part of it to the next packet. *)
Theorem C96_disable_refuted :
  rmap (fun x => sent (snd x))
    (run false m0 [OTx [1; 2; 3] false; OReg false A_TX1 [2; 12; 0; 0]; OTx [4; 5; 6] true;
                   OReg false A_TX1 [3; 12; 0; 0]; OTx pk1 true]) =
  Ok [sealed ([1; 2; 3] ++ pk1)].
Proof. vm_compute. reflexivity. Qed.
(** So does a reset. *)
Theorem C96_reset_refuted :
  rmap (fun x => sent (snd x)) (run false m0 [OTx [1; 2; 3] false; OReset; OTx pk1 true]) =
  Ok [sealed ([1; 2; 3] ++ pk1)].
Proof. vm_compute. reflexivity. Qed.
(** A packet of 65533 to 65535 bytes passes the assertion, and its frame check sequence is
    written behind the buffer. *)
Theorem C96_overflow_refuted n :
  65533 <= N.of_nat n <= 65535 -> run false m0 [OTx (repeat 0 n) true] = UB.
Proof.
  intros H. cbn [run step]. unfold mac_tx.
  change (tx_enable m0) with true. change (tx_ins m0) with true. cbn [negb].
  change (m_txbuf m0) with (@nil N). rewrite app_nil_l, repeat_length. cbv zeta.
  replace (2 ^ 31 <=? N.of_nat n) with false
    by (symmetry; apply N.leb_gt; change (2 ^ 31) with 2147483648; lia).
  replace (N.of_nat n <? bufsize - N.of_nat (@length N [])) with true
    by (symmetry; apply N.ltb_lt; unfold bufsize; cbn [length N.of_nat]; lia).
  cbn [negb]. replace (N.of_nat n <? 14) with false by (symmetry; apply N.ltb_ge; lia).
  replace (bufsize <? N.of_nat n + 4) with true
    by (symmetry; apply N.ltb_lt; unfold bufsize; lia).
  reflexivity.
Qed.

(** ** C97: statistics *)

(** A write of 1 to TICK shows in the statistics registers, exactly, what was sent and
    received since the tick before, and sets both ready bits. *)
Theorem C97_statistics_partial ins s l s1 outs :
  idle s -> (forall d c, m_acc s d c = 0) -> Forall steady l -> run ins s l = Ok (s1, outs) ->
  (forall d c, total (good_of s d) d c outs < 2 ^ 48) ->
  exists s', run ins s (l ++ [write_tick]) = Ok (s', outs ++ [Ticked]) /\
    (forall d c, shown s' d c = total (good_of s d) d c (since outs)) /\
    N.land (m_regs s' A_READY) 3 = 3.
Proof.
  intros [I1 I2] Z St H B.
  assert (S : sound s) by (split; rewrite ?I1, ?I2; constructor).
  destruct (run_stats ins l s s1 outs S St H) as [C A].
  { intros d c. rewrite Z. apply B. }
  assert (A' : forall d c, m_acc s1 d c = total (good_of s d) d c (since outs)).
  { intros d c. rewrite A. destruct (ticked outs) eqn:T; [reflexivity|].
    rewrite since_quiet by exact T. rewrite Z. reflexivity. }
  destruct (write_tick_step ins s1) as (s' & W & Sh & Rd).
  { intros d c. rewrite A. specialize (B d c). rewrite Z.
    assert (X : total (good_of s d) d c (since outs) <= total (good_of s d) d c outs).
    { clear. induction outs as [|x o IH]; [cbn; lia|]. cbn [since].
      destruct (existsb _ (x :: o)); [|lia]. change (x :: o) with ([x] ++ o). rewrite total_app. lia. }
    assert (2 ^ 48 < 2 ^ 64) by reflexivity. destruct (ticked outs); lia. }
  exists s'. split; [|split; [|exact Rd]].
  - apply (run_app ins l [write_tick] s s1 outs s' [Ticked] H).
    exact (run_cons ins s1 write_tick [] s' [Ticked] s' [] W eq_refl).
  - intros d c. rewrite Sh. apply A'.
Qed.

(** Reading a statistics register returns it and changes nothing. *)
Theorem C97_read s d c hi data : length data = 4%nat ->
  let a := a_stat d c + (if hi : bool then 4 else 0) in
  reg_acc s true a data = Ok (s, le_enc 4 (m_regs s a), []).
Proof.
  intros L. cbv zeta. unfold reg_acc. rewrite L. cbn [Nat.eqb].
  replace (known (a_stat d c + (if hi then 4 else 0))) with true by (destruct d, c, hi; reflexivity).
  cbn [negb rbind]. rewrite le_enc_length. cbn [Nat.ltb Nat.leb].
  replace (a_stat d c + (if hi then 4 else 0) =? A_TICK) with false by (destruct d, c, hi; reflexivity).
  reflexivity.
Qed.

(** The statistics of an interval are consistent: each frame is in one size class, good or
    bad, and a good one is unicast, multicast or broadcast. *)
Theorem C97_adds_up good d l :
  sum (map (fun c => total good d c l) bins) = total good d TotalPackets l /\
  total good d TotalGoodPackets l + total good d BadFcs l = total good d TotalPackets l /\
  total good d Unicast l + total good d Multicast l + total good d Broadcast l =
    total good d TotalGoodPackets l.
Proof.
  split; [apply total_bins|]. split; [apply total_good_bad|apply total_casts].
Qed.

Definition stats_case : res (list N) :=
  rmap (fun x => map (shown (fst x) Tx) ctrs ++ map (shown (fst x) Rx) ctrs)
    (run false m0 [OTx pk1 true; write_tick; OTx (pk2 ++ repeat 0 46) true;
                   OTx (pk1 ++ repeat 0 100) true; OPhy (sealed pk2) 0; OTurn;
                   OPhy (pk1 ++ [0; 0; 0; 0]) 0; OTurn; write_tick]).
Example C97_statistics_case :
  stats_case =
  Ok [2; 2; 182; 182; 1; 1; 0; 0; 0; 0; 0; 0; 0; 0; 0; 0; 0; 0; 0; 1; 0; 1; 1; 0;
      2; 1; 36; 18; 0; 0; 0; 0; 0; 0; 0; 0; 0; 0; 0; 0; 0; 2; 1; 0; 0; 1; 1; 0].
Proof. vm_compute. reflexivity. Qed.

(** The registers also move when TICK is only read, and then are not announced as ready. *)
Theorem C97_read_tick_refuted :
  exists s o, run false m0 [OTx pk1 true; OReg true A_TICK [0; 0; 0; 0]] = Ok (s, o) /\
    shown s Tx TotalPackets = 1 /\ m_acc s Tx TotalPackets = 0 /\ m_regs s A_READY = 0.
Proof. eexists _, _. split; [vm_compute; reflexivity|]. vm_compute. repeat split; reflexivity. Qed.
(** Counters are 48 bits wide, the two byte counters 64.  With the extended mode a
    counter wraps around, without it a step that does not fit is left out. *)
Definition width (c : ctr) : N := match c with TotalBytes | TotalGoodBytes => 64 | _ => 48 end.
Theorem C97_counter s d c v : m_acc s d c < 2 ^ width c ->
  m_acc (add s d c v) d c =
  if extend s then (m_acc s d c + v) mod 2 ^ width c
  else if m_acc s d c + v <? 2 ^ width c then m_acc s d c + v else m_acc s d c.
Proof.
  intros H. unfold add. cbn [set_acc m_acc].
  replace (dir_eqb d d && ctr_eqb c c) with true by (destruct d, c; reflexivity).
  set (n := m_acc s d c) in *. clearbody n.
  assert (Em : ctr_max c = N.ones (width c)) by (destruct c; reflexivity).
  unfold stats_add. rewrite Em, N.land_ones.
  assert (P : 2 ^ width c <> 0) by (apply N.pow_nonzero; discriminate).
  assert (W : ((n + v) mod 2 ^ 64) mod 2 ^ width c = (n + v) mod 2 ^ width c).
  { assert (D : exists k, 2 ^ 64 = 2 ^ width c * k)
      by (destruct c; [.. ]; (exists (2 ^ (64 - 48)); reflexivity) || (exists 1; reflexivity)).
    destruct D as [k D]. rewrite D.
    assert (K : k <> 0) by (intros ->; rewrite N.mul_0_r in D; discriminate D).
    rewrite N.mod_mul_r by assumption.
    rewrite N.mul_comm, N.mod_add by exact P. apply N.mod_mod. exact P. }
  rewrite W, N.ones_equiv. destruct (extend s); [rewrite andb_false_r; reflexivity|]. rewrite andb_true_r.
  destruct (n + v <? 2 ^ width c) eqn:E.
  - apply N.ltb_lt in E. rewrite N.mod_small by exact E.
    replace (N.pred (2 ^ width c) - n <? v) with false; [reflexivity|]. symmetry. apply N.ltb_ge. lia.
  - apply N.ltb_ge in E. replace (N.pred (2 ^ width c) - n <? v) with true; [reflexivity|].
    symmetry. apply N.ltb_lt. lia.
Qed.
Example C97_counter_case :
  let s := mkM (fun a => 0) (fun _ _ => 2 ^ 48 - 1) [] [] in
  m_acc (add s Tx TotalPackets 2) Tx TotalPackets =
    (if extend s then 1 else 2 ^ 48 - 1) /\
  m_acc (add s Tx TotalGoodBytes 2) Tx TotalGoodBytes = 2 ^ 48 + 1.
Proof. vm_compute. split; reflexivity. Qed.

(** Software can overwrite a statistic. *)
Theorem C97_write_refuted :
  exists s o, run false m0 [OReg false (a_stat Tx TotalPackets) [5; 0; 0; 0]] = Ok (s, o) /\
    shown s Tx TotalPackets = 5.
Proof. eexists _, _. split; [vm_compute; reflexivity|]. vm_compute. reflexivity. Qed.
(** A byte counter that would pass its maximum keeps its value instead of saturating. *)
Theorem C97_saturate_refuted :
  exists s s' o, m_acc s Tx TotalBytes = 2 ^ 64 - 2 /\ extend s = false /\
    run false s [OTx pk1 true] = Ok (s', o) /\ m_acc s' Tx TotalBytes = 2 ^ 64 - 2.
Proof.
  exists (mkM regs0 (fun d c => match c with TotalBytes => 2 ^ 64 - 2 | _ => 0 end) [] []).
  eexists _, _. split; [reflexivity|]. split; [reflexivity|].
  split; [vm_compute; reflexivity|]. vm_compute. reflexivity.
Qed.

(** ** C98: reception *)

(** A frame check sequence is right exactly if it is the CRC of the bytes before it. *)
Theorem C98_right f : bytes_ok f -> (4 <= length f)%nat ->
  rightb f = true <-> exists p, f = sealed p.
Proof. apply right_iff. Qed.

(** Frames that arrive with at most two waiting are handed to user logic in order, once each,
    unless their frame check sequence is wrong and not to be ignored; the rest still waits. *)
Theorem C98_delivers_partial ins s l ps r :
  idle s -> rx_enable s = true -> tx_enable s = true -> Forall steady l -> paced 0 l ->
  packets [] l = (ps, r) ->
  Forall (fun p => 14 <= N.of_nat (length p) <= 65532) ps -> N.of_nat (length r) <= 65532 ->
  exists s' outs, run ins s l = Ok (s', outs) /\
    delivered outs ++ filter (good_rx s) (map f_bytes (m_fifo s')) =
    filter (good_rx s) (arrived ins l).
Proof.
  intros [I1 I2] Er Et St Pa P F R.
  assert (S : sound s) by (split; rewrite ?I1, ?I2; constructor).
  rewrite <- I1 in P.
  destruct (run_all ins l s ps r S Et St P F R) as (s' & outs & h1 & h2 & h3 & h4 & h5 & h6 & h7).
  exists s', outs. split; [exact h1|]. rewrite I2 in h7. specialize (h7 Er Pa).
  cbn [map app] in h7. rewrite <- h7, filter_app, h6. reflexivity.
Qed.
(** With insertion of the frame check sequence, all of them are. *)
Theorem C98_inserted s l : filter (good_rx s) (arrived true l) = arrived true l.
Proof.
  induction l as [|o l IH]; [reflexivity|]. destruct o; cbn [arrived]; try exact IH.
  cbn [filter]. unfold good_rx at 1. rewrite right_sealed, orb_true_r, IH. reflexivity.
Qed.
Example C98_delivers_case :
  rmap (fun x => (delivered (snd x), map f_bytes (m_fifo (fst x))))
    (run false m0 [OPhy (pk1 ++ [220; 43; 92; 146]) 18; OPhy (pk1 ++ [1; 2; 3; 4]) 18; OTurn;
                   OPhy (pk2 ++ [243; 196; 29; 110]) 18; OTurn]) =
  Ok ([pk1 ++ [220; 43; 92; 146]], [pk2 ++ [243; 196; 29; 110]]).
Proof. vm_compute. reflexivity. Qed.

(** ctl_rx_delete_fcs is set after a reset, but the frame check sequence is not deleted. *)
Theorem C98_delete_refuted :
  N.testbit (m_regs m0 A_RX1) 1 = true /\
  rmap (fun x => delivered (snd x)) (run false m0 [OPhy (sealed pk1) 18; OTurn]) = Ok [sealed pk1].
Proof. split; vm_compute; reflexivity. Qed.
(** The third frame of a burst is lost, and not counted. *)
Theorem C98_burst_refuted :
  exists s o, run true m0 [OPhy pk1 14; OPhy pk2 14; OPhy pk1 14; OTurn; OTurn; OTurn; write_tick]
    = Ok (s, o) /\ delivered o = [sealed pk1; sealed pk2] /\ shown s Rx TotalPackets = 2.
Proof. eexists _, _. split; [vm_compute; reflexivity|]. split; vm_compute; reflexivity. Qed.
(** A frame shorter than its frame check sequence is read before its start; a good one
    shorter than a header behind its end. *)
Theorem C98_short_refuted :
  run false m0 [OPhy [1; 2; 3] 3; OTurn] = UB /\ run true m0 [OPhy [1; 2; 3] 3; OTurn] = UB.
Proof. split; vm_compute; reflexivity. Qed.
(** An inserted frame check sequence is not in the streaming width. *)
Theorem C98_width_refuted :
  rmap snd (run true m0 [OPhy pk1 14; OTurn]) = Ok [RxTook (sealed pk1); MacRx (sealed pk1) 14].
Proof. vm_compute. reflexivity. Qed.

Print Assumptions C96_sends_partial.
Print Assumptions C96_runt_refuted.
Print Assumptions C96_disable_refuted.
Print Assumptions C96_reset_refuted.
Print Assumptions C96_overflow_refuted.
Print Assumptions C97_statistics_partial.
Print Assumptions C97_read.
Print Assumptions C97_adds_up.
Print Assumptions C97_read_tick_refuted.
Print Assumptions C97_write_refuted.
Print Assumptions C97_saturate_refuted.
Print Assumptions C98_right.
Print Assumptions C98_delivers_partial.
Print Assumptions C98_inserted.
Print Assumptions C98_delete_refuted.
Print Assumptions C98_burst_refuted.
Print Assumptions C98_short_refuted.
Print Assumptions C98_width_refuted.
Print Assumptions C97_counter.
