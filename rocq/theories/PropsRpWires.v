(** Wires over remote-port. *)
From Verif Require Import Base RpProtoModel RpProtoSpec RpWiresModel RpWiresSpec RpWiresProofs.
Open Scope N_scope.

(** C34.  With posted updates, or a peer that does not acknowledge: whatever the wires
    do, after each cycle the peer's outputs have the values of the inputs.  [peer_run]
    receives the bytes of each cycle and applies the packets. *)
Theorem C34_wires_follow_posted : forall pc cap dev clk buf cs t,
  (pc = true \/ cap = false) -> t_blocked t = false ->
  widths (length (t_prev t)) cs -> t_id t < u32 -> dev < u32 -> clk < u64 ->
  N.of_nat (length (t_prev t)) < u32 -> rxbuf_ok buf ->
  peer_run dev clk buf (fst (wire_run pc cap t cs)) (t_prev t) = Ok (map fst cs).
Proof. exact run_posted. Qed.
Print Assumptions C34_wires_follow_posted.

(** C34 with acknowledged updates: the same as long as no wire changes in a cycle in
    which the sender waits for an acknowledgement. *)
Theorem C34_wires_follow_partial : forall pc cap dev clk buf cs t,
  widths (length (t_prev t)) cs -> t_id t < u32 -> dev < u32 -> clk < u64 ->
  N.of_nat (length (t_prev t)) < u32 -> rxbuf_ok buf ->
  quiet_while_blocked pc cap t cs ->
  peer_run dev clk buf (fst (wire_run pc cap t cs)) (t_prev t) = Ok (map fst cs).
Proof. exact run_ok. Qed.
Print Assumptions C34_wires_follow_partial.

Definition ex_t := mkWt [false; true; false] false 4294967295.
Definition ex_cs := [([true; true; true], false); ([true; false; true], false);
                     ([true; false; true], true); ([true; false; true], false);
                     ([false; false; true], false)].
Example C34_case :
  widths 3 ex_cs /\ quiet_while_blocked true true ex_t ex_cs /\
  fst (wire_run true true ex_t ex_cs) =
    [[(4294967295, 0, 1, 4); (0, 2, 1, 4)]; [(1, 1, 0, 4)]; []; []; [(2, 0, 0, 4)]] /\
  quiet_while_blocked false true ex_t
    [([true; true; true], false); ([true; true; true], true); ([true; false; true], false)].
Proof.
  split; [repeat constructor|]. split; [apply never_blocked; auto|].
  split; [reflexivity|]. cbn. repeat split; intros; try reflexivity; discriminate.
Qed.

(** Otherwise a change is lost for good: the wire pulses, the acknowledgement of the
    rising edge arrives after the falling edge, the wire stays low ever after, and the
    peer's output stays high ever after. *)
Theorem C34_lost_update_refuted : forall n,
  let t := mkWt [false] false 0 in
  let cs := [([true], false); ([false], true)] ++ repeat ([false], false) n in
  peer_run 1 1000 (repeat 0 148) (fst (wire_run false true t cs)) [false]
  = Ok ([true] :: [true] :: repeat [true] n).
Proof.
  intros n t cs. unfold t, cs. cbn [app].
  assert (R : forall m, wire_run false true (mkWt [false] false 1) (repeat ([false], false) m)
     = (repeat [] m, mkWt [false] false 1)).
  { induction m as [|m IH]; [reflexivity|]. cbn [repeat wire_run].
    change (wire_cycle false true (mkWt [false] false 1) ([false], false))
      with (([] : list (N * N * N * N)), mkWt [false] false 1). cbv iota beta. rewrite IH. reflexivity. }
  cbn [wire_run].
  change (wire_cycle false true (mkWt [false] false 0) ([true], false))
    with ([(0, 0, 1, 0)], mkWt [true] true 1). cbv iota beta.
  change (wire_cycle false true (mkWt [true] true 1) ([false], true))
    with (([] : list (N * N * N * N)), mkWt [false] false 1). cbv iota beta.
  rewrite R. cbn [fst].
  assert (P : forall m, peer_run 1 1000 (repeat 0 148) (repeat [] m) [true] = Ok (repeat [true] m)).
  { induction m as [|m IH]; [reflexivity|].
    change (repeat [] (S m)) with (([] : list (N * N * N * N)) :: repeat [] m).
    cbn [peer_run length wire_bytes flat_map rx_all rbind wires_apply last]. rewrite IH. reflexivity. }
  change ([(0, 0, 1, 0)] :: [] :: repeat [] n)
    with ([[(0, 0, 1, 0)]; []] ++ repeat ([] : list (N * N * N * N)) n).
  cbn [app peer_run].
  replace (rx_all (length [(0, 0, 1, 0)]) (repeat 0 148) (wire_bytes 1 1000 [(0, 0, 1, 0)]))
    with (rx_all 1 (repeat 0 148) (rp_encode_interrupt 0 1 1000 0 0 1 0)) by reflexivity.
  destruct (rx_all 1 (repeat 0 148) (rp_encode_interrupt 0 1 1000 0 0 1 0)) as [rs| | |] eqn:E;
    [|vm_compute in E; discriminate..].
  vm_compute in E. injection E as <-. cbn [rbind].
  cbn [wires_apply r_pl r_hdr interrupt_action h_dev rbind].
  change (negb (1 =? 1)) with false. cbn [length N.of_nat]. cbv iota.
  cbn. rewrite P. reflexivity.
Qed.
Print Assumptions C34_lost_update_refuted.
