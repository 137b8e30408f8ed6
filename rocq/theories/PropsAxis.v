(** C53, C54: the AXI-Stream bridges. *)
From Verif Require Import Base AxisModel AxisSpec AxisProofs.
Open Scope nat_scope.

(** Transactions given to tlm2axis one after the other, with idle cycles after
    each. *)
Definition sender (bw : nat) (ts : list (list N * bool * nat)) : list (option beat) :=
  flat_map (fun t => map Some (axis_send bw (fst t)) ++ repeat None (snd t)) ts.
(** Payloads that axis2tlm has passed on after [n] clock edges. *)
Definition received (bw : nat) (tgt : nat -> nat * nat) (ts : list (list N * bool * nat)) (n : nat) : list (list N * bool) :=
  snd (edges bw tgt n (axis_init bw (sender bw ts))).

Lemma sender_ok bw ts :
  0 < bw ->
  Forall (fun t => fst (fst t) <> [] /\ (snd (fst t) = true \/ exists q, length (fst (fst t)) = q * bw)) ts ->
  (forall b, In (Some b) (sender bw ts) -> good bw b) /\ queue_items (sender bw ts) = stream (map fst ts).
Proof.
  intros B H. induction H as [|[[d e] g] ts [H1 H2] _ [I1 I2]]; [now split|]. cbn [fst snd] in *.
  destruct (beats_good bw (fun _ => (0, 0)) B (S (length d)) d e ltac:(lia) H1 H2) as [G1 G2].
  unfold sender in *. cbn [flat_map map fst snd]. split.
  - intros b Hb. apply in_app_or in Hb as [Hb|Hb]; [|auto]. apply in_app_or in Hb as [Hb|Hb].
    + apply in_map_iff in Hb as (b' & [= ->] & Hb). rewrite Forall_forall in G1. apply G1. exact Hb.
    + apply repeat_spec in Hb. discriminate.
  - unfold queue_items in *. rewrite flat_map_app, I2. unfold stream. cbn [flat_map]. f_equal.
    rewrite flat_map_app, <- G2.
    replace (flat_map _ (repeat None g)) with (@nil item) by (clear; induction g; cbn; auto). rewrite app_nil_r.
    unfold axis_send. cbn [fst snd]. generalize (axis_beats (S (length d)) bw d e) as l. clear.
    induction l as [|a l IH]; [reflexivity|]. cbn [map flat_map]. now rewrite IH.
Qed.
Lemma init_ok bw q : 0 < bw -> (forall b, In (Some b) q -> good bw b) -> inv bw (axis_init bw q).
Proof.
  intros B H. constructor; cbn; auto; try discriminate; [apply repeat_length|].
  repeat split; [unfold MAX_DATA; lia|now exists 0].
Qed.

(** ** C53 *)
Theorem C53_axis_transparent bw tgt (ts : list (list N * bool * nat)) :
  0 < bw < 4096 -> (exists c, 4096 = c * bw) ->
  (forall n, fst (tgt n) = 0) ->
  Forall (fun t => fst (fst t) <> [] /\ (snd (fst t) = true \/ exists q, length (fst (fst t)) = q * bw)) ts ->
  (forall n, exists rest, stream (received bw tgt ts n) ++ rest = stream (map fst ts)) /\
  exists N left, length left < 4096 /\
    forall n, N <= n -> stream (received bw tgt ts n) ++ map Byte left = stream (map fst ts).
Proof.
  intros B D HK HT. destruct (sender_ok bw ts ltac:(lia) HT) as [S1 S2].
  pose proof (init_ok bw (sender bw ts) ltac:(lia) S1) as I0.
  assert (P0 : pending (axis_init bw (sender bw ts)) = stream (map fst ts)) by (unfold pending; cbn; exact S2).
  split.
  - intro n. unfold received. destruct (edges bw tgt n _) as [s p] eqn:E.
    destruct (edges_inv bw tgt ltac:(lia) D (proj2 B) n _ _ _ HK I0 E) as [_ Q].
    exists (pending s). rewrite <- P0, <- Q. reflexivity.
  - destruct (drain bw tgt ltac:(lia) D (proj2 B) _ _ HK I0 (le_n _)) as [N0 HN].
    destruct (edges bw tgt N0 (axis_init bw (sender bw ts))) as [s p] eqn:E. cbn [fst] in HN.
    destruct (edges_inv bw tgt ltac:(lia) D (proj2 B) N0 _ _ _ HK I0 E) as [I1 Q]. pose proof HN as (Q1 & Q2 & buf & Q3).
    exists N0, buf. pose proof (i_rpc _ _ I1) as R. rewrite Q3 in R. split; [apply R|].
    intros n Hn. unfold received. replace n with (N0 + (n - N0)) by lia. rewrite edges_app, E.
    destruct (quiet_stays bw tgt s (n - N0) HN) as [_ T].
    destruct (edges bw tgt (n - N0) s) as [s2 p2]. cbn [snd] in *. subst p2. rewrite app_nil_r.
    rewrite <- P0, <- Q. unfold pending, stream. rewrite Q1, Q2, Q3. cbn. now rewrite app_nil_r.
Qed.

(** If the last transaction ends a packet, nothing stays behind. *)
Theorem C53_axis_all_delivered bw tgt ts d g :
  0 < bw < 4096 -> (exists c, 4096 = c * bw) ->
  (forall n, fst (tgt n) = 0) ->
  Forall (fun t => fst (fst t) <> [] /\ (snd (fst t) = true \/ exists q, length (fst (fst t)) = q * bw)) ts ->
  d <> [] ->
  exists N, forall n, N <= n ->
    stream (received bw tgt (ts ++ [(d, true, g)]) n) = stream (map fst ts ++ [(d, true)]).
Proof.
  intros B D HK HT Hd.
  destruct (C53_axis_transparent bw tgt (ts ++ [(d, true, g)]) B D HK) as [_ (N0 & left & L & H)].
  { apply Forall_app. split; [exact HT|]. constructor; [|constructor]. cbn. auto. }
  exists N0. intros n Hn. specialize (H n Hn). rewrite map_app in H. cbn [map fst] in H.
  destruct left as [|x left]; [rewrite app_nil_r in H; exact H|]. exfalso.
  destruct (@exists_last _ (x :: left)) as (l & y & E); [discriminate|]. rewrite E in H.
  unfold stream in H. rewrite map_app, flat_map_app in H. cbn [map flat_map] in H. unfold items at 3 in H. cbn [fst snd] in H.
  rewrite app_nil_r, !app_assoc in H. apply app_inj_tail in H as [_ H]. discriminate.
Qed.

(** Two packets and a transaction without end of packet on an 8 byte bus, target
    taking its time after every payload. *)
Example C53_case :
  let ts := [(map N.of_nat (seq 0 20), true, 1); (map N.of_nat (seq 20 16), false, 0); (map N.of_nat (seq 36 5), true, 2)] in
  received 8 (fun n => (0, n)) ts 12 =
  [(map N.of_nat (seq 0 20), true); (map N.of_nat (seq 20 21), true)].
Proof. vm_compute. reflexivity. Qed.

(** ** C54: any transactions, any target *)
Definition quietb (s : axis) : bool :=
  match x_queue s, x_valid s, x_rpc s with [], false, R_Wait _ => true | _, _, _ => false end.
Lemma final bw tgt ts N0 :
  quietb (fst (edges bw tgt N0 (axis_init bw (sender bw ts)))) = true ->
  forall n, N0 <= n -> received bw tgt ts n = received bw tgt ts N0.
Proof.
  intros Q n Hn. unfold received. replace n with (N0 + (n - N0)) by lia. rewrite edges_app.
  destruct (edges bw tgt N0 _) as [s p]. cbn [fst snd] in *.
  assert (HQ : quiet s).
  { unfold quietb in Q. unfold quiet. destruct (x_queue s); [|easy]. destruct (x_valid s); [easy|].
    destruct (x_rpc s); [eauto|easy]. }
  destruct (quiet_stays bw tgt s (n - N0) HQ) as [_ T]. destruct (edges bw tgt (n - N0) s) as [s2 p2].
  cbn [snd] in *. subst. apply app_nil_r.
Qed.

Definition axis_summary bw tgt ts N0 :=
  let r := edges bw tgt N0 (axis_init bw (sender bw ts)) in (quietb (fst r), snd r).
Lemma final_is bw tgt ts N0 ps :
  axis_summary bw tgt ts N0 = (true, ps) -> forall n, N0 <= n -> received bw tgt ts n = ps.
Proof. intros [= H1 H2] n Hn. now rewrite (final _ _ _ _ H1 n Hn). Qed.

(** A transaction that is not a multiple of the bus width and does not end the
    packet: the 4096 byte boundary falls into the middle of a beat.  The rest of
    that beat, and tlast, are read after the sender has moved on: here the end of
    the packet is never seen and its last 7 bytes are never passed on. *)
Theorem C54_axis_boundary_refuted :
  let ts := [(repeat 1%N 4095, false, 0); ([2; 3; 4; 5; 6; 7; 8; 9]%N, true, 0)] in
  forall n, 520 <= n -> received 8 (fun _ => (0, 0)) ts n = [(repeat 1%N 4095 ++ [2%N], false)].
Proof. apply final_is. vm_compute. reflexivity. Qed.

(** The same with another beat right behind: bytes 3 to 9 are replaced by those
    of the beat that follows, which then come twice. *)
Theorem C54_axis_boundary_bytes_refuted :
  let ts := [(repeat 1%N 4095, false, 0); ([2; 3; 4; 5; 6; 7; 8; 9; 10; 11; 12; 13; 14; 15; 16; 17]%N, true, 0)] in
  forall n, 520 <= n -> received 8 (fun _ => (0, 0)) ts n =
    [(repeat 1%N 4095 ++ [2%N], false); ([11; 12; 13; 14; 15; 16; 17]%N, true);
     ([10; 11; 12; 13; 14; 15; 16; 17]%N, true)].
Proof. apply final_is. vm_compute. reflexivity. Qed.

(** A target that lets one clock pass inside b_transport: tready stays high
    meanwhile and the packet sent at that edge is lost. *)
Theorem C54_axis_waiting_target_refuted :
  let ts := [([1; 2; 3]%N, true, 0); ([4; 5; 6]%N, true, 0); ([7; 8]%N, true, 0)] in
  forall n, 20 <= n -> received 8 (fun _ => (1, 0)) ts n = [([1; 2; 3]%N, true); ([7; 8]%N, true)].
Proof. apply final_is. vm_compute. reflexivity. Qed.

(** An empty transaction that ends a packet is forgotten if the buffer has just
    been passed on. *)
Theorem C54_axis_empty_refuted :
  let ts := [(repeat 1%N 4096, false, 0); ([], true, 0)] in
  forall n, 520 <= n -> received 8 (fun _ => (0, 0)) ts n = [(repeat 1%N 4096, false)].
Proof. apply final_is. vm_compute. reflexivity. Qed.

Print Assumptions C53_axis_transparent.
Print Assumptions C53_axis_all_delivered.
Print Assumptions C54_axis_boundary_refuted.
Print Assumptions C54_axis_boundary_bytes_refuted.
Print Assumptions C54_axis_waiting_target_refuted.
Print Assumptions C54_axis_empty_refuted.
