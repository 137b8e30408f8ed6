(** C66, C67: the CXS link. *)
From Verif Require Import Base CxsModel CxsSpec CxsProofs.
Open Scope N_scope.

Example C66_configurations : cfg_ok cxs256 /\ cfg_ok cxs512 /\ cfg_ok cxs1024 /\
  cfg_ok (mkCfg 64 2 2 4) /\ cfg_ok (mkCfg 128 3 3 5).
Proof. repeat split; cbn; lia. Qed.

(** ** C66: credits *)
Theorem C66_credit_rule c flit es : cfg_ok c -> length flit = c_bytes c ->
  no_reset es -> Forall tlp_ok (submitted es) ->
  exists tr, watch c es (link0 flit) = Ok tr /\ credit_rule 0 0 tr.
Proof.
  intros Hc Hl Hn Hs. apply (watch_rule c Hc es (link0 flit) [] 0 0 Hn Hs (inv0 c flit Hl)); reflexivity.
Qed.

(** bring up, one packet of two flits, take down *)
Definition up : list event := [Edge true false true; Edge true false true].
Definition go (n : nat) : list event := running (repeat true n).
Definition tlp40 : list N := map N.of_nat (seq 1 40).
Definition blank : list N := repeat 0 32.
Definition down : list event := Edge false true true :: repeat (Edge false false true) 20.
Definition count (f : wires -> bool) (tr : list wires) : nat := length (filter f tr).
Example C66_case :
  rmap (fun tr => (count w_gnt tr, count w_valid tr, count w_rtn tr, map w_req (rev tr)))
    (watch cxs256 (Submit tlp40 :: up ++ go 20 ++ down) (link0 blank)) =
  Ok (17%nat, 2%nat, 15%nat, repeat false 20 ++ repeat true 22 ++ [false]).
Proof. vm_compute. reflexivity. Qed.

(** A reset while a credit is on the wire loses it: afterwards the link comes
    up, but once deactivated it never reaches Stop. *)
Definition lost : list event := up ++ [Edge true false true; Reset] ++ up ++ [Edge false true true].
Definition edges (es : list event) : Prop := forall e, In e es -> exists r d o, e = Edge r d o.

Lemma stuck c es : edges es -> forall l, l_req l = false -> l_ack l = true -> l_queue l = [] -> l_valid l = false ->
  l_txc l + l_rxc l + b1 (l_gnt l) + b1 (l_rtn l) = 14 ->
  exists l', run c es l = Ok l' /\ l_req l' = false /\ l_ack l' = true.
Proof.
  intros Hes. induction es as [|e es IH]; intros l R A Q V S; [exists l; auto|].
  destruct (Hes e (or_introl eq_refl)) as (r & d & o & ->).
  cbn [run step]. unfold edge, tx_edge, rx_edge. rewrite R, A, Q, V. cbn [link_state front_done rbind].
  rewrite andb_true_r.
  set (tx := if l_gnt l then l_txc l + 1 else l_txc l). set (rx := if l_rtn l then l_rxc l + 1 else l_rxc l).
  assert (T : tx + rx = 14) by (unfold tx, rx; destruct (l_gnt l), (l_rtn l); cbn [b1] in S; lia).
  destruct (0 <? tx) eqn:Z; cbn [rbind o_valid o_rtn o_flit o_cntl o_txc o_queue o_okd];
  apply IH; cbn [l_req l_ack l_queue l_valid l_txc l_rxc l_gnt l_rtn b1]; try reflexivity; try lia;
  try (intros e He; apply Hes; right; exact He).
  all: unfold MAX_CREDITS; destruct o; apply negb_true_iff, N.eqb_neq; unfold rx in *; destruct (l_rtn l); cbn [b1] in S; lia.
Qed.

Theorem C66_reset_refuted : exists l, run cxs256 lost (link0 blank) = Ok l /\
  forall es, edges es -> exists l', run cxs256 es l = Ok l' /\
    link_state (l_req l') (l_ack l') = Deactivate.
Proof.
  destruct (run cxs256 lost (link0 blank)) as [l| | |] eqn:E; try (vm_compute in E; discriminate E).
  exists l. split; [reflexivity|]. intros es Hes.
  assert (H : l_req l = false /\ l_ack l = true /\ l_queue l = [] /\ l_valid l = false /\
              l_txc l + l_rxc l + b1 (l_gnt l) + b1 (l_rtn l) = 14)
    by (vm_compute in E; inversion E; repeat split).
  destruct H as (H1 & H2 & H3 & H4 & H5).
  destruct (stuck cxs256 es Hes l H1 H2 H3 H4 H5) as (l' & R & A & B).
  exists l'. split; [exact R|]. rewrite A, B. reflexivity.
Qed.

(** ** C67: packets *)
Theorem C67_control_word c ss ee :
  Forall (fun p => p < 2 ^ c_sw c) ss -> Forall (fun p => p < 2 ^ c_ew c) ee ->
  (length ss <= c_pkts c)%nat -> (length ee <= c_pkts c)%nat ->
  cntl_dec c (cxs_cntl c ss ee) = (ss, ee) /\ cxs_cntl c ss ee < 2 ^ cntl_width c.
Proof. intros. split; [apply cntl_dec_spec|apply cxs_cntl_bound]; assumption. Qed.

Example C67_control_case :
  cxs_cntl cxs1024 [0; 3; 7] [11; 27] =
    1 + 2 + 4 + N.shiftl 3 (4 + 3) + N.shiftl 7 (4 + 6) + N.shiftl 3 16 + N.shiftl 11 24 + N.shiftl 27 29 /\
  cntl_dec cxs1024 (cxs_cntl cxs1024 [0; 3; 7] [11; 27]) = ([0; 3; 7], [11; 27]).
Proof. vm_compute. split; reflexivity. Qed.

(** to_uint64 does not write such words: the second end pointer of a 1024-bit
    flit loses bits and the fourth of a 512-bit flit is undefined behaviour. *)
Theorem C67_control_word_refuted :
  rmap (cntl_dec cxs1024) (cntl_enc cxs1024 [0; 3] [11; 27]) = Ok ([0; 3], [11; 3]) /\
  cntl_enc cxs512 [0; 1; 2; 3] [3; 7; 11; 15] = UB.
Proof. vm_compute. split; reflexivity. Qed.

Theorem C67_receiver c : cfg_ok c -> forall fs open, stream c open fs ->
  receive c (asms_of open) fs = Ok (packets open fs).
Proof.
  intros Hc. induction fs as [|f fs IH]; intros open; [reflexivity|].
  intros [Hf Hs]. cbn [receive packets]. rewrite (rx_flit_spec c open _ _ _ Hc Hf). cbn [rbind fst snd].
  rewrite (IH _ Hs). reflexivity.
Qed.

(** a 512-bit link: the tail of one packet, a whole one, the head of a third *)
Definition three : list packed :=
  let a := map N.of_nat (seq 1 72) in let b := map N.of_nat (seq 101 20) in let d := map N.of_nat (seq 151 24) in
  [mkPacked [mkSeg 0 (firstn 64 a) false] (firstn 64 a) (cxs_cntl cxs512 [0] []);
   mkPacked [mkSeg 0 (skipn 64 a) true; mkSeg 4 b true; mkSeg 12 (firstn 16 d) false]
     (skipn 64 a ++ repeat 0 8 ++ b ++ repeat 0 12 ++ firstn 16 d) (cxs_cntl cxs512 [1; 3] [1; 8]);
   mkPacked [mkSeg 0 (skipn 16 d) true] (skipn 16 d ++ repeat 0 56) (cxs_cntl cxs512 [] [1])].
Example C67_receiver_case :
  stream cxs512 None three /\
  receive cxs512 [] three = Ok [map N.of_nat (seq 1 72); map N.of_nat (seq 101 20); map N.of_nat (seq 151 24)].
Proof.
  split; [|vm_compute; reflexivity].
  repeat split; try (vm_compute; reflexivity); try (cbn; lia); try discriminate.
  all: try (intros _; vm_compute; reflexivity). all: try (intros X; contradiction X; reflexivity).
Qed.

Theorem C67_delivery c flit es : cfg_ok c -> length flit = c_bytes c ->
  no_reset es -> Forall tlp_ok (submitted es) ->
  exists l, run c es (link0 flit) = Ok l /\
    prefix (l_okd l) (l_recv l) /\ prefix (l_recv l) (submitted es).
Proof.
  intros Hc Hl Hn Hs. destruct (run_inv c Hc es (link0 flit) [] Hn Hs (inv0 c flit Hl)) as (l & R & I).
  exists l. split; [exact R|]. destruct (inv_recv _ _ _ I). split; assumption.
Qed.

Theorem C67_progress c flit es lates l : cfg_ok c -> length flit = c_bytes c ->
  no_reset es -> Forall tlp_ok (submitted es) -> run c es (link0 flit) = Ok l ->
  (2 * flits c (skipn (length (l_okd l)) (submitted es)) + 36 <= length lates)%nat ->
  exists l', run c (es ++ running lates) (link0 flit) = Ok l' /\
    l_recv l' = submitted es /\ l_okd l' = submitted es.
Proof.
  intros Hc Hl Hn Hs R Hlen. destruct (run_inv c Hc es (link0 flit) [] Hn Hs (inv0 c flit Hl)) as (l1 & R1 & I).
  rewrite R in R1. inversion R1; subst l1. cbn [app] in I.
  destruct (running_done c _ Hc lates l I) as (l' & R' & I' & Q).
  { eapply Nat.le_trans; [apply (measure_bound c _ l Hc I)|exact Hlen]. }
  exists l'. split; [rewrite run_app, R; exact R'|]. apply (inv_done c _ _ I' Q).
Qed.

Definition tlp8 : list N := [9; 8; 7; 6; 5; 4; 3; 2].
Example C67_case :
  rmap (fun l => (l_recv l, l_okd l, map s_data (l_asms l)))
    (run cxs256 (Submit tlp40 :: up ++ [Submit tlp8] ++ go 2) (link0 blank)) =
    Ok ([], [], [firstn 32 tlp40]) /\
  rmap (fun l => (l_recv l, l_okd l))
    (run cxs256 (Submit tlp40 :: up ++ [Submit tlp8] ++ down ++ go 10) (link0 blank)) =
    Ok ([tlp40; tlp8], [tlp40; tlp8]).
Proof. vm_compute. split; reflexivity. Qed.

(** A reset after the last flit was put on the wires: the sender's transaction
    is answered TLM_OK_RESPONSE and the receiver never sees the packet. *)
Theorem C67_reset_refuted :
  rmap (fun l => (l_recv l, l_okd l))
    (run cxs256 (Submit tlp8 :: up ++ go 1 ++ [Reset] ++ up ++ go 50) (link0 blank)) = Ok ([], [tlp8]).
Proof. vm_compute. reflexivity. Qed.

Print Assumptions C66_credit_rule.
Print Assumptions C66_reset_refuted.
Print Assumptions C67_control_word.
Print Assumptions C67_control_word_refuted.
Print Assumptions C67_receiver.
Print Assumptions C67_delivery.
Print Assumptions C67_progress.
Print Assumptions C67_reset_refuted.
