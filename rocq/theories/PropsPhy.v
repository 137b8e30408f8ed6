(** Properties C50-C52: Ethernet PHY bridges. *)
From Verif Require Import Base BaseFacts CrcModel CrcSpec CrcProofs PropsCrc PhyModel PhyProofs.
Open Scope N_scope.

(** ** C50: a packet through the MII bridges *)
(** What arrives: the packet, followed by its frame check sequence (IEEE CRC-32,
    least significant byte first) if the sender appends it. *)
Definition frame (csum : bool) (d : list N) : list N :=
  d ++ (if csum then le_enc 4 (crc_ieee d) else []).
Lemma crc_bytes_le c : crc_bytes c = le_enc 4 c.
Proof.
  unfold crc_bytes. rewrite !N.shiftr_div_pow2. cbn [le_enc be_enc rev app].
  unfold le_enc. cbn [be_enc rev app]. change (256 ^ N.of_nat 0) with 1. now rewrite N.div_1_r.
Qed.
Lemma frame_eq csum d : bytes_ok d -> mii_frame csum d = frame csum d.
Proof. intro H. unfold mii_frame, frame. now rewrite crc_bytes_le, C20_crc_is_ieee. Qed.

(** [ps]: packets with the idle cycles after each; [n] idle cycles first. *)
Theorem C50_mii_transparent (csum : bool) (ps : list (list N * nat)) n d :
  Forall (fun p => bytes_ok (fst p) /\ N.of_nat (length (fst p)) + (if csum then 4 else 0) <= 8192) ps ->
  mii_receive mii_reset (repeat (false, d) n ++ flat_map (fun p => mii_send csum (fst p) (snd p)) ps) =
  Ok (nonempty (map (fun p => frame csum (fst p)) ps), mii_reset).
Proof.
  intro H. rewrite mii_receive_app, mii_idle. cbn [rbind fst snd]. rewrite mii_many.
  - cbn [rbind fst snd app]. do 3 f_equal. apply map_ext_in. intros p Hp. apply frame_eq.
    rewrite Forall_forall in H. now apply H.
  - eapply Forall_impl; [|exact H]. intros p [H1 H2]. split; [exact H1|].
    unfold mii_frame, BUF. rewrite app_length. destruct csum; cbn [length crc_bytes]; lia.
Qed.
(** The receiver takes a preamble of any length, as a PHY may swallow part of it. *)
Theorem C50_mii_any_preamble d n x :
  bytes_ok d -> N.of_nat (length d) <= 8192 ->
  mii_receive mii_reset (repeat (true, 5) (S n) ++ [(true, 13)] ++ mii_push true d ++ [(false, x)]) =
  Ok (nonempty [d], mii_reset).
Proof.
  intros B L.
  assert (P : mii_receive mii_reset (repeat (true, 5) (S n)) = Ok ([], mkMii M_PREAMBLE 0 0 [])).
  { cbn [repeat mii_receive process_nibble mii_reset m_state rbind N.eqb Pos.eqb m_d8 m_cnt m_buf].
    induction n as [|n IH]; [reflexivity|]. exact IH. }
  rewrite mii_receive_app, P. cbn [rbind snd fst].
  rewrite mii_receive_app. cbn [mii_receive process_nibble m_state N.eqb Pos.eqb rbind snd fst m_d8 m_cnt m_buf].
  rewrite mii_receive_app, mii_data by auto. cbn [rbind snd fst app mii_receive m_buf]. destruct d; reflexivity.
Qed.
Example C50_case :
  mii_receive mii_reset (mii_send true [1; 2; 255] 3 ++ mii_send false [] 0 ++ mii_send false [85; 213] 0) =
  Ok ([[1; 2; 255; 42; 62; 183; 225]; [85; 213]], mii_reset).
Proof. vm_compute. reflexivity. Qed.

(** ** C51: a packet through the XGMII bridges *)
Theorem C51_xgmii_transparent m (ps : list (list N * nat)) n :
  Forall (fun p => bytes_ok (fst p) /\ N.of_nat (length (fst p)) <= 8187) ps ->
  x_receive m x_reset (repeat (0, 0) n ++ flat_map (fun p => x_send m (fst p) (snd p)) ps) =
  Ok (map (fun p => X_Packet (fst p)) ps, x_reset).
Proof.
  intro H. rewrite x_receive_app.
  assert (E : x_receive m x_reset (repeat (0, 0) n) = Ok ([], x_reset)).
  { induction n; cbn [repeat x_receive]; [reflexivity|].
    assert (Q : x_cycle m x_reset (0, 0) = Ok (x_reset, [])) by (destruct m; vm_compute; reflexivity).
    rewrite Q. cbn [rbind fst snd]. now rewrite IHn. }
  rewrite E. cbn [rbind fst snd]. rewrite x_many; [reflexivity|].
  eapply Forall_impl; [|exact H]. intros p [H1 H2]. split; [exact H1|]. unfold BUF. lia.
Qed.
Example C51_case :
  x_send MODE_10G [1; 2; 3; 4; 5; 6; 7; 8; 9] 1 =
  [(506381209866536711, 255); (506381209866536711, 255); (15372286728091293179, 1);
   (578437695752307201, 0); (506652500330397705, 224); (506381209866536711, 255); (506381209866536711, 255)] /\
  x_receive MODE_1G x_reset (x_send MODE_1G [1; 2; 3; 4; 5; 6; 7; 8; 9] 2 ++ x_send MODE_1G [251; 253] 0) =
  Ok ([X_Packet [1; 2; 3; 4; 5; 6; 7; 8; 9]; X_Packet [251; 253]], x_reset).
Proof. vm_compute. split; reflexivity. Qed.

(** ** C52: receivers stay within their buffers whatever is on the wires *)
(** One lane per cycle (1G): no access outside of the buffer. *)
Theorem C52_xgmii_1g_partial w : exists o s, x_receive MODE_1G x_reset w = Ok (o, s).
Proof. apply run_1g. cbn. lia. Qed.
(** A frame of fewer than four bytes is passed on with a length of almost 2^32. *)
Theorem C52_xgmii_runt_refuted :
  x_receive MODE_1G x_reset [(251, 1); (85, 0); (213, 0); (253, 1)] = Ok ([X_Runt 4294967292], x_reset) /\
  x_receive MODE_10G x_reset [(15372286728091293179, 1); (506381209866537469, 255)] = Ok ([X_Runt 4294967292], x_reset).
Proof. vm_compute. split; reflexivity. Qed.
(** Eight lanes per cycle (10G): data cycles after the preamble are copied without
    a check. *)
Theorem C52_xgmii_10g_refuted :
  x_receive MODE_10G x_reset ((15372286728091293179, 1) :: repeat (0, 0) 1025) = UB.
Proof. vm_compute. reflexivity. Qed.
(** MII: any frame that does not fit. *)
Theorem C52_mii_refuted (csum : bool) d gap :
  bytes_ok d -> 8192 < N.of_nat (length d) + (if csum then 4 else 0) ->
  mii_receive mii_reset (mii_send csum d gap) = UB.
Proof.
  intros Hb H. apply mii_one_ub; [exact Hb|]. unfold mii_frame, BUF. rewrite app_length.
  destruct csum; cbn [length crc_bytes]; lia.
Qed.

Print Assumptions C50_mii_transparent.
Print Assumptions C50_mii_any_preamble.
Print Assumptions C51_xgmii_transparent.
Print Assumptions C52_xgmii_1g_partial.
Print Assumptions C52_xgmii_runt_refuted.
Print Assumptions C52_xgmii_10g_refuted.
Print Assumptions C52_mii_refuted.
