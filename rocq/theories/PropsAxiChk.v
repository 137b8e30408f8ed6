(** Properties of the AXI protocol checker (checkers/checker-axi.h,
    checkers/checker-utils.h): reads (C78), writes (C79), write strobes (C80),
    addresses and lengths (C81), handshakes (C82), stable signals (C83), reset
    (C84). *)
From Verif Require Import Base AxiChkModel AxiChkSpec AxiChkRead AxiChkLanes AxiChkWrite
  AxiChkHs AxiChkMon.
Open Scope N_scope.

(** ** Traffic for the examples *)
Definition off {A} (x : A) : chan A := mkCh false true x.
Definition go {A} (x : A) : chan A := mkCh true true x.
Definition stall {A} (x : A) : chan A := mkCh true false x.
Definition ax0 : axp := mkAx 0 0 0 1 0 0 0.
Definition idle : cyc :=
  mkCyc (off ax0) (off (mkR 0 false 0 0)) (off ax0) (off (mkW 0 0 false 0)) (off (mkB 0 0 0)).
Definition onAr (x : chan axp) (c : cyc) := mkCyc x (c_r c) (c_aw c) (c_w c) (c_b c).
Definition onR (x : chan rp) (c : cyc) := mkCyc (c_ar c) x (c_aw c) (c_w c) (c_b c).
Definition onAw (x : chan axp) (c : cyc) := mkCyc (c_ar c) (c_r c) x (c_w c) (c_b c).
Definition onW (x : chan wp) (c : cyc) := mkCyc (c_ar c) (c_r c) (c_aw c) x (c_b c).
Definition onB (x : chan bp) (c : cyc) := mkCyc (c_ar c) (c_r c) (c_aw c) (c_w c) x.
Definition awake (h : list cyc) : list edge := map (Edge true) h.
Definition all_on (depth : N) : cfg := mkCfg true true true true false true depth false 4.

Lemma periods_awake h : forall cur, periods true cur (awake h) = [cur ++ h].
Proof.
  induction h as [|c h IH]; intros cur; cbn; [rewrite app_nil_r; reflexivity|].
  rewrite IH, <- app_assoc. reflexivity.
Qed.

(** * C78: reads *)

(** With the checks of responses and of the read order on, and no more reads
    outstanding than the configured depth, there is no report exactly if the beats
    of every id answer the requests of that id in order, with the right length
    and without error. *)
Theorem C78_exact f tr : f_resp f = true -> f_rd_order f = true ->
  Forall (rd_room (f_depth f)) (periods true [] tr) ->
  (quiet (rd_run f tr) <-> Forall rd_conform (periods true [] tr)).
Proof. apply rd_exact. Qed.

(** In every configuration that checks responses, the default one included, an
    error reply on R is reported. *)
Lemma rd_beat_resp f r : f_resp f = true -> forall l l2,
  rd_beat f l r = Some (l2, []) -> r_resp r = 0 \/ r_resp r = 1.
Proof.
  intros Hr. induction l as [|t l IH]; intros l2 H; [discriminate|]. cbn [rd_beat] in H.
  destruct (rt_id t =? r_id r).
  - injection H as _ H. apply app_eq_nil in H as [H _]. rewrite Hr in H. cbn [andb] in H.
    destruct (resp_fine (rt_excl t) (r_resp r)) eqn:E; [|discriminate].
    apply resp_fine_iff in E. destruct E as [E|[_ E]]; auto.
  - destruct (rd_beat f l r) as [[l3 reps]|]; [|discriminate].
    injection H as _ ->. apply (IH l3 eq_refl).
Qed.

Theorem C78_errors f tr : f_resp f = true -> quiet (rd_run f tr) ->
  Forall (fun h => Forall (fun r => r_resp r = 0 \/ r_resp r = 1) (rbeats h))
    (periods true [] tr).
Proof.
  intros Hr Hq. unfold rd_run in Hq. apply clocked_quiet in Hq.
  rewrite Forall_forall in *. intros h Hin. specialize (Hq h Hin). clear Hin.
  assert (G : forall s, quiet (steps (rd_cycle f) s h) ->
    Forall (fun r => r_resp r = 0 \/ r_resp r = 1) (rbeats h)).
  { clear Hq. induction h as [|c h IH]; intros s Hs; [constructor|].
    apply quiet_cons in Hs as [s1 [E Hs]]. apply IH in Hs.
    change (rbeats (c :: h)) with (opt (taken (c_r c)) ++ rbeats h).
    apply Forall_app. split; [|exact Hs]. unfold rd_cycle in E.
    destruct (taken (c_r c)) as [r|]; [|constructor]. cbn [opt]. constructor; [|constructor].
    destruct (rd_beat f _ r) as [[l2 reps]|] eqn:Eb; [|discriminate].
    destruct (existsb _ l2); [discriminate|]. injection E as _ ->.
    apply (rd_beat_resp f r Hr _ _ Eb). }
  exact (G [] Hq).
Qed.

Lemma rd_room_small depth h :
  N.of_nat (length (reads h)) <= depth -> rd_room depth h.
Proof.
  intros H p c q -> Hc. change (p ++ c :: q) with (p ++ [c] ++ q) in H.
  rewrite !reads_app, !app_length in H.
  assert (length (reads [c]) = 1%nat).
  { unfold reads. cbn. destruct (taken (c_ar c)); [reflexivity|contradiction]. }
  lia.
Qed.

(** two reads of different ids, answered out of order *)
Definition two_reads : list cyc :=
  [onAr (go (mkAx 0 1 2 1 1 0 0)) idle; onAr (go (mkAx 64 0 2 1 2 0 0)) idle; idle;
   onR (go (mkR 1 false 0 0)) idle; onR (go (mkR 2 true 0 0)) idle;
   onR (go (mkR 1 true 0 0)) idle].
Example C78_case :
  quiet (rd_run (all_on 8) (awake two_reads)) /\ rd_conform two_reads /\
  reads two_reads = [mkAx 0 1 2 1 1 0 0; mkAx 64 0 2 1 2 0 0] /\
  length (rbeats two_reads) = 3%nat /\
  (* the same with an early rlast is reported *)
  exists s, rd_run (all_on 8)
    (awake (firstn 3 two_reads ++ [onR (go (mkR 1 true 0 0)) idle])) = Ok (s, [RdLength]).
Proof.
  assert (Q : quiet (rd_run (all_on 8) (awake two_reads)))
    by (eexists; vm_compute; reflexivity).
  split; [exact Q|]. split.
  - apply C78_exact in Q; [|reflexivity|reflexivity|].
    + rewrite periods_awake in Q. inversion Q. assumption.
    + rewrite periods_awake. constructor; [|constructor]. apply rd_room_small. vm_compute. discriminate.
  - split; [reflexivity|]. split; [reflexivity|]. eexists. vm_compute. reflexivity.
Qed.

(** Refuted without the bound: requests beyond the depth are dropped without a
    word, and their correct answers are reported as having an unknown id. *)
Theorem C78_depth_refuted : exists f h s,
  f_resp f = true /\ f_rd_order f = true /\ f_depth f = 1 /\ rd_conform h /\
  rd_run f (awake h) = Ok (s, [RdId]).
Proof.
  exists (all_on 1), two_reads. eexists. split; [reflexivity|]. split; [reflexivity|].
  split; [reflexivity|]. split; [apply C78_case|]. vm_compute. reflexivity.
Qed.

(** * C79: AXI4 writes *)

(** Writes that follow the rules are not reported.  Partial: AXI4, addresses
    whose lanes the checker computes correctly ([plain], see C80), no more
    outstanding than the depth. *)
Theorem C79_accepts_partial f tr :
  f_axi3 f = false -> f_resp f = true -> f_strb f = true -> f_bursts f = true ->
  Forall (fun h => Forall (plain (f_bus f)) (writes h)) (periods true [] tr) ->
  256 * f_depth f < 2 ^ 32 -> Forall (wr_room (f_depth f)) (periods true [] tr) ->
  Forall (wr_conform (f_bus f) (f_gaps f)) (periods true [] tr) -> quiet (wr_run f tr).
Proof. intros H3 Hr Hs Hb Hp. apply wr_accepts; assumption. Qed.

(** Without a report the traffic is right but for one rule: a burst may be longer
    than its length says. *)
Theorem C79_detects_partial f tr :
  f_axi3 f = false -> f_resp f = true -> f_strb f = true -> f_bursts f = true ->
  Forall (fun h => Forall (plain (f_bus f)) (writes h)) (periods true [] tr) ->
  quiet (wr_run f tr) ->
  Forall (wr_enforced (f_bus f) (f_gaps f)) (periods true [] tr).
Proof. intros H3 Hr Hs Hb Hp. apply wr_detects; assumption. Qed.

(** a burst of two beats whose first beat comes before the address *)
Definition a_write : axp := mkAx 2 1 2 1 7 0 0.
Definition two_beats : list cyc :=
  [onW (go (mkW 0 12 false 0)) idle; onAw (go a_write) idle;
   onW (go (mkW 0 15 true 0)) idle; onB (go (mkB 7 0 0)) idle].
Definition bad_strobe : list cyc :=
  [onW (go (mkW 0 14 false 0)) idle; onAw (go a_write) idle].
Definition early_last : list cyc :=
  [onW (go (mkW 0 12 true 0)) idle; onAw (go a_write) idle].
Definition bad_resp : list cyc :=
  firstn 3 two_beats ++ [onB (go (mkB 7 2 0)) idle].

Lemma plain_case : plain 4 a_write.
Proof.
  split; [exists 2; repeat split; discriminate|].
  repeat split; try reflexivity. left. reflexivity.
Qed.

Example C79_case :
  quiet (wr_run (all_on 8) (awake two_beats)) /\
  wr_enforced 4 false two_beats /\
  writes two_beats = [a_write] /\ length (wbeats two_beats) = 2%nat /\
  complete two_beats = [a_write] /\ length (answers two_beats) = 1%nat /\
  (exists s, wr_run (all_on 8) (awake bad_strobe) = Ok (s, [WrStrobe])) /\
  (exists s, wr_run (all_on 8) (awake early_last) = Ok (s, [WrLength])) /\
  (exists s, wr_run (all_on 8) (awake bad_resp) = Ok (s, [WrResp])).
Proof.
  assert (Q : quiet (wr_run (all_on 8) (awake two_beats)))
    by (eexists; vm_compute; reflexivity).
  split; [exact Q|]. split.
  - apply C79_detects_partial in Q; try reflexivity.
    + rewrite periods_awake in Q. inversion Q. assumption.
    + rewrite periods_awake. constructor; [|constructor].
      change (writes ([] ++ two_beats)) with [a_write].
      constructor; [exact plain_case|constructor].
  - do 4 (split; [reflexivity|]).
    repeat split; eexists; vm_compute; reflexivity.
Qed.

(** the hypotheses of C79_accepts_partial can be met *)
Lemma strobe_case0 : strobe_rule 4 false a_write 0 12.
Proof.
  exists 3. change (lower_lane 4 a_write 0) with 2. change (upper_lane 4 a_write 0) with 3.
  split; [lia|]. split; [reflexivity|]. intros i Hi.
  assert (E : i = 0 \/ i = 1 \/ i = 2 \/ i = 3) by lia.
  destruct E as [->|[->|[->| ->]]]; cbn; split; intros; try lia; try reflexivity; try discriminate.
Qed.
Lemma strobe_case1 : strobe_rule 4 false a_write 1 15.
Proof.
  exists 3. change (lower_lane 4 a_write 1) with 0. change (upper_lane 4 a_write 1) with 3.
  split; [lia|]. split; [reflexivity|]. intros i Hi.
  assert (E : i = 0 \/ i = 1 \/ i = 2 \/ i = 3) by lia.
  destruct E as [->|[->|[->| ->]]]; cbn; split; intros; try lia; reflexivity.
Qed.

Lemma wr_room_small depth h :
  N.of_nat (length (writes h)) <= depth -> N.of_nat (length (wbeats h)) <= 256 * depth ->
  wr_room depth h.
Proof.
  intros H1 H2 p c q E. assert (E2 : h = (p ++ [c]) ++ q) by (rewrite <- app_assoc; exact E).
  rewrite E2 in H1, H2. rewrite writes_app, app_length in H1. split; [lia|]. intros Hc.
  rewrite !wbeats_app, !app_length in H2.
  assert (length (wbeats [c]) = 1%nat).
  { unfold wbeats. cbn. destruct (taken (c_w c)); [reflexivity|contradiction]. }
  assert (Hd : forall n l, (length (drop_bursts n l) <= length l)%nat).
  { clear. intros n l. revert n. induction l as [|d l IH]; intros [|n]; cbn; try lia.
    destruct (w_last d); [specialize (IH n)|specialize (IH (S n))]; lia. }
  specialize (Hd (length (writes p)) (wbeats p)). unfold early. lia.
Qed.

Lemma prefixes4 (P : list cyc -> Prop) a b c d :
  P [] -> P [a] -> P [a; b] -> P [a; b; c] -> P [a; b; c; d] ->
  forall p q, [a; b; c; d] = p ++ q -> P p.
Proof.
  intros H0 H1 H2 H3 H4 p q E.
  destruct p as [|x1 [|x2 [|x3 [|x4 [|x5 p]]]]]; cbn in E; try injection E; intros; subst;
    try assumption; try discriminate.
Qed.

Example C79_hypotheses :
  Forall (wr_conform 4 false) (periods true [] (awake two_beats)) /\
  Forall (wr_room 8) (periods true [] (awake two_beats)).
Proof.
  rewrite periods_awake. cbn [app]. split; (constructor; [|constructor]).
  - assert (D0 : forall B, data_rule 4 false [] B)
      by (intros B m d a _ Ha; destruct (lasts (firstn m B)); discriminate).
    assert (D2 : data_rule 4 false [a_write] [mkW 0 12 false 0; mkW 0 15 true 0]).
    { intros [|[|m]] d a Hd Ha; try (destruct m; discriminate);
        injection Hd as <-; injection Ha as <-.
      - split; [exact strobe_case0|]. split; discriminate.
      - split; [exact strobe_case1|]. split; reflexivity. }
    assert (D1 : data_rule 4 false [a_write] [mkW 0 12 false 0]).
    { intros [|m] d a Hd Ha; [|destruct m; discriminate]. apply (D2 O d a Hd Ha). }
    assert (N0 : forall h, answers h = [] -> answers_right h).
    { intros h E id. rewrite E. exists []. eexists. split; [reflexivity|constructor]. }
    unfold wr_conform. apply prefixes4.
    + split; [apply D0|apply N0; reflexivity].
    + split; [apply D0|apply N0; reflexivity].
    + split; [exact D1|apply N0; reflexivity].
    + split; [exact D2|apply N0; reflexivity].
    + split; [exact D2|]. intros id.
      change (answers _) with [mkB 7 0 0]. change (complete _) with [a_write].
      cbn [filter]. change (ax_id a_write) with 7. change (b_id (mkB 7 0 0)) with 7.
      destruct (7 =? id).
      * exists [a_write], []. split; [reflexivity|].
        constructor; [left; reflexivity|constructor].
      * exists [], []. split; [reflexivity|constructor].
  - apply wr_room_small; vm_compute; discriminate.
Qed.

(** Refuted: a burst with more beats than AWLEN+1 is accepted. *)
Theorem C79_long_refuted : exists h,
  Forall (plain 4) (writes h) /\ wr_room 8 h /\
  quiet (wr_run (all_on 8) (awake h)) /\ ~ wr_conform 4 false h.
Proof.
  exists [onAw (go (mkAx 0 0 2 1 7 0 0)) idle; onW (go (mkW 0 15 false 0)) idle;
          onW (go (mkW 0 15 false 0)) idle; onW (go (mkW 0 15 true 0)) idle].
  split; [|split; [|split]].
  - constructor; [|constructor]. split; [exists 2; repeat split; discriminate|].
    repeat split; try reflexivity. left. reflexivity.
  - apply wr_room_small; vm_compute; discriminate.
  - eexists. vm_compute. reflexivity.
  - intros H. destruct (H _ [] (eq_sym (app_nil_r _))) as [D _].
    destruct (D O (mkW 0 15 false 0) (mkAx 0 0 2 1 7 0 0)) as [_ E]; [reflexivity|reflexivity|].
    assert (false = true) by (apply E; reflexivity). discriminate.
Qed.

(** Refuted: the default configuration checks responses, but an error reply on B
    is reported only if one of two other checks is on as well. *)
Definition default_cfg : cfg := mkCfg true false false false false false 64 false 4.
Theorem C79_default_refuted : exists h,
  f_resp default_cfg = true /\ ~ answers_right h /\
  wr_run default_cfg (awake h) = Ok ((true, wst0), []) /\
  exists s, wr_run (all_on 8) (awake h) = Ok (s, [WrResp]).
Proof.
  exists bad_resp. split; [reflexivity|]. split; [|split; [reflexivity|]].
  - intros H. destruct (H 7) as [pre [post [_ F]]].
    change (filter _ (answers bad_resp)) with [mkB 7 2 0] in F.
    inversion F as [|a b l1 l2 Hb Hl]; subst. destruct Hb as [Hb|[_ Hb]]; discriminate.
  - eexists. vm_compute. reflexivity.
Qed.

(** Refuted: the documented AXI3 check that the first data items come in the order
    of the addresses is never made. *)
Definition axi3_cfg : cfg := mkCfg true true true true false true 8 true 4.
Theorem C79_order_refuted : exists h a1 a2 d1 d2,
  f_data_order axi3_cfg = true /\ f_axi3 axi3_cfg = true /\
  writes h = [a1; a2] /\ wbeats h = [d2; d1] /\
  w_id d1 = ax_id a1 /\ w_id d2 = ax_id a2 /\ ax_id a1 <> ax_id a2 /\
  quiet (wr_run axi3_cfg (awake h)).
Proof.
  exists [onAw (go (mkAx 0 0 2 1 1 0 0)) idle; onAw (go (mkAx 64 0 2 1 2 0 0)) idle;
          onW (go (mkW 2 15 true 0)) idle; onW (go (mkW 1 15 true 0)) idle].
  do 4 eexists. do 2 (split; [reflexivity|]). split; [reflexivity|]. split; [reflexivity|].
  split; [reflexivity|]. split; [reflexivity|]. split; [discriminate|].
  eexists. vm_compute. reflexivity.
Qed.

(** * C80: write strobes *)

(** At beat [k] of a burst the check of WSTRB is the lane rule of the AXI
    specification.  Partial: for [plain] addresses: transfers no wider than the
    bus; INCR bursts with any address; FIXED bursts with an aligned address; WRAP
    bursts that cover whole bus words. *)
Theorem C80_strobe_partial bus gaps a k s :
  plain bus a -> N.of_nat k <= ax_len a ->
  exists b, check_wstrb bus gaps (Nat.iter k inc_beat (sample_aw a)) s = Ok b /\
            (b = true <-> strobe_rule bus gaps a (N.of_nat k) s).
Proof.
  intros Hp Hk.
  assert (E : Nat.iter k inc_beat (sample_aw a) = with_beat a (N.of_nat k)).
  { clear Hk. induction k as [|k IH]; [reflexivity|]. cbn [Nat.iter]. 
    change (Nat.iter (S k) inc_beat (sample_aw a))
      with (inc_beat (Nat.iter k inc_beat (sample_aw a))).
    rewrite IH, inc_with. f_equal. lia. }
  rewrite E. apply check_wstrb_ok; assumption.
Qed.
Example C80_case :
  plain 4 a_write /\ check_wstrb 4 false (sample_aw a_write) 12 = Ok true /\
  check_wstrb 4 false (sample_aw a_write) 14 = Ok false /\
  check_wstrb 4 false (sample_aw a_write) 4 = Ok false /\
  check_wstrb 4 true (sample_aw a_write) 4 = Ok true.
Proof. split; [exact plain_case|]. repeat split. Qed.

(** Refuted: a WRAP burst smaller than the bus.  On a 4-byte bus, two byte beats
    from address 1: the second one is at address 0. *)
Theorem C80_wrap_refuted : exists a,
  ax_burst a = 2 /\ address_rule a /\
  strobe_rule 4 false a 1 1 /\
  check_wstrb 4 false (Nat.iter 1 inc_beat (sample_aw a)) 1 = Ok false /\
  ~ strobe_rule 4 false a 1 4 /\
  check_wstrb 4 false (Nat.iter 1 inc_beat (sample_aw a)) 4 = Ok true.
Proof.
  exists (mkAx 1 1 0 2 7 0 0). split; [reflexivity|].
  split; [apply addr_checks_ok; vm_compute; first [reflexivity|discriminate]|].
  assert (L : lower_lane 4 (mkAx 1 1 0 2 7 0 0) 1 = 0) by reflexivity.
  assert (U : upper_lane 4 (mkAx 1 1 0 2 7 0 0) 1 = 0) by reflexivity.
  split; [|split; [reflexivity|split; [|reflexivity]]].
  - exists 0. rewrite L, U. split; [lia|]. split; [reflexivity|]. intros i Hi.
    assert (E : i = 0 \/ i = 1 \/ i = 2 \/ i = 3) by lia.
    destruct E as [->|[->|[->| ->]]]; cbn; split; intros; try lia; try reflexivity; discriminate.
  - intros [x [Hx [_ H]]]. rewrite L, U in Hx. rewrite L in H. specialize (H 0 ltac:(lia)).
    destruct H as [_ H]. specialize (H ltac:(lia)). discriminate.
Qed.

(** Refuted: a FIXED burst with an unaligned address: all beats use the lanes of
    the first one, the checker wants the aligned ones from the second on. *)
Theorem C80_fixed_refuted : exists a,
  ax_burst a = 0 /\ address_rule a /\
  strobe_rule 4 false a 1 14 /\
  check_wstrb 4 false (Nat.iter 1 inc_beat (sample_aw a)) 14 = Ok false /\
  ~ strobe_rule 4 false a 1 15 /\
  check_wstrb 4 false (Nat.iter 1 inc_beat (sample_aw a)) 15 = Ok true.
Proof.
  exists (mkAx 1 2 2 0 7 0 0). split; [reflexivity|].
  split; [apply addr_checks_ok; vm_compute; first [reflexivity|discriminate]|].
  assert (L : lower_lane 4 (mkAx 1 2 2 0 7 0 0) 1 = 1) by reflexivity.
  assert (U : upper_lane 4 (mkAx 1 2 2 0 7 0 0) 1 = 3) by reflexivity.
  split; [|split; [reflexivity|split; [|reflexivity]]].
  - exists 3. rewrite L, U. split; [lia|]. split; [reflexivity|]. intros i Hi.
    assert (E : i = 0 \/ i = 1 \/ i = 2 \/ i = 3) by lia.
    destruct E as [->|[->|[->| ->]]]; cbn; split; intros; try lia; try reflexivity; discriminate.
  - intros [x [Hx [_ H]]]. rewrite L, U in Hx. rewrite L in H. specialize (H 0 ltac:(lia)).
    destruct H as [H _]. specialize (H eq_refl). lia.
Qed.

(** Refuted: AWSIZE wider than the bus is not reported but stops the simulation
    with a lane outside of WSTRB. *)
Theorem C80_wide_refuted : exists a,
  burst_bytes a > 4 /\ check_wstrb 4 false (sample_aw a) 15 = AssertFail.
Proof. exists (mkAx 0 3 3 1 7 0 0). split; reflexivity. Qed.

(** * C81: addresses and lengths *)

(** The two address checks report nothing exactly if an INCR burst stays within
    its 4 KiB page and a WRAP burst is aligned and 2, 4, 8 or 16 beats long. *)
Theorem C81_address a : ax_size a <= 7 -> ax_len a < 256 ->
  (read_ok a = true <-> address_rule a) /\ (write_ok a = true <-> address_rule a).
Proof. apply addr_checks_ok. Qed.
Example C81_case :
  read_ok (mkAx 4092 1 2 1 0 0 0) = false /\ read_ok (mkAx 4088 1 2 1 0 0 0) = true /\
  write_ok (mkAx 4097 1 2 2 0 0 0) = false /\ write_ok (mkAx 4096 2 2 2 0 0 0) = false /\
  write_ok (mkAx 4100 3 2 2 0 0 0) = true.
Proof. repeat split. Qed.

(** * C82: handshakes *)

(** AXI4: there is no report exactly if no channel withdraws valid before ready,
    none keeps valid waiting for [max] cycles, and none that owes a transfer
    leaves valid low for [max] cycles. *)
Theorem C82_exact_partial max tr : 0 < max < 2 ^ 32 ->
  Forall justified (periods true [] tr) -> Forall bounded (periods true [] tr) ->
  (quiet (hs_run max false tr) <-> Forall (hs_conform max) (periods true [] tr)).
Proof. apply hs_exact. Qed.

Definition small (h : list cyc) : bool :=
  (total_len (reads h) <? 2 ^ 31) && (total_len (writes h) <? 2 ^ 31)
  && (N.of_nat (length h) <? 2 ^ 31).
Definition waits : list cyc :=
  [onAr (stall (mkAx 0 1 2 1 1 0 0)) idle; onAr (go (mkAx 0 1 2 1 1 0 0)) idle; idle; idle;
   onR (go (mkR 1 false 0 0)) idle; idle; idle; onR (go (mkR 1 true 0 0)) idle].
Example C82_case :
  quiet (hs_run 3 false (awake waits)) /\ small waits = true /\
  absent c_r due_r (firstn 7 waits) = 2%nat /\ stalled c_ar (firstn 1 waits) = 1%nat /\
  (exists s, hs_run 2 false (awake waits) = Ok (s, [NoValid CR; NoValid CR])) /\
  (exists s, hs_run 3 false
     (awake [onW (stall (mkW 0 0 true 0)) idle; idle]) = Ok (s, [Toggled CW])).
Proof.
  split; [eexists; vm_compute; reflexivity|]. do 3 (split; [reflexivity|]).
  split; eexists; vm_compute; reflexivity.
Qed.
Example C82_hypotheses : justified waits /\ bounded waits.
Proof.
  split; [|repeat split; reflexivity].
  intros p q E. unfold waits in E.
  destruct p as [|x1 [|x2 [|x3 [|x4 [|x5 [|x6 [|x7 [|x8 [|x9 p]]]]]]]]]; cbn in E;
    try injection E; intros; subst; try discriminate;
    (split; [vm_compute; discriminate|intros id; vm_compute; lia]).
Qed.

(** Refuted for AXI3: the counters of addresses and of ends of data are shared by
    all ids, so a response can stay away for ever without a report.  The write
    with id 2 has its address and its data, and 300 cycles later still no answer. *)
Theorem C82_axi3_refuted : exists h,
  map ax_id (writes h) = [1; 2] /\
  map (fun d => (w_id d, w_last d)) (wbeats h) = [(2, true); (1, true)] /\
  Forall (fun a => ax_len a = 0) (writes h) /\
  map b_id (answers h) = [1] /\ stable c_aw (awake h) /\
  quiet (hs_run 200 true (awake (h ++ repeat idle 300))).
Proof.
  exists [onAw (go (mkAx 0 0 2 1 1 0 0)) idle; onW (go (mkW 2 15 true 0)) idle;
          onAw (go (mkAx 64 0 2 1 2 0 0)) idle; onW (go (mkW 1 15 true 0)) idle;
          onB (go (mkB 1 0 0)) idle].
  split; [reflexivity|]. split; [reflexivity|]. split; [repeat constructor|].
  split; [reflexivity|]. split; [|eexists; vm_compute; reflexivity].
  intros p c1 c2 q E V R.
  destruct p as [|x1 [|x2 [|x3 [|x4 [|x5 p]]]]]; cbn in E; try injection E; intros; subst;
    try discriminate.
  destruct p; discriminate.
Qed.

(** * C83: stable signals *)

(** Traffic that keeps its signals while it waits is never reported, over resets
    as well. *)
Theorem C83_accepts {A} (eqb : A -> A -> bool) (ch : cyc -> chan A) tr :
  (forall a b, eqb a b = true <-> a = b) -> stable ch tr -> quiet (st_run eqb ch tr).
Proof.
  intros He H. destruct (st_accepts eqb ch He tr H) as [s [E _]]. exists s. exact E.
Qed.

(** If nothing is reported, a transfer whose valid has just risen kept its
    signals until it was taken. *)
Theorem C83_detects_partial {A} (eqb : A -> A -> bool) (ch : cyc -> chan A) p cs c q :
  (forall a b, eqb a b = true <-> a = b) ->
  (p = [] \/ exists p' c0, p = p' ++ [Edge true c0] /\ c_valid (ch c0) = false) ->
  Forall (fun x => c_valid (ch x) = true /\ c_ready (ch x) = false) cs ->
  c_valid (ch c) = true ->
  quiet (st_run eqb ch (p ++ map (Edge true) (cs ++ [c]) ++ q)) ->
  Forall (fun x => c_pay (ch x) = c_pay (ch c)) cs.
Proof. intros He. apply st_detects, He. Qed.

Definition eq_b (a b : bp) : bool :=
  (b_id a =? b_id b) && (b_resp a =? b_resp b) && (b_rest a =? b_rest b).
Lemma eq_b_ok a b : eq_b a b = true <-> a = b.
Proof.
  unfold eq_b. destruct a, b. cbn. split.
  - intros H. apply andb_prop in H as [H H3]. apply andb_prop in H as [H1 H2].
    apply N.eqb_eq in H1, H2, H3. congruence.
  - intros [= -> -> ->]. rewrite !N.eqb_refl. reflexivity.
Qed.
Example C83_case :
  quiet (st_run eq_b c_b (awake [idle; onB (stall (mkB 1 0 5)) idle;
                                 onB (stall (mkB 1 0 5)) idle; onB (go (mkB 1 0 5)) idle])) /\
  exists s, st_run eq_b c_b (awake [idle; onB (stall (mkB 1 0 5)) idle;
     onB (stall (mkB 1 0 6)) idle; onB (go (mkB 1 0 5)) idle]) = Ok (s, [tt]).
Proof. split; eexists; vm_compute; reflexivity. Qed.

(** Refuted in general: a transfer right behind another one (valid stays high)
    is not looked at. *)
Theorem C83_back_to_back_refuted : exists h,
  quiet (st_run eq_b c_b (awake h)) /\ ~ stable c_b (awake h) /\
  (forall p c1 c2 q, h = p ++ c1 :: c2 :: q -> c_valid (c_b c1) = true ->
     c_ready (c_b c1) = false -> c_valid (c_b c2) = true).
Proof.
  exists [idle; onB (go (mkB 1 0 0)) idle; onB (stall (mkB 2 0 0)) idle;
          onB (stall (mkB 3 0 0)) idle; onB (go (mkB 3 0 0)) idle; idle].
  split; [eexists; vm_compute; reflexivity|]. split.
  - intros H. destruct (H [Edge true idle; Edge true (onB (go (mkB 1 0 0)) idle)]
      (onB (stall (mkB 2 0 0)) idle) (onB (stall (mkB 3 0 0)) idle)
      [Edge true (onB (go (mkB 3 0 0)) idle); Edge true idle] eq_refl eq_refl eq_refl) as [_ E].
    discriminate.
  - intros p c1 c2 q E V R.
    destruct p as [|x1 [|x2 [|x3 [|x4 [|x5 [|x6 p]]]]]]; cbn in E; try injection E; intros; subst;
      try discriminate; try reflexivity; destruct p; discriminate.
Qed.

(** * C84: reset *)

(** After resetn has fallen, the first clock edge with resetn high reports exactly
    the channels whose valid is high, and nothing more is reported until the next
    reset. *)
Theorem C84_release tr cs c ds :
  exists s1 r1, rs_run tr = Ok (s1, r1) /\
  rs_run (tr ++ Fall :: map (Edge false) cs ++ Edge true c :: map (Edge true) ds) =
    Ok (false, r1 ++ asserted c) /\
  (asserted c = [] <-> all_low c).
Proof.
  destruct (rs_release tr cs c ds) as [s1 [r1 [E1 E2]]]. exists s1, r1.
  split; [exact E1|]. split; [exact E2|]. apply asserted_low.
Qed.
Example C84_case :
  rs_run (awake [idle] ++ Fall :: map (Edge false) [idle; idle]
          ++ Edge true (onW (stall (mkW 0 0 true 0)) (onAr (go ax0) idle)) :: awake two_beats)
  = Ok (false, [CAr; CW]).
Proof. vm_compute. reflexivity. Qed.

(** Refuted: the reset a simulation starts with has no falling edge, so valids that
    are high at its end are not reported. *)
Theorem C84_power_on_refuted : exists cs c,
  cs <> [] /\ ~ all_low c /\
  rs_run (map (Edge false) cs ++ [Edge true c]) = Ok (false, []).
Proof.
  exists [idle; idle], (onAw (go ax0) idle). split; [discriminate|].
  split; [intros [_ [_ [H _]]]; discriminate|]. vm_compute. reflexivity.
Qed.

Print Assumptions C78_exact.
Print Assumptions C78_errors.
Print Assumptions C78_depth_refuted.
Print Assumptions C79_accepts_partial.
Print Assumptions C79_detects_partial.
Print Assumptions C79_long_refuted.
Print Assumptions C79_default_refuted.
Print Assumptions C79_order_refuted.
Print Assumptions C80_strobe_partial.
Print Assumptions C80_wrap_refuted.
Print Assumptions C80_fixed_refuted.
Print Assumptions C80_wide_refuted.
Print Assumptions C81_address.
Print Assumptions C82_exact_partial.
Print Assumptions C82_axi3_refuted.
Print Assumptions C83_accepts.
Print Assumptions C83_detects_partial.
Print Assumptions C83_back_to_back_refuted.
Print Assumptions C84_release.
Print Assumptions C84_power_on_refuted.
