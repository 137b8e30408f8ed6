From Verif Require Import Base BaseFacts RpProtoModel RpProtoSpec RpProtoProofs RpWiresModel RpWiresSpec.
Open Scope N_scope.

(** Applying packets to the outputs, as values. *)
Definition drive (outs : list bool) (p : N * N * N * N) : list bool :=
  let '(_, line, v, _) := p in
  firstn (N.to_nat line) outs ++ [negb (v =? 0)] ++ skipn (S (N.to_nat line)) outs.

Lemma drive_at pre x suf id v fl :
  drive (pre ++ x :: suf) (id, N.of_nat (length pre), v, fl) = pre ++ negb (v =? 0) :: suf.
Proof.
  unfold drive. rewrite Nnat.Nat2N.id. rewrite firstn_app_exact.
  f_equal. cbn [app]. f_equal.
  change (S (length pre)) with (1 + length pre)%nat. rewrite Nat.add_comm.
  rewrite <- skipn_add, skipn_app_exact. reflexivity.
Qed.

(** One pass turns the old values into the new ones. *)
Lemma wire_pass_drive pc prev : forall vals pre n id l id',
  length prev = length vals ->
  wire_pass pc (N.of_nat (length pre)) (wire_events prev vals) n id = (l, id') ->
  fold_left drive l (pre ++ prev) = pre ++ vals.
Proof.
  induction prev as [|a prev IH]; intros [|b vals] pre n id l id' HL H; cbn in HL; try lia.
  - cbn in H. injection H as <- _. reflexivity.
  - cbn [wire_events combine map wire_pass] in H.
    fold (wire_events prev vals) in H.
    assert (HS : N.of_nat (length pre) + 1 = N.of_nat (length (pre ++ [b]))).
    { rewrite app_length. cbn. lia. }
    destruct (Bool.eqb a b) eqn:E; cbn [negb] in H.
    + apply Bool.eqb_prop in E. subst b. rewrite HS in H.
      apply IH in H; [|lia]. rewrite <- !app_assoc in H. exact H.
    + rewrite HS in H.
      destruct (wire_pass pc _ _ _ _) as [l0 id0] eqn:W. injection H as <- <-.
      apply IH in W; [|lia]. cbn [fold_left]. rewrite drive_at.
      rewrite <- !app_assoc in W. cbn [app] in W.
      destruct b; exact W.
Qed.

(** Ids, lines and values of the packets. *)
Lemma wire_pass_lines pc ws : forall i n id l id',
  id < u32 ->
  wire_pass pc i ws n id = (l, id') ->
  id' < u32 /\
  Forall (fun '(id, line, v, fl) => id < u32 /\ i <= line /\ line < i + N.of_nat (length ws) /\
            (v = 0 \/ v = 1) /\ (fl = 0 \/ fl = FLAG_posted)) l.
Proof.
  induction ws as [|[ev v] ws IH]; intros i n id l id' Hid H; cbn [wire_pass] in H.
  - injection H as <- <-. auto.
  - destruct ev.
    + destruct (wire_pass pc (i + 1) ws _ _) as [l0 id0] eqn:W. injection H as <- <-.
      apply IH in W.
      2:{ apply N.mod_lt. discriminate. }
      destruct W as (W1 & W2). split; [exact W1|]. constructor.
      * cbn [length]. split; [exact Hid|]. split; [lia|]. split; [lia|].
        split; [destruct v; auto|]. destruct (_ && _); auto.
      * eapply Forall_impl; [|exact W2]. intros [[[q1 q2] q3] q4] (A & B & C & D). cbn [length].
        repeat split; try lia; tauto.
    + apply IH in H; [|exact Hid]. destruct H as (W1 & W2). split; [exact W1|].
      eapply Forall_impl; [|exact W2]. intros [[[q1 q2] q3] q4] (A & B & C & D). cbn [length].
      repeat split; try lia; tauto.
Qed.

Lemma drive_length outs p :
  (N.to_nat (snd (fst (fst p))) < length outs)%nat -> length (drive outs p) = length outs.
Proof.
  destruct p as [[[id line] v] fl]. cbn [fst snd drive]. intros H.
  rewrite !app_length, firstn_length, skipn_length. cbn [length]. lia.
Qed.

(** The peer's handling of the decoded packets is [drive]. *)
Lemma wires_apply_drive dev clk l : forall rs outs,
  Forall2 (sees (mkCaps false false false false)) (wire_msgs dev clk l) rs ->
  Forall (fun p => (N.to_nat (snd (fst (fst p))) < length outs)%nat) l ->
  exists os, wires_apply dev rs outs = Ok os /\ last os outs = fold_left drive l outs.
Proof.
  induction l as [|[[[id line] v] fl] l IH]; intros rs outs HS HL.
  - inversion HS; subst. exists []. split; reflexivity.
  - cbn [wire_msgs map] in HS. inversion HS as [|? r ? rs' Hr HS']; subst.
    inversion HL as [|? ? Hl HL']; subst. cbn [fst snd] in Hl.
    destruct Hr as ((H1 & H2 & H3 & H4) & P & _).
    cbn [wires_apply]. rewrite P. unfold interrupt_action. rewrite H3, N.eqb_refl. cbn [negb].
    destruct (N.leb_spec (N.of_nat (length outs)) line) as [C|C]; [lia|].
    cbn [rbind].
    change (firstn (N.to_nat line) outs ++ [negb (v =? 0)] ++ skipn (S (N.to_nat line)) outs)
      with (drive outs (id, line, v, fl)).
    destruct (IH rs' (drive outs (id, line, v, fl)) HS') as (os & W & L).
    { rewrite drive_length by exact Hl. exact HL'. }
    rewrite W. cbn [rbind]. exists (drive outs (id, line, v, fl) :: os). split; [reflexivity|].
    cbn [fold_left]. rewrite <- L. destruct os as [|o os]; [reflexivity|].
    cbn [last]. clear. revert o. induction os as [|x os IH]; intros o; cbn; auto.
Qed.

Definition last_outs (os : list (list bool)) (outs : list bool) := last os outs.

(** One unblocked cycle, through the wire: the peer's outputs become the new values. *)
Lemma cycle_ok pc cap (p : caps) junk buf dev clk t vals ack l t' :
  t_blocked t = false -> length vals = length (t_prev t) ->
  t_id t < u32 -> dev < u32 -> clk < u64 -> N.of_nat (length vals) < u32 ->
  junk_ok junk -> rxbuf_ok buf ->
  wire_cycle pc cap t (vals, ack) = (l, t') ->
  t_prev t' = vals /\ t_id t' < u32 /\
  exists rs os,
    (forall fuel, (length l <= fuel)%nat -> rx_all fuel buf (wire_bytes dev clk l) = Ok rs) /\
    wires_apply dev rs (t_prev t) = Ok os /\ last os (t_prev t) = vals.
Proof.
  intros Hb Hlen Hid Hdev Hclk Hn Hj Hbuf H.
  unfold wire_cycle in H. rewrite Hb in H. unfold wire_update in H.
  destruct (wire_pass pc 0 (wire_events (t_prev t) vals) _ (t_id t)) as [l0 id0] eqn:W.
  injection H as <- <-. cbn [t_prev t_id].
  assert (WL := wire_pass_lines _ _ _ _ _ _ _ Hid W). destruct WL as (Hid0 & WL).
  assert (Hel : length (wire_events (t_prev t) vals) = length vals).
  { unfold wire_events. rewrite map_length, combine_length. lia. }
  rewrite Hel in WL.
  assert (Hdr : fold_left drive l0 (t_prev t) = vals).
  { eapply (wire_pass_drive pc (t_prev t) vals [] _ _ l0 id0); [lia|exact W]. }
  split; [reflexivity|]. split; [exact Hid0|].
  assert (Hs : Forall (sendable p) (wire_msgs dev clk l0)).
  { apply Forall_forall. intros m Hm. apply in_map_iff in Hm.
    destruct Hm as ([[[q1 q2] q3] q4] & <- & Hq). rewrite Forall_forall in WL.
    apply WL in Hq. destruct Hq as (A & B & C & D & E). unfold sendable, wf_msg, u8, u32, u64 in *.
    split; [|exact I].
    assert (q3 < 256) by (destruct D; subst; reflexivity).
    assert (q4 < 4294967296) by (destruct E; subst; reflexivity).
    repeat match goal with |- _ /\ _ => split end; try lia. }
  destruct (stream_ok p junk (wire_msgs dev clk l0) buf Hs Hj Hbuf) as (bytes & rs & WA & RX & SE).
  assert (Eb : bytes = wire_bytes dev clk l0).
  { clear - WA. revert bytes WA. induction l0 as [|[[[q1 q2] q3] q4] l0 IH]; intros bytes WA.
    - injection WA as <-. reflexivity.
    - cbn [wire_msgs map wire_all wire rbind] in WA.
      fold (wire_msgs dev clk l0) in WA.
      destruct (wire_all p junk (wire_msgs dev clk l0)) as [b| | |] eqn:E; try discriminate.
      cbn [rmap] in WA. apply Ok_inj in WA. subst bytes. cbn [wire_bytes flat_map].
      f_equal. apply IH. reflexivity. }
  subst bytes.
  destruct (wires_apply_drive dev clk l0 rs (t_prev t)) as (os & A & L).
  { exact SE. }
  { eapply Forall_impl; [|exact WL]. intros [[[q1 q2] q3] q4] (A & B & C & D). cbn [fst snd]. lia. }
  exists rs, os. split; [|split; [exact A|]].
  - intros fuel Hf. apply RX. unfold wire_msgs. rewrite map_length. exact Hf.
  - rewrite L. exact Hdr.
Qed.

Lemma run_ok pc cap dev clk buf cs : forall t,
  widths (length (t_prev t)) cs -> t_id t < u32 -> dev < u32 -> clk < u64 ->
  N.of_nat (length (t_prev t)) < u32 -> rxbuf_ok buf ->
  quiet_while_blocked pc cap t cs ->
  peer_run dev clk buf (fst (wire_run pc cap t cs)) (t_prev t) = Ok (map fst cs).
Proof.
  induction cs as [|[vals ack] cs IH]; intros t Hw Hid Hdev Hclk Hn Hbuf HQ; [reflexivity|].
  inversion Hw as [|? ? Hv Hw']; subst. cbn [fst] in Hv.
  destruct HQ as (HQ1 & HQ2). cbn [fst] in HQ1. cbn [wire_run map fst].
  destruct (wire_cycle pc cap t (vals, ack)) as [l t'] eqn:C. cbn [snd] in HQ2.
  assert (Hj : junk_ok (repeat 0 32)) by (unfold junk_ok; rewrite repeat_length; lia).
  destruct (t_blocked t) eqn:B.
  - specialize (HQ1 eq_refl). unfold wire_cycle in C. rewrite B in C. injection C as <- <-.
    destruct (wire_run pc cap _ cs) as [ls t''] eqn:R. cbn [fst peer_run].
    cbn [length wire_bytes flat_map rx_all rbind wires_apply last].
    specialize (IH (mkWt vals (negb ack) (t_id t))). cbn [t_prev t_id] in IH.
    rewrite R in IH. cbn [fst] in IH. rewrite HQ1 in *.
    rewrite IH; auto.
  - destruct (cycle_ok pc cap (mkCaps false false false false) (repeat 0 32) buf dev clk t vals ack l t'
       B Hv Hid Hdev Hclk ltac:(rewrite Hv; exact Hn) Hj Hbuf C) as (P & I & rs & os & RX & WA & L).
    destruct (wire_run pc cap t' cs) as [ls t''] eqn:R. cbn [fst peer_run].
    rewrite RX by lia. cbn [rbind]. rewrite WA. cbn [rbind]. rewrite L.
    specialize (IH t'). rewrite R, P in IH. cbn [fst] in IH. rewrite Hv in IH.
    rewrite IH; auto.
Qed.

(** Nothing ever blocks when updates are posted or not acknowledged. *)
Lemma never_blocked pc cap cs : forall t,
  t_blocked t = false -> (pc = true \/ cap = false) -> quiet_while_blocked pc cap t cs.
Proof.
  induction cs as [|[vals ack] cs IH]; intros t B H; [exact I|].
  cbn [quiet_while_blocked]. split; [congruence|]. apply IH; [|exact H].
  unfold wire_cycle. rewrite B. unfold wire_update.
  destruct (wire_pass pc 0 _ _ _) as [l id'] eqn:W. cbn [snd t_blocked].
  destruct H as [-> | ->]; [|reflexivity].
  assert (Hl : forall ws i n id l id', wire_pass true i ws n id = (l, id') ->
     existsb (fun '(_, fl) => fl =? 0) l = false).
  { clear. induction ws as [|[ev v] ws IH]; intros i n id l id' H; cbn [wire_pass] in H.
    - injection H as <- _. reflexivity.
    - destruct ev; [|eapply IH; exact H].
      rewrite andb_false_r in H.
      destruct (wire_pass true (i + 1) ws _ _) as [l0 id0] eqn:W. injection H as <- _.
      cbn. eapply IH; exact W. }
  rewrite (Hl _ _ _ _ _ _ W). apply andb_false_r.
Qed.

Lemma run_posted pc cap dev clk buf cs t :
  (pc = true \/ cap = false) -> t_blocked t = false ->
  widths (length (t_prev t)) cs -> t_id t < u32 -> dev < u32 -> clk < u64 ->
  N.of_nat (length (t_prev t)) < u32 -> rxbuf_ok buf ->
  peer_run dev clk buf (fst (wire_run pc cap t cs)) (t_prev t) = Ok (map fst cs).
Proof. intros. apply run_ok; auto. apply never_blocked; auto. Qed.
