(** Proofs about the AXI-Stream bridges. *)
From Verif Require Import Base AxisModel AxisSpec.
Open Scope nat_scope.

Definition lanes_bytes (l : list (option N)) : list N :=
  flat_map (fun x => match x with Some b => [b] | None => [] end) l.
Definition beat_items (b : beat) : list item := items (lanes_bytes (b_lanes b), b_last b).
Definition queue_items (q : list (option beat)) : list item :=
  flat_map (fun x => match x with Some b => beat_items b | None => [] end) q.

Section Proofs.
Context (bw : nat) (tgt : nat -> nat * nat).
Hypothesis bw_pos : 0 < bw.

Definition full (b : beat) : Prop := exists d, length d = bw /\ b_lanes b = map Some d.
(** a full beat, or the last beat of a packet with the low lanes used *)
Definition good (b : beat) : Prop :=
  full b \/ b_last b = true /\ exists d, 0 < length d < bw /\ b_lanes b = map Some d ++ repeat None (bw - length d).

Lemma lanes_bytes_some d n : lanes_bytes (map Some d ++ repeat None n) = d.
Proof.
  unfold lanes_bytes. rewrite flat_map_app.
  replace (flat_map _ (repeat None n)) with (@nil N) by (induction n; cbn; auto). rewrite app_nil_r.
  induction d; cbn; congruence.
Qed.

Lemma beats_good fuel d eop :
  length d < fuel -> d <> [] -> (eop = true \/ exists q, length d = q * bw) ->
  Forall good (axis_beats fuel bw d eop) /\ flat_map beat_items (axis_beats fuel bw d eop) = items (d, eop).
Proof.
  revert d. induction fuel as [|fuel IH]; intros d Hf Hd He; [lia|]. cbn [axis_beats].
  assert (D : d = firstn bw d ++ skipn bw d) by now rewrite firstn_skipn.
  destruct (skipn bw d) as [|x r] eqn:R.
  - rewrite app_nil_r in D. rewrite <- D.
    assert (Ld : length d <= bw) by (rewrite D; apply firstn_le_length).
    split.
    + constructor; [|constructor]. destruct (Nat.eq_dec (length d) bw) as [E|E].
      * left. exists d. rewrite E, Nat.sub_diag. cbn. now rewrite app_nil_r.
      * right. cbn [b_last b_lanes]. split.
        -- destruct He as [->|[q Q]]; [reflexivity|]. destruct q; [|lia]. destruct d; [easy|cbn in Q; lia].
        -- exists d. split; [|reflexivity]. destruct d; [easy|cbn in *; lia].
    + cbn [flat_map]. rewrite app_nil_r. unfold beat_items. cbn [b_lanes b_last]. now rewrite lanes_bytes_some.
  - assert (L : length (firstn bw d) = bw).
    { rewrite firstn_length. pose proof (skipn_length bw d) as S. rewrite R in S. cbn in S. lia. }
    assert (Lr : length (x :: r) = length d - bw) by (rewrite <- R, skipn_length; reflexivity).
    destruct (IH (x :: r)) as [I1 I2]; [cbn [length] in *; lia|discriminate| |].
    { destruct He as [->|[q Q]]; [now left|]. right. exists (q - 1). destruct q; [|cbn in *; lia].
      cbn in Q. destruct d; [easy|cbn in Q; lia]. }
    split.
    + constructor; [|exact I1]. left. exists (firstn bw d). rewrite L, Nat.sub_diag. cbn. now rewrite app_nil_r.
    + cbn [flat_map]. rewrite I2. unfold beat_items, items. cbn [b_lanes b_last fst snd].
      rewrite L, Nat.sub_diag, lanes_bytes_some, app_nil_r, app_assoc, <- map_app, <- D. reflexivity.
Qed.

(** ** The receiving loop *)
Hypothesis bw_div : exists c, MAX_DATA = c * bw.
Hypothesis bw_small : bw < MAX_DATA.

Lemma loop_short : forall d n i buf,
  length buf + length d < MAX_DATA -> lane_loop i (map Some d ++ repeat None n) buf = (buf ++ d, None).
Proof.
  induction d as [|b d IH]; intros n i buf L; cbn [map app].
  - rewrite app_nil_r. clear L. revert i. induction n; intro i; cbn; auto.
  - cbn [lane_loop length] in *. destruct (Nat.eqb_spec (length (buf ++ [b])) MAX_DATA) as [E|E].
    + rewrite app_length in E. cbn in E. lia.
    + rewrite IH; [now rewrite <- app_assoc|]. rewrite app_length. cbn. lia.
Qed.
Lemma loop_full : forall d i buf,
  d <> [] -> length buf + length d = MAX_DATA ->
  lane_loop i (map Some d) buf = (buf ++ d, Some (i + length d - 1)).
Proof.
  induction d as [|b d IH]; intros i buf Hd L; [easy|]. cbn [map lane_loop length] in *.
  destruct (Nat.eqb_spec (length (buf ++ [b])) MAX_DATA) as [E|E].
  - rewrite app_length in E. cbn in E. destruct d; [|cbn in L; lia]. do 2 f_equal. cbn. lia.
  - rewrite IH; [| |rewrite app_length; cbn; lia].
    + rewrite <- app_assoc. do 2 f_equal. lia.
    + intros ->. rewrite app_length in E. cbn in *. lia.
Qed.
Lemma last_byte_full d : forall i acc, d <> [] -> last_byte i acc (map Some d) = i + length d - 1.
Proof.
  induction d as [|b d IH]; intros i acc H; [easy|]. cbn [map last_byte length].
  destruct d as [|b' d]; [cbn; lia|]. rewrite IH by discriminate. cbn [length]. lia.
Qed.

(** ** Invariant: nothing is lost or doubled *)
Definition pending (s : axis) : list item :=
  (match x_rpc s with R_Wait buf => map Byte buf | _ => [] end) ++
  (if x_valid s then beat_items (x_wire s) else []) ++ queue_items (x_queue s).
Record inv (s : axis) : Prop := {
  i_queue : forall b, In (Some b) (x_queue s) -> good b;
  i_wire : x_valid s = true -> good (x_wire s);
  i_lanes : length (b_lanes (x_wire s)) = bw;
  i_rpc : match x_rpc s with
          | R_Wait buf => x_ready s = true /\ length buf < MAX_DATA /\ exists c, length buf = c * bw
          | R_Tlm k d i lb => x_ready s = false /\ k = 0 /\ 0 < d /\ i = bw
          end }.

Lemma good_lanes b : good b -> length (b_lanes b) = bw.
Proof.
  intros [(d & L & ->)|(_ & d & L & ->)]; [now rewrite map_length|].
  rewrite app_length, map_length, repeat_length. lia.
Qed.
Lemma next_ok q w :
  (forall b, In (Some b) q -> good b) -> length (b_lanes w) = bw ->
  let '(q', v', w') := next_wire q w in
  (forall b, In (Some b) q' -> good b) /\ (v' = true -> good w') /\ length (b_lanes w') = bw /\
  (if v' then beat_items w' else []) ++ queue_items q' = queue_items q.
Proof.
  intros Hq Hw. unfold next_wire. destruct q as [|[b|] q]; cbn.
  - easy.
  - repeat split; intros; auto using in_eq, in_cons, good_lanes.
  - repeat split; intros; auto using in_cons. discriminate.
Qed.

Lemma edge_inv s s' ps :
  (forall n, fst (tgt n) = 0) -> inv s -> edge bw tgt s = (s', ps) ->
  inv s' /\ flat_map items ps ++ pending s' = pending s.
Proof.
  intros HK [Hq Hw Hl Hr] H. unfold edge in H. unfold pending.
  destruct (x_rpc s) as [buf|k d i lb] eqn:P.
  - destruct Hr as (R & Lb & c & Hc). rewrite R, andb_false_r in H.
    pose proof (next_ok (x_queue s) (x_wire s) Hq Hl) as NX.
    destruct (next_wire (x_queue s) (x_wire s)) as [[q v] w]. destruct NX as (N1 & N2 & N3 & N4).
    rewrite <- N4. destruct (x_valid s) eqn:V.
    2: { injection H as <- <-. split; [constructor; cbn; eauto|]. cbn. reflexivity. }
    specialize (Hw eq_refl). unfold thread_from in H. change (skipn 0 (b_lanes (x_wire s))) with (b_lanes (x_wire s)) in H.
    destruct bw_div as [c0 Hc0].
    destruct Hw as [(dd & Ld & El)|(El & dd & Ld & Ell)].
    + assert (Hd : dd <> []) by (intros ->; cbn in Ld; lia).
      assert (IT : beat_items (x_wire s) = items (dd, b_last (x_wire s))).
      { unfold beat_items. rewrite El. do 2 f_equal. transitivity (lanes_bytes (map Some dd ++ repeat None 0)); [cbn; now rewrite app_nil_r|apply lanes_bytes_some]. }
      rewrite IT. rewrite El in H.
      assert (LT : length buf + bw <= MAX_DATA).
      { rewrite Hc, Hc0 in *. assert (c < c0) by (apply Nat.mul_lt_mono_pos_r with bw; lia).
        replace (c * bw + bw) with (S c * bw) by lia. apply Nat.mul_le_mono_r. lia. }
      destruct (Nat.eq_dec (length buf + bw) MAX_DATA) as [E|E].
      * rewrite loop_full in H by (auto; lia). rewrite last_byte_full in H by auto. cbn [Nat.add] in H.
        rewrite Nat.eqb_refl, andb_true_r in H. replace (S (length dd - 1)) with bw in H by lia.
        pose proof (HK (x_calls s)) as K. destruct (tgt (x_calls s)) as [k d]. cbn in K. subst k.
        destruct d as [|d].
        -- rewrite skipn_all2 in H by lia. cbn [lane_loop] in H. unfold after_loop in H.
           cbn [length Nat.eqb negb] in H. rewrite andb_false_r in H. cbn in H. injection H as <- <-.
           split; [constructor; cbn; auto; repeat split; auto; [unfold MAX_DATA; lia|now exists 0]|].
           cbn [x_rpc flat_map x_valid x_wire x_queue map app]. unfold items. cbn [fst snd].
           rewrite map_app, !app_nil_r, <- !app_assoc. reflexivity.
        -- cbn [fst snd] in H. injection H as <- <-.
           split; [constructor; cbn; auto; repeat split; auto; lia|].
           cbn [x_rpc flat_map x_valid x_wire x_queue map app]. unfold items. cbn [fst snd].
           rewrite map_app, !app_nil_r, <- !app_assoc. reflexivity.
      * replace (map Some dd) with (map Some dd ++ repeat None 0) in H by (cbn; now rewrite app_nil_r).
        rewrite loop_short in H by lia. unfold after_loop in H.
        assert (NE : length (buf ++ dd) <> 0) by (rewrite app_length; lia).
        destruct (Nat.eqb_spec (length (buf ++ dd)) 0) as [Q|_]; [easy|]. cbn [negb] in H. rewrite andb_true_r in H.
        destruct (b_last (x_wire s)).
        -- pose proof (HK (x_calls s)) as K. destruct (tgt (x_calls s)) as [k d]. cbn in K. subst k.
           destruct d as [|d]; cbn [fst snd] in H; injection H as <- <-.
           ++ split; [constructor; cbn; auto; repeat split; auto; [unfold MAX_DATA; lia|now exists 0]|].
              cbn [x_rpc flat_map x_valid x_wire x_queue map app]. unfold items. cbn [fst snd].
              rewrite map_app, !app_nil_r, <- !app_assoc. reflexivity.
           ++ split; [constructor; cbn; auto; repeat split; auto; lia|].
              cbn [x_rpc flat_map x_valid x_wire x_queue map app]. unfold items. cbn [fst snd].
              rewrite map_app, !app_nil_r, <- !app_assoc. reflexivity.
        -- cbn [fst snd] in H. injection H as <- <-.
           split; [constructor; cbn; auto; repeat split; auto; rewrite app_length; [lia|exists (S c); lia]|].
           cbn [x_rpc flat_map x_valid x_wire x_queue map app]. unfold items. cbn [fst snd].
           rewrite map_app, !app_nil_r, <- !app_assoc. reflexivity.
    + assert (IT : beat_items (x_wire s) = items (dd, true)).
      { unfold beat_items. rewrite Ell, El. now rewrite lanes_bytes_some. }
      rewrite IT. rewrite Ell in H.
      assert (LT : length buf + bw <= MAX_DATA).
      { rewrite Hc, Hc0 in *. assert (c < c0) by (apply Nat.mul_lt_mono_pos_r with bw; lia).
        replace (c * bw + bw) with (S c * bw) by lia. apply Nat.mul_le_mono_r. lia. }
      rewrite loop_short in H by lia. unfold after_loop in H.
      assert (NE : length (buf ++ dd) <> 0) by (rewrite app_length; lia).
      destruct (Nat.eqb_spec (length (buf ++ dd)) 0) as [Q|_]; [easy|]. cbn [negb] in H. rewrite El in H. cbn [andb] in H.
      pose proof (HK (x_calls s)) as K. destruct (tgt (x_calls s)) as [k d]. cbn in K. subst k.
      destruct d as [|d]; cbn [fst snd] in H; injection H as <- <-.
      * split; [constructor; cbn; auto; repeat split; auto; [unfold MAX_DATA; lia|now exists 0]|].
        cbn [x_rpc flat_map x_valid x_wire x_queue map app]. unfold items. cbn [fst snd].
        rewrite map_app, !app_nil_r, <- !app_assoc. reflexivity.
      * split; [constructor; cbn; auto; repeat split; auto; lia|].
        cbn [x_rpc flat_map x_valid x_wire x_queue map app]. unfold items. cbn [fst snd].
        rewrite map_app, !app_nil_r, <- !app_assoc. reflexivity.
  - destruct Hr as (R & -> & D & ->). rewrite R in H. cbn [negb] in H. rewrite andb_true_r in H.
    destruct d as [|d]; [lia|].
    assert (NX : exists q v w, (if x_valid s then (x_queue s, x_valid s, x_wire s) else next_wire (x_queue s) (x_wire s)) = (q, v, w) /\
       (forall b, In (Some b) q -> good b) /\ (v = true -> good w) /\ length (b_lanes w) = bw /\
       (if v then beat_items w else []) ++ queue_items q = (if x_valid s then beat_items (x_wire s) else []) ++ queue_items (x_queue s)).
    { destruct (x_valid s) eqn:V.
      - exists (x_queue s), true, (x_wire s). auto.
      - pose proof (next_ok (x_queue s) (x_wire s) Hq Hl) as NX.
        destruct (next_wire (x_queue s) (x_wire s)) as [[q v] w]. now exists q, v, w. }
    destruct NX as (q & v & w & E & N1 & N2 & N3 & N4). rewrite E in H. rewrite <- N4.
    destruct d as [|d].
    + unfold thread_from in H. rewrite skipn_all2 in H by lia. cbn [lane_loop] in H. unfold after_loop in H.
      cbn [length Nat.eqb negb] in H. rewrite andb_false_r in H. cbn in H. injection H as <- <-.
      split; [constructor; cbn; auto; repeat split; auto; [unfold MAX_DATA; lia|now exists 0]|]. reflexivity.
    + injection H as <- <-. split; [constructor; cbn; auto; repeat split; auto; lia|]. reflexivity.
Qed.

Lemma edges_inv n : forall s s' ps,
  (forall n, fst (tgt n) = 0) -> inv s -> edges bw tgt n s = (s', ps) ->
  inv s' /\ flat_map items ps ++ pending s' = pending s.
Proof.
  induction n as [|n IH]; intros s s' ps HK I H; cbn [edges] in H.
  - injection H as <- <-. auto.
  - destruct (edge bw tgt s) as [s1 p1] eqn:E1. destruct (edges bw tgt n s1) as [s2 p2] eqn:E2. injection H as <- <-.
    destruct (edge_inv _ _ _ HK I E1) as [I1 Q1]. destruct (IH _ _ _ HK I1 E2) as [I2 Q2].
    split; [exact I2|]. rewrite flat_map_app, <- Q1, <- Q2. symmetry. apply app_assoc.
Qed.

(** ** Everything is eventually taken *)
Definition work (s : axis) : nat := 2 * length (x_queue s) + (if x_valid s then 1 else 0).
Definition quiet (s : axis) : Prop :=
  x_queue s = [] /\ x_valid s = false /\ exists buf, x_rpc s = R_Wait buf.

Lemma next_work q w : let '(q', v', w') := next_wire q w in
  2 * length q' + (if v' then 1 else 0) <= 2 * length q /\
  (q <> [] -> 2 * length q' + (if v' then 1 else 0) < 2 * length q).
Proof. unfold next_wire. destruct q as [|[b|] q]; cbn [length]; split; try lia; easy. Qed.

Lemma edge_wait_work s s' ps buf :
  inv s -> x_rpc s = R_Wait buf -> ~ quiet s -> edge bw tgt s = (s', ps) -> work s' < work s.
Proof.
  intros [_ _ _ Hr] P NQ H. unfold edge in H. rewrite P in *. destruct Hr as (R & _). rewrite R, andb_false_r in H.
  pose proof (next_work (x_queue s) (x_wire s)) as NX.
  destruct (next_wire (x_queue s) (x_wire s)) as [[q v] w]. destruct NX as (N1 & N2).
  assert (W : 2 * length q + (if v then 1 else 0) < work s).
  { unfold work. destruct (x_queue s) eqn:Q.
    - destruct (x_valid s) eqn:V; [cbn in *; lia|]. exfalso. apply NQ. unfold quiet. eauto.
    - destruct (x_valid s); specialize (N2 ltac:(discriminate)); lia. }
  destruct (x_valid s); injection H as <- <-; exact W.
Qed.
Lemma edge_tlm_work s s' ps d i lb :
  inv s -> x_rpc s = R_Tlm 0 (S d) i lb -> edge bw tgt s = (s', ps) ->
  work s' <= work s /\ x_rpc s' = (match d with O => R_Wait [] | S _ => R_Tlm 0 d i lb end).
Proof.
  intros [Hq _ Hl Hr] P H. unfold edge in H. rewrite P in *. destruct Hr as (R & _ & _ & ->).
  rewrite R in H. cbn [negb] in H. rewrite andb_true_r in H.
  pose proof (next_work (x_queue s) (x_wire s)) as NX. pose proof (next_ok (x_queue s) (x_wire s) Hq Hl) as NO.
  assert (E : exists q v w, (if x_valid s then (x_queue s, x_valid s, x_wire s) else next_wire (x_queue s) (x_wire s)) = (q, v, w) /\
      2 * length q + (if v then 1 else 0) <= work s /\ length (b_lanes w) = bw).
  { unfold work. destruct (x_valid s) eqn:V.
    - exists (x_queue s), true, (x_wire s). auto.
    - destruct (next_wire (x_queue s) (x_wire s)) as [[q v] w]. exists q, v, w. rewrite Nat.add_0_r.
      split; [reflexivity|]. split; [apply NX|apply NO]. }
  destruct E as (q & v & w & E & W & L). rewrite E in H. destruct d as [|d].
  - unfold thread_from in H. rewrite skipn_all2 in H by lia. cbn [lane_loop] in H. unfold after_loop in H.
    cbn [length Nat.eqb negb] in H. rewrite andb_false_r in H. cbn in H. injection H as <- <-. split; [exact W|reflexivity].
  - injection H as <- <-. split; [exact W|reflexivity].
Qed.

Lemma edges_app n m s : edges bw tgt (n + m) s =
  let '(s1, p1) := edges bw tgt n s in let '(s2, p2) := edges bw tgt m s1 in (s2, p1 ++ p2).
Proof.
  revert s. induction n as [|n IH]; intro s; cbn [edges Nat.add].
  - now destruct (edges bw tgt m s).
  - destruct (edge bw tgt s) as [s1 p1]. rewrite IH. destruct (edges bw tgt n s1) as [s2 p2].
    destruct (edges bw tgt m s2) as [s3 p3]. now rewrite app_assoc.
Qed.

Lemma drain : forall w s, (forall n, fst (tgt n) = 0) -> inv s -> work s <= w ->
  exists n, quiet (fst (edges bw tgt n s)).
Proof.
  intros w s HK. revert s.
  assert (Step : forall s n, quiet (fst (edges bw tgt n (fst (edge bw tgt s)))) -> quiet (fst (edges bw tgt (S n) s))).
  { intros s n Q. cbn [edges]. destruct (edge bw tgt s) as [s1 p1]. cbn [fst] in Q. now destruct (edges bw tgt n s1). }
  assert (Busy : forall w, (forall s, inv s -> work s <= w -> forall buf, x_rpc s = R_Wait buf -> exists n, quiet (fst (edges bw tgt n s))) ->
     forall s, inv s -> work s <= w -> exists n, quiet (fst (edges bw tgt n s))).
  { intros w' HW s I L. destruct (x_rpc s) as [buf|k d i lb] eqn:P; [eauto|].
    pose proof (i_rpc _ I) as R. rewrite P in R. destruct R as (_ & -> & D & _).
    revert s I L P. induction d as [|d IH]; [lia|]. intros s I L P.
    destruct (edge bw tgt s) as [s1 p1] eqn:E. destruct (edge_inv _ _ _ HK I E) as [I1 _].
    destruct (edge_tlm_work _ _ _ _ _ _ I P E) as [W1 P1].
    destruct d as [|d].
    - destruct (HW s1 I1 ltac:(lia) _ P1) as [n Q]. exists (S n). apply Step. now rewrite E.
    - destruct (IH ltac:(lia) s1 I1 ltac:(lia) P1) as [n Q]. exists (S n). apply Step. now rewrite E. }
  induction w as [|w IH]; apply Busy; intros s I L buf P.
  - exists 0. cbn. unfold work in L. unfold quiet. destruct (x_queue s); [|cbn in L; lia].
    destruct (x_valid s); [lia|eauto].
  - destruct (edge bw tgt s) as [s1 p1] eqn:E.
    assert (quiet s \/ ~ quiet s) as [Q|Q].
    { unfold quiet. destruct (x_queue s); [|right; now intros (? & _)]. destruct (x_valid s); [right; now intros (_ & ? & _)|left; eauto]. }
    + now exists 0.
    + destruct (edge_inv _ _ _ HK I E) as [I1 _]. pose proof (edge_wait_work _ _ _ _ I P Q E).
      destruct (IH s1 I1 ltac:(lia)) as [n Hn]. exists (S n). apply Step. now rewrite E.
Qed.
Lemma quiet_stays s n : quiet s -> quiet (fst (edges bw tgt n s)) /\ snd (edges bw tgt n s) = [].
Proof.
  revert s. induction n as [|n IH]; intros s Q; cbn [edges]; [auto|].
  assert (E : exists s1, edge bw tgt s = (s1, []) /\ quiet s1).
  { destruct Q as (Q1 & Q2 & buf & Q3). unfold edge. rewrite Q1, Q2, Q3 in *. cbn.
    eexists. split; [reflexivity|]. unfold quiet. cbn. eauto. }
  destruct E as (s1 & -> & Q1). destruct (IH s1 Q1) as [A B]. destruct (edges bw tgt n s1) as [s2 p2]. cbn in *. now subst.
Qed.
End Proofs.
