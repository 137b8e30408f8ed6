(** Proofs about the Ethernet PHY bridges. *)
From Verif Require Import Base BaseFacts CrcModel PhyModel.
Open Scope N_scope.

(** ** MII *)
Lemma mii_receive_app s w1 w2 :
  mii_receive s (w1 ++ w2) =
  rbind (mii_receive s w1) (fun r => rbind (mii_receive (snd r) w2) (fun r' => Ok (fst r ++ fst r', snd r'))).
Proof.
  revert s. induction w1 as [|[[|] d] w1 IH]; intro s; cbn [mii_receive app].
  - cbn. destruct (mii_receive s w2) as [[]| | |]; reflexivity.
  - destruct (process_nibble s d); cbn; auto.
  - rewrite IH. destruct (mii_receive mii_reset w1) as [[p q]| | |]; cbn; auto.
    destruct (mii_receive q w2) as [[]| | |]; cbn; auto. destruct (m_buf s); reflexivity.
Qed.

(** a stretch of bytes in the DATA state *)
Lemma mii_data buf d :
  bytes_ok d -> N.of_nat (length buf + length d) <= BUF ->
  mii_receive (mkMii M_DATA 0 0 buf) (mii_push true d) = Ok ([], mkMii M_DATA 0 0 (buf ++ d)).
Proof.
  revert buf. induction d as [|b d IH]; intros buf Hb Hl; cbn [mii_push flat_map].
  - now rewrite app_nil_r.
  - inversion Hb as [|? ? B Hb']; subst. cbn [length] in Hl.
    change (mii_byte true b) with [(true, N.land (N.shiftr b 0) 15); (true, N.land (N.shiftr b 4) 15)].
    cbn [app mii_receive process_nibble m_state m_cnt m_d8 m_buf N.eqb rbind Pos.eqb].
    destruct (N.ltb_spec (N.of_nat (length buf)) BUF) as [L|L]; [|lia]. cbn [rbind].
    replace (N.lor (N.land (N.shiftr b 0) 15) (N.shiftl (N.land (N.shiftr b 4) 15) 4) mod 256) with b.
    + replace (buf ++ b :: d) with ((buf ++ [b]) ++ d) by now rewrite <- app_assoc.
      apply IH; auto. rewrite app_length. cbn. lia.
    + change 15 with (N.ones 4). change 256 with (2 ^ 8). rewrite <- N.land_ones.
      apply N.bits_inj. intro i.
      rewrite N.land_spec, N.lor_spec, N.land_spec, N.shiftr_spec', N.add_0_r.
      destruct (N.ltb_spec i 8) as [I8|I8].
      * rewrite (N.ones_spec_low 8) by lia. rewrite andb_true_r.
        destruct (N.ltb_spec i 4) as [I4|I4].
        -- rewrite N.ones_spec_low by lia. rewrite N.shiftl_spec_low by lia. now rewrite andb_true_r, orb_false_r.
        -- rewrite N.ones_spec_high by lia. rewrite N.shiftl_spec_high' by lia.
           rewrite N.land_spec, N.shiftr_spec', N.ones_spec_low by lia.
           rewrite andb_false_r, andb_true_r. cbn. f_equal. lia.
      * rewrite (N.ones_spec_high 8) by lia. rewrite andb_false_r.
        apply N.bits_above_log2. destruct (N.eq_dec b 0) as [->|Nz]; [cbn; lia|].
        apply N.log2_lt_pow2; [lia|]. unfold is_byte in B.
        apply N.lt_le_trans with 256; [lia|]. change 256 with (2 ^ 8). apply N.pow_le_mono_r; lia.
Qed.

Lemma mii_data_ub buf d :
  bytes_ok d -> (length buf <= N.to_nat BUF)%nat -> BUF < N.of_nat (length buf + length d) ->
  mii_receive (mkMii M_DATA 0 0 buf) (mii_push true d) = UB.
Proof.
  intros Hb L H. remember (N.to_nat BUF) as B eqn:EB. assert (EB' : BUF = N.of_nat B) by (subst; now rewrite N2Nat.id).
  rewrite <- (firstn_skipn (B - length buf) d). unfold mii_push. rewrite flat_map_app.
  change (mii_receive (mkMii M_DATA 0 0 buf) (mii_push true (firstn (B - length buf) d) ++
            mii_push true (skipn (B - length buf) d)) = UB).
  rewrite mii_receive_app, mii_data.
  - cbn [rbind snd]. pose proof (skipn_length (B - length buf) d) as SL.
    destruct (skipn (B - length buf) d) as [|b r]; [cbn in SL; lia|].
    cbn [mii_push flat_map]. 
    change (mii_byte true b) with [(true, N.land (N.shiftr b 0) 15); (true, N.land (N.shiftr b 4) 15)].
    cbn [app mii_receive process_nibble m_state m_cnt m_d8 m_buf N.eqb rbind Pos.eqb].
    destruct (N.ltb_spec (N.of_nat (length (buf ++ firstn (B - length buf) d))) BUF) as [Q|Q]; [|reflexivity].
    rewrite app_length, firstn_length in Q. lia.
  - rewrite <- (firstn_skipn (B - length buf) d) in Hb. now apply Forall_app in Hb.
  - rewrite firstn_length. lia.
Qed.

Lemma mii_idle n d : mii_receive mii_reset (repeat (false, d) n) = Ok ([], mii_reset).
Proof. induction n; cbn [repeat mii_receive]; [reflexivity|]. rewrite IHn. reflexivity. Qed.

(** FCS of a frame as sent *)
Definition mii_frame (csum : bool) (data : list N) : list N :=
  data ++ (if csum then crc_bytes (crc32 0 data) else @nil N).

Lemma crc_bytes_ok c : bytes_ok (crc_bytes c).
Proof. repeat constructor; unfold is_byte; apply N.mod_lt; discriminate. Qed.
Lemma mii_frame_ok csum d : bytes_ok d -> bytes_ok (mii_frame csum d).
Proof. intro H. apply Forall_app. split; [exact H|]. destruct csum; [apply crc_bytes_ok|constructor]. Qed.
Lemma mii_push_frame (csum : bool) d :
  mii_push true d ++ (if csum then mii_push true (crc_bytes (crc32 0 d)) else []) = mii_push true (mii_frame csum d).
Proof. unfold mii_frame, mii_push. rewrite flat_map_app. destruct csum; reflexivity. Qed.

Lemma mii_preamble :
  mii_receive mii_reset (mii_push false (repeat 7 8) ++ mii_push true [85; 85; 85; 85; 85; 85; 85; 213]) =
  Ok ([], mkMii M_DATA 0 0 []).
Proof. vm_compute. reflexivity. Qed.

Lemma mii_one csum d gap :
  bytes_ok d -> N.of_nat (length (mii_frame csum d)) <= BUF ->
  mii_receive mii_reset (mii_send csum d gap) =
  Ok (match mii_frame csum d with [] => [] | p => [p] end, mii_reset).
Proof.
  intros Hb Hl. unfold mii_send. cbv zeta. rewrite mii_push_frame.
  remember (last _ _) as q eqn:Q. clear Q.
  rewrite app_assoc, mii_receive_app, mii_preamble. cbn [rbind snd fst].
  rewrite mii_receive_app, mii_data by (auto; now apply mii_frame_ok).
  cbn [rbind snd fst app repeat mii_receive m_buf]. rewrite mii_idle. cbn [rbind fst snd].
  destruct (mii_frame csum d); reflexivity.
Qed.

Lemma mii_one_ub csum d gap :
  bytes_ok d -> BUF < N.of_nat (length (mii_frame csum d)) ->
  mii_receive mii_reset (mii_send csum d gap) = UB.
Proof.
  intros Hb Hl. unfold mii_send. cbv zeta. rewrite mii_push_frame.
  remember (last _ _) as q eqn:Q. clear Q.
  rewrite app_assoc, mii_receive_app, mii_preamble. cbn [rbind snd fst].
  rewrite mii_receive_app, mii_data_ub; [reflexivity|now apply mii_frame_ok|cbn; lia|exact Hl].
Qed.

Definition nonempty (l : list (list N)) : list (list N) :=
  filter (fun p => match p with [] => false | _ => true end) l.

Lemma mii_many csum (ps : list (list N * nat)) :
  Forall (fun p => bytes_ok (fst p) /\ N.of_nat (length (mii_frame csum (fst p))) <= BUF) ps ->
  mii_receive mii_reset (flat_map (fun p => mii_send csum (fst p) (snd p)) ps) =
  Ok (nonempty (map (fun p => mii_frame csum (fst p)) ps), mii_reset).
Proof.
  induction ps as [|[d g] ps IH]; intro H; [reflexivity|]. inversion H as [|? ? [H1 H2] H3]; subst.
  cbn [flat_map fst snd map]. rewrite mii_receive_app, mii_one by auto. cbn [rbind snd fst].
  rewrite IH by auto. cbn [rbind fst snd nonempty filter]. cbn [fst] in *.
  destruct (mii_frame csum d); reflexivity.
Qed.

(** ** XGMII *)
Lemma x_receive_app m s w1 w2 :
  x_receive m s (w1 ++ w2) =
  rbind (x_receive m s w1) (fun r => rbind (x_receive m (snd r) w2) (fun r' => Ok (fst r ++ fst r', snd r'))).
Proof.
  revert s. induction w1 as [|c w1 IH]; intro s; cbn [x_receive app].
  - cbn. destruct (x_receive m s w2) as [[]| | |]; reflexivity.
  - destruct (x_cycle m s c) as [[s1 o]| | |]; cbn; auto. rewrite IH.
    destruct (x_receive m s1 w1) as [[p q]| | |]; cbn; auto.
    destruct (x_receive m q w2) as [[]| | |]; cbn; auto. now rewrite app_assoc.
Qed.

(** What the lanes carry. *)
Lemma shiftr_low d n k : n <= k -> d < 2 ^ n -> N.shiftr d k = 0.
Proof.
  intros H L. rewrite N.shiftr_div_pow2. apply N.div_small.
  eapply N.lt_le_trans; [exact L|]. apply N.pow_le_mono_r; lia.
Qed.
Lemma lor_lt a b n : a < 2 ^ n -> b < 2 ^ n -> N.lor a b < 2 ^ n.
Proof.
  intros Ha Hb. destruct (N.eq_dec (N.lor a b) 0) as [->|Nz]; [lia|].
  apply N.log2_lt_pow2; [lia|]. rewrite N.log2_lor.
  destruct (N.eq_dec a 0) as [->|Za]; [destruct (N.eq_dec b 0) as [->|Zb]; [cbn in Nz; lia|]|];
    [|destruct (N.eq_dec b 0) as [->|Zb]];
    repeat match goal with
    | |- context [N.log2 0] => change (N.log2 0) with 0
    end.
  - rewrite N.max_0_l. apply N.log2_lt_pow2; lia.
  - rewrite N.max_0_r. apply N.log2_lt_pow2; lia.
  - apply N.max_lub_lt; apply N.log2_lt_pow2; lia.
Qed.

Lemma x_lanes_data bs : forall (l ctrl data c : N) (i : N),
  bytes_ok bs -> data < 2 ^ (l * 8) ->
  N.shiftr (fst (x_lanes l bs ctrl data c)) (i * 8) mod 256 =
  if i <? l then N.shiftr data (i * 8) mod 256 else nth (N.to_nat (i - l)) bs 0.
Proof.
  induction bs as [|b bs IH]; intros l ctrl data c i Hb Hd; cbn [x_lanes fst].
  - destruct (N.ltb_spec i l) as [L|L]; [reflexivity|].
    rewrite (shiftr_low data (l * 8)) by (lia || auto). destruct (N.to_nat (i - l)); reflexivity.
  - inversion Hb as [|? ? B Hb']; subst. unfold is_byte in B. rewrite IH; auto.
    + destruct (N.ltb_spec i (l + 1)) as [L|L].
      * rewrite N.shiftr_lor. destruct (N.ltb_spec i l) as [L2|L2].
        -- change 256 with (2 ^ 8). rewrite <- !N.land_ones, N.land_lor_distr_l.
           rewrite N.shiftr_shiftl_l by lia.
           replace (N.land (N.shiftl b (l * 8 - i * 8)) (N.ones 8)) with 0; [now rewrite N.lor_0_r|].
           rewrite N.land_ones, N.shiftl_mul_pow2.
           replace (l * 8 - i * 8) with (8 + (l * 8 - i * 8 - 8)) by lia.
           rewrite N.pow_add_r, N.mul_assoc, (N.mul_comm b), <- N.mul_assoc, N.mul_comm, N.mod_mul by discriminate. reflexivity.
        -- assert (i = l) as -> by lia. rewrite (shiftr_low data (l * 8)) by (lia || auto).
           rewrite N.lor_0_l, N.shiftr_shiftl_l by lia. rewrite N.sub_diag, N.shiftl_0_r, N.mod_small by exact B.
           now rewrite N.sub_diag.
      * destruct (N.ltb_spec i l); [lia|]. replace (N.to_nat (i - l)) with (S (N.to_nat (i - (l + 1)))) by lia. reflexivity.
    + apply lor_lt.
      * eapply N.lt_le_trans; [exact Hd|]. apply N.pow_le_mono_r; lia.
      * rewrite N.shiftl_mul_pow2. replace ((l + 1) * 8) with (8 + l * 8) by lia. rewrite N.pow_add_r.
        apply N.mul_lt_mono_pos_r; [|exact B]. apply N.neq_0_lt_0, N.pow_nonzero. discriminate.
Qed.
Lemma x_lanes_ctrl bs : forall (l ctrl data c i : N),
  N.testbit (snd (x_lanes l bs ctrl data c)) i =
  if (l <=? i) && (i <? l + N.of_nat (length bs)) then N.testbit ctrl (i - l) else N.testbit c i.
Proof.
  induction bs as [|b bs IH]; intros l ctrl data c i; cbn [x_lanes snd length].
  - destruct (N.leb_spec l i); [|reflexivity]. destruct (N.ltb_spec i (l + N.of_nat 0)); [lia|reflexivity].
  - rewrite IH. rewrite N.shiftr_spec'.
    destruct (N.leb_spec (l + 1) i) as [A|A].
    + replace (i - (l + 1) + 1) with (i - l) by lia.
      destruct (N.leb_spec l i); [|lia]. cbn [andb].
      destruct (N.ltb_spec i (l + 1 + N.of_nat (length bs))), (N.ltb_spec i (l + N.of_nat (S (length bs)))); try lia; auto.
      rewrite N.lor_spec, N.ldiff_spec.
      rewrite !N.shiftl_spec_high' by lia.
      assert (Z : forall x k, x < 2 -> 0 < k -> N.testbit x k = false).
      { intros x k Hx Hk. destruct (N.eq_dec x 0) as [->|]; [apply N.bits_0|]. assert (x = 1) as -> by lia.
        destruct k; [lia|]. now rewrite N.bits_above_log2 by (cbn; lia). }
      rewrite (Z 1) by lia. rewrite (Z (N.land ctrl 1)).
      2:{ change 1 with (N.ones 1). rewrite N.land_ones. apply N.mod_lt. discriminate. }
      2: lia.
      cbn. now rewrite andb_true_r, orb_false_r.
    + cbn [andb]. destruct (N.leb_spec l i) as [C|C].
      * assert (i = l) as -> by lia. destruct (N.ltb_spec l (l + N.of_nat (S (length bs)))); [|lia]. cbn [andb].
        rewrite N.lor_spec, N.ldiff_spec, !N.shiftl_spec_high' by lia. rewrite N.sub_diag, N.land_spec.
        cbn [negb N.testbit Pos.testbit]. now rewrite andb_false_r, andb_true_r.
      * cbn [andb]. rewrite N.lor_spec, N.ldiff_spec, !N.shiftl_spec_low by lia. cbn. now rewrite andb_true_r, orb_false_r.
Qed.

Lemma lanes_bytes n bs ctrl :
  bytes_ok bs -> length bs = n ->
  map (lane_byte (fst (x_lanes 0 bs ctrl 0 255))) (seq 0 n) = bs.
Proof.
  intros Hb L. apply nth_ext with (d := 0) (d' := 0); [now rewrite map_length, seq_length|].
  intros i Hi. rewrite map_length, seq_length in Hi.
  rewrite nth_indep with (d' := lane_byte (fst (x_lanes 0 bs ctrl 0 255)) 0) by (now rewrite map_length, seq_length).
  rewrite map_nth, seq_nth by exact Hi. cbn [Nat.add]. unfold lane_byte.
  rewrite x_lanes_data by (auto; cbn; lia). destruct (N.ltb_spec (N.of_nat i) 0); [lia|].
  now rewrite N.sub_0_r, Nat2N.id.
Qed.
Lemma lanes_ctrl n bs ctrl :
  length bs = n ->
  map (lane_ctrl (snd (x_lanes 0 bs ctrl 0 255))) (seq 0 n) = map (lane_ctrl ctrl) (seq 0 n).
Proof.
  intros L. apply map_ext_in. intros i Hi. apply in_seq in Hi. unfold lane_ctrl. rewrite x_lanes_ctrl.
  destruct (N.leb_spec 0 (N.of_nat i)); [|lia]. destruct (N.ltb_spec (N.of_nat i) (0 + N.of_nat (length bs))); [|lia].
  cbn [andb]. now rewrite N.sub_0_r.
Qed.
Lemma lanes_zero bs ctrl :
  length bs = 8%nat -> (snd (x_lanes 0 bs ctrl 0 255) =? 0) = negb (existsb (lane_ctrl ctrl) (seq 0 8)).
Proof.
  intro L. destruct (existsb (lane_ctrl ctrl) (seq 0 8)) eqn:E; cbn [negb].
  - apply existsb_exists in E as (i & Hi & T). apply in_seq in Hi. apply N.eqb_neq. intro Z.
    assert (F : N.testbit (snd (x_lanes 0 bs ctrl 0 255)) (N.of_nat i) = true).
    { rewrite x_lanes_ctrl. destruct (N.leb_spec 0 (N.of_nat i)); [|lia].
      destruct (N.ltb_spec (N.of_nat i) (0 + N.of_nat (length bs))); [|lia]. cbn [andb]. now rewrite N.sub_0_r. }
    rewrite Z, N.bits_0 in F. discriminate.
  - apply N.eqb_eq. apply N.bits_inj. intro i. rewrite N.bits_0, x_lanes_ctrl.
    destruct (N.leb_spec 0 i) as [_|]; [|lia]. cbn [andb].
    destruct (N.ltb_spec i (0 + N.of_nat (length bs))) as [H|H].
    + rewrite N.sub_0_r. destruct (N.testbit ctrl i) eqn:T; [|reflexivity].
      assert (existsb (lane_ctrl ctrl) (seq 0 8) = true); [|congruence].
      apply existsb_exists. exists (N.to_nat i). split; [apply in_seq; lia|]. unfold lane_ctrl. now rewrite N2Nat.id.
    + change 255 with (N.ones 8). apply N.ones_spec_high. lia.
Qed.

(** A tagged byte: value and control flag. *)
Definition tok := (N * bool)%type.
Fixpoint tag (bs : list N) (ctrl : N) : list tok :=
  match bs with [] => [] | b :: bs' => (b, N.testbit ctrl 0) :: tag bs' (N.shiftr ctrl 1) end.
Lemma tag_app a b ctrl : tag (a ++ b) ctrl = tag a ctrl ++ tag b (N.shiftr ctrl (N.of_nat (length a))).
Proof.
  revert ctrl. induction a as [|x a IH]; intro ctrl; cbn [app tag length].
  - now rewrite N.shiftr_0_r.
  - rewrite IH, N.shiftr_shiftr. do 4 f_equal. lia.
Qed.
Lemma tag_combine bs ctrl : tag bs ctrl = combine bs (map (lane_ctrl ctrl) (seq 0 (length bs))).
Proof.
  revert ctrl. induction bs as [|b bs IH]; intro ctrl; cbn [tag length seq map combine]; [reflexivity|].
  f_equal. rewrite IH. f_equal. rewrite <- seq_shift, map_map. apply map_ext. intro i. unfold lane_ctrl.
  rewrite N.shiftr_spec'. f_equal. lia.
Qed.
Lemma tag_0 bs : tag bs 0 = map (fun b => (b, false)) bs.
Proof. induction bs; cbn; [reflexivity|]. now rewrite IHbs. Qed.

Lemma process_bytes_app s a b :
  process_bytes s (a ++ b) =
  rbind (process_bytes s a) (fun r => rbind (process_bytes (fst r) b) (fun r' => Ok (fst r', snd r ++ snd r'))).
Proof.
  revert s. induction a as [|[d c] a IH]; intro s; cbn [app process_bytes].
  - cbn. destruct (process_bytes s b) as [[]| | |]; reflexivity.
  - destruct (process_byte s d c) as [[s1 o]| | |]; cbn; auto. rewrite IH.
    destruct (process_bytes s1 a) as [[p q]| | |]; cbn; auto.
    destruct (process_bytes p b) as [[]| | |]; cbn; auto. now rewrite app_assoc.
Qed.
Lemma process_data buf d :
  N.of_nat (length buf + length d) < BUF ->
  process_bytes (mkXrx true true true buf) (map (fun b => (b, false)) d) = Ok (mkXrx true true true (buf ++ d), []).
Proof.
  revert buf. induction d as [|b d IH]; intros buf L; cbn [map process_bytes]; [now rewrite app_nil_r|].
  unfold process_byte. cbn [x_sof x_d5 x_55 x_buf length] in *.
  destruct (N.ltb_spec (N.of_nat (length buf)) BUF); [|lia]. cbn [rbind fst snd x_buf].
  rewrite app_length. cbn [length]. destruct (N.eqb_spec (N.of_nat (length buf + 1)) BUF); [lia|]. cbn [fst snd].
  rewrite IH by (rewrite app_length; cbn; lia). cbn. now rewrite <- app_assoc.
Qed.

(** [steps m s l s' o]: the tokens [l] in whole cycles, a fast-path cycle being
    taken only where the byte path would do the same. *)
Lemma cycle_slow m s bs ctrl r :
  bytes_ok bs -> length bs = lanes m ->
  (x_d5 s = true -> s = mkXrx true true true (x_buf s)) ->
  process_bytes s (tag bs ctrl) = Ok r ->
  (m = MODE_10G -> x_d5 s = true -> existsb (lane_ctrl ctrl) (seq 0 8) = false ->
     N.of_nat (length (x_buf s)) + 8 < BUF) ->
  x_cycle m s (x_lanes 0 bs ctrl 0 255) = Ok r.
Proof.
  intros Hb L W H F. rewrite tag_combine in H. unfold x_cycle. destruct m; cbn [lanes] in L.
  - rewrite lanes_zero by exact L. unfold lanes. rewrite (lanes_bytes 8) by auto.
    rewrite (lanes_ctrl 8) by auto. rewrite L in H.
    destruct (x_d5 s) eqn:D; cbn [andb]; [|exact H].
    destruct (existsb (lane_ctrl ctrl) (seq 0 8)) eqn:E; cbn [negb]; [exact H|].
    specialize (F eq_refl eq_refl eq_refl). destruct (N.leb_spec (N.of_nat (length (x_buf s)) + 8) BUF); [|lia].
    rewrite <- H. rewrite (W eq_refl) at 4. rewrite <- L, <- tag_combine.
    assert (T : tag bs ctrl = map (fun b => (b, false)) bs).
    { rewrite tag_combine, L. 
      assert (Z : map (lane_ctrl ctrl) (seq 0 8) = repeat false 8).
      { cbn in E |- *. repeat (apply orb_false_elim in E as [? E]). now repeat f_equal. }
      rewrite Z. clear -L. do 9 (destruct bs as [|? bs]; try discriminate). reflexivity. }
    rewrite T, process_data by (rewrite L; lia). rewrite (W eq_refl). reflexivity.
  - unfold lanes. rewrite (lanes_bytes 1), (lanes_ctrl 1) by auto. rewrite L in H. exact H.
Qed.

Definition in_frame (s : x_rx) : Prop := x_d5 s = true -> s = mkXrx true true true (x_buf s).

Lemma byte_frame s d c s' o :
  process_byte s d c = Ok (s', o) -> in_frame s ->
  in_frame s' /\ (length (x_buf s') <= length (x_buf s) + if c then 0 else 1)%nat.
Proof.
  unfold process_byte, in_frame. intros H W. destruct c.
  - destruct (d =? 251); [|destruct (d =? 254); [|destruct (d =? 253); [destruct (x_d5 s)|]]];
      apply Ok_inj in H; injection H as <- <-; cbn; split; try discriminate; try lia; auto.
  - destruct (x_sof s) eqn:E1; [destruct (x_d5 s) eqn:E2; [|destruct (x_55 s) eqn:E3]|].
    + specialize (W eq_refl). destruct (_ <? BUF); [|discriminate]. cbn [rbind] in H.
      destruct (_ =? BUF); apply Ok_inj in H; injection H as <- <-; cbn; split; try discriminate; try lia.
      * intros _. rewrite W. reflexivity.
      * rewrite app_length. cbn. lia.
    + cbn [rbind] in H. destruct (d =? 213); destruct (_ =? BUF); apply Ok_inj in H; injection H as <- <-; cbn;
        split; try discriminate; try lia; auto; intro Q; congruence.
    + cbn [rbind] in H. destruct (d =? 85); destruct (_ =? BUF); apply Ok_inj in H; injection H as <- <-; cbn;
        split; try discriminate; try lia; auto; intro Q; congruence.
    + cbn [rbind] in H. destruct (_ =? BUF); apply Ok_inj in H; injection H as <- <-; cbn;
        split; try discriminate; try lia; auto.
Qed.
(** number of bytes without the control flag *)
Definition dcount (l : list tok) : nat := length (filter (fun t => negb (snd t)) l).
Lemma dcount_app a b : (dcount (a ++ b) = dcount a + dcount b)%nat.
Proof. unfold dcount. now rewrite filter_app, app_length. Qed.
Lemma dcount_data l : dcount (map (fun b => (b, false)) l) = length l.
Proof. unfold dcount. induction l; cbn; [reflexivity|]. now rewrite IHl. Qed.
Lemma dcount_fd n : dcount ((253, true) :: repeat (7, true) n) = 0%nat.
Proof. unfold dcount. cbn. induction n; cbn; auto. Qed.
Lemma bytes_frame l : forall s s' o,
  process_bytes s l = Ok (s', o) -> in_frame s ->
  in_frame s' /\ (length (x_buf s') <= length (x_buf s) + dcount l)%nat.
Proof.
  induction l as [|[d c] l IH]; intros s s' o H W; cbn [process_bytes] in H.
  - apply Ok_inj in H. injection H as <- <-. split; [exact W|lia].
  - destruct (process_byte s d c) as [[s1 o1]| | |] eqn:E; try discriminate. cbn [rbind fst] in H.
    destruct (process_bytes s1 l) as [[s2 o2]| | |] eqn:E2; try discriminate. cbn in H.
    apply Ok_inj in H. injection H as <- <-.
    destruct (byte_frame _ _ _ _ _ E W) as [W1 L1]. destruct (IH _ _ _ E2 W1) as [W2 L2]. split; [exact W2|].
    unfold dcount in *. cbn [filter snd]. destruct c; cbn [negb length]; lia.
Qed.

(** A whole number of cycles acts like its bytes one by one. *)
Lemma push_bytes m fuel : forall s d ctrl s' o,
  (length d <= fuel)%nat -> bytes_ok d -> (exists q, length d = q * lanes m)%nat -> in_frame s ->
  N.of_nat (length (x_buf s) + dcount (tag d ctrl)) < BUF ->
  process_bytes s (tag d ctrl) = Ok (s', o) ->
  x_receive m s (x_push fuel (lanes m) d ctrl) = Ok (o, s').
Proof.
  induction fuel as [|fuel IH]; intros s d ctrl s' o Hf Hb [q Hq] W HL H.
  - destruct d; [|cbn in Hf; lia]. cbn in H |- *. apply Ok_inj in H. now injection H as <- <-.
  - destruct d as [|b0 d0] eqn:Ed; [cbn in H |- *; apply Ok_inj in H; now injection H as <- <-|].
    rewrite <- Ed in *. cbn [x_push]. rewrite Ed at 1.
    assert (Lp : (0 < lanes m)%nat) by (destruct m; cbn; lia).
    destruct q as [|q]; [subst d; cbn in Hq; lia|].
    assert (L1 : length (firstn (lanes m) d) = lanes m) by (rewrite firstn_length; lia).
    assert (Hb1 : bytes_ok (firstn (lanes m) d) /\ bytes_ok (skipn (lanes m) d)).
    { apply Forall_app. now rewrite firstn_skipn. }
    assert (Ls : (length (skipn (lanes m) d) = q * lanes m)%nat) by (rewrite skipn_length; lia).
    rewrite <- (firstn_skipn (lanes m) d) in H at 1. rewrite tag_app, process_bytes_app in H.
    destruct (process_bytes s (tag (firstn (lanes m) d) ctrl)) as [[s1 o1]| | |] eqn:E; try discriminate.
    cbn [rbind fst snd] in H.
    destruct (process_bytes s1 _) as [[s2 o2]| | |] eqn:E2 in H; try discriminate. cbn [rbind fst snd] in H.
    apply Ok_inj in H. injection H as <- <-.
    destruct (bytes_frame _ _ _ _ E W) as [W1 B1]. 
    rewrite <- (firstn_skipn (lanes m) d), tag_app, dcount_app in HL.
    cbn [x_receive]. rewrite cycle_slow with (r := (s1, o1)); auto; try tauto.
    + cbn [rbind fst snd]. rewrite IH with (s' := s2) (o := o2); auto; try tauto.
      * rewrite Ls. lia.
      * now exists q.
      * rewrite L1 in *. lia.
    + intros -> _ Q. cbn [lanes] in *. rewrite tag_combine, L1 in HL.
      assert (D8 : dcount (combine (firstn 8 d) (map (lane_ctrl ctrl) (seq 0 8))) = 8%nat); [|lia].
      revert L1 Q. clear. generalize (firstn 8 d). intros bs L Q.
      assert (Z : map (lane_ctrl ctrl) (seq 0 8) = repeat false 8).
      { cbn in Q |- *. repeat (apply orb_false_elim in Q as [? Q]). now repeat f_equal. }
      rewrite Z. do 9 (destruct bs as [|? bs]; try discriminate). reflexivity.
Qed.

Lemma push_buf m s d ctrl s' o :
  bytes_ok d -> (exists q, length d = q * 8)%nat -> in_frame s ->
  N.of_nat (length (x_buf s) + dcount (tag d ctrl)) < BUF ->
  process_bytes s (tag d ctrl) = Ok (s', o) ->
  x_receive m s (push_data_buf m d ctrl) = Ok (o, s').
Proof.
  intros Hb [q Hq] W HL H. apply push_bytes; auto. destruct m; cbn [lanes]; [now exists q|]. exists (length d). lia.
Qed.
Lemma concrete_ok l : forallb (fun b => b <? 256) l = true -> bytes_ok l.
Proof. intro H. apply Forall_forall. intros x Hx. rewrite forallb_forall in H. apply N.ltb_lt. auto. Qed.
Lemma reset_frame : in_frame x_reset.
Proof. discriminate. Qed.

(** ctrl flags of the tail *)
Lemma tail_tokens rest :
  (length rest < 8)%nat ->
  tag (tail_bytes rest) (tail_ctrl rest) =
  map (fun b => (b, false)) (rest ++ [192; 193; 194; 195]) ++
  (253, true) :: repeat (7, true) ((if Nat.ltb 8 (length rest + 5) then 16 else 8) - length rest - 5).
Proof.
  intro H. do 8 (destruct rest as [|? rest]; [reflexivity|]). cbn in H. lia.
Qed.

Lemma idle_tokens s n : process_bytes s (repeat (7, true) n) = Ok (s, []).
Proof. induction n; cbn [repeat process_bytes]; [reflexivity|]. cbn. now rewrite IHn. Qed.
Lemma idle_push m s : in_frame s -> N.of_nat (length (x_buf s)) < BUF ->
  x_receive m s (push_data_buf m idle_seq 255) = Ok ([], s).
Proof.
  intros W L. apply push_buf; [now apply concrete_ok|now exists 1%nat|exact W|cbn; lia|apply (idle_tokens s 8)].
Qed.

(** the last bytes of a frame *)
Lemma tail_run buf rest : 
  (length rest < 8)%nat -> N.of_nat (length buf + length rest) + 4 < BUF ->
  process_bytes (mkXrx true true true buf) (tag (tail_bytes rest) (tail_ctrl rest)) =
  Ok (x_reset, [X_Packet (buf ++ rest)]).
Proof.
  intros H L. rewrite tail_tokens by exact H. rewrite process_bytes_app, process_data by (rewrite app_length; cbn; lia).
  cbn [rbind fst snd process_bytes]. unfold process_byte. cbn [x_d5 x_buf N.eqb Pos.eqb rbind fst snd].
  rewrite idle_tokens. cbn [rbind fst snd app]. unfold x_emit.
  rewrite app_assoc, app_length. cbn [length].
  destruct (N.ltb_spec (N.of_nat (length (buf ++ rest) + 4)) 4); [lia|].
  do 4 f_equal. rewrite firstn_app. replace (length (buf ++ rest) + 4 - 4)%nat with (length (buf ++ rest)) by lia.
  rewrite firstn_all, Nat.sub_diag. cbn. now rewrite app_nil_r.
Qed.
Lemma tail_ok rest : bytes_ok rest -> bytes_ok (tail_bytes rest).
Proof.
  intro H. unfold tail_bytes. apply Forall_forall. intros x Hx.
  assert (G : In x ((rest ++ [192; 193; 194; 195; 253]) ++ repeat 7 (16 - length (rest ++ [192; 193; 194; 195; 253])))).
  { rewrite <- (firstn_skipn (if Nat.ltb 8 (length (rest ++ [192; 193; 194; 195; 253])) then 16 else 8)). apply in_or_app. now left. }
  apply in_app_or in G as [G|G]; [apply in_app_or in G as [G|G]|].
  - unfold bytes_ok in H. rewrite Forall_forall in H. auto.
  - unfold is_byte. cbn in G. lia.
  - apply repeat_spec in G. unfold is_byte. lia.
Qed.
Lemma tail_len rest : (length rest < 8)%nat -> (exists q, length (tail_bytes rest) = q * 8 /\ q <= 2)%nat.
Proof.
  intro H. do 8 (destruct rest as [|? rest]; [first [now exists 1%nat; split; [reflexivity|lia] | now exists 2%nat]|]).
  cbn in H. lia.
Qed.

Lemma x_one m d :
  bytes_ok d -> N.of_nat (length d) + 4 < BUF ->
  x_receive m x_reset (x_packet m d) = Ok ([X_Packet d], x_reset).
Proof.
  intros Hb HL. unfold x_packet. cbv zeta. set (n8 := (length d / 8 * 8)%nat).
  assert (Hd : (length d = 8 * (length d / 8) + length d mod 8)%nat) by (apply Nat.div_mod; discriminate).
  assert (Hr : (length d mod 8 < 8)%nat) by (apply Nat.mod_upper_bound; discriminate).
  assert (L1 : length (firstn n8 d) = n8) by (rewrite firstn_length; unfold n8; lia).
  assert (L2 : (length (skipn n8 d) < 8)%nat) by (rewrite skipn_length; unfold n8; lia).
  assert (Lt : (n8 + length (skipn n8 d) = length d)%nat) by (rewrite skipn_length; unfold n8; lia).
  assert (Hb1 : bytes_ok (firstn n8 d) /\ bytes_ok (skipn n8 d)) by (apply Forall_app; now rewrite firstn_skipn).
  rewrite x_receive_app, idle_push by (apply reset_frame || reflexivity). cbn [rbind fst snd].
  rewrite x_receive_app, idle_push by (apply reset_frame || reflexivity). cbn [rbind fst snd].
  rewrite x_receive_app, (push_buf m x_reset _ 1 (mkXrx true true true []) []);
    [|now apply concrete_ok|now exists 1%nat|apply reset_frame|reflexivity|reflexivity].
  cbn [rbind fst snd].
  rewrite x_receive_app, (push_buf m _ _ 0 (mkXrx true true true (firstn n8 d)) []); [|tauto| |easy| |].
  2: exists (length d / 8)%nat; exact L1.
  2: { rewrite tag_0, dcount_data. cbn [x_buf length]. lia. }
  2: { rewrite tag_0, process_data; [reflexivity|cbn [length]; lia]. }
  cbn [rbind fst snd].
  rewrite x_receive_app, (push_buf m _ _ _ x_reset [X_Packet (firstn n8 d ++ skipn n8 d)]); [|now apply tail_ok| |easy| |].
  2: { destruct (tail_len _ L2) as (q & Q & _). now exists q. }
  2: { rewrite tail_tokens, dcount_app by exact L2. cbn [x_buf].
       rewrite dcount_data, dcount_fd, app_length, L1. cbn [length]. lia. }
  2: { apply tail_run; [exact L2|]. rewrite L1. lia. }
  cbn [rbind fst snd]. rewrite idle_push by (apply reset_frame || reflexivity). cbn. now rewrite firstn_skipn.
Qed.

(** the cycle held between packets *)
Lemma packet_last m d : last (x_packet m d) (0, 0) = last (push_data_buf m idle_seq 255) (0, 0).
Proof.
  unfold x_packet. cbv zeta. rewrite !app_assoc.
  match goal with |- last (?a ++ ?b) _ = _ => generalize a; intro pre end.
  destruct m; vm_compute (push_data_buf _ _ _).
  - now rewrite last_last.
  - match goal with |- last (pre ++ ?l) _ = _ => change l with (removelast l ++ [last l (0, 0)]) end.
    rewrite app_assoc, last_last. reflexivity.
Qed.
Lemma held_idle m n : x_receive m x_reset (repeat (last (push_data_buf m idle_seq 255) (0, 0)) n) = Ok ([], x_reset).
Proof.
  induction n; cbn [repeat x_receive]; [reflexivity|]. 
  assert (E : x_cycle m x_reset (last (push_data_buf m idle_seq 255) (0, 0)) = Ok (x_reset, [])) by (destruct m; vm_compute; reflexivity).
  rewrite E. cbn [rbind fst snd]. rewrite IHn. reflexivity.
Qed.
Lemma x_many m (ps : list (list N * nat)) :
  Forall (fun p => bytes_ok (fst p) /\ N.of_nat (length (fst p)) + 4 < BUF) ps ->
  x_receive m x_reset (flat_map (fun p => x_send m (fst p) (snd p)) ps) = Ok (map (fun p => X_Packet (fst p)) ps, x_reset).
Proof.
  induction ps as [|[d g] ps IH]; intro H; [reflexivity|]. inversion H as [|? ? [H1 H2] H3]; subst.
  cbn [flat_map fst snd map] in *. unfold x_send at 1. rewrite packet_last.
  rewrite x_receive_app, x_receive_app, x_one by auto. cbn [rbind snd fst]. rewrite held_idle. cbn [rbind snd fst].
  rewrite IH by auto. reflexivity.
Qed.

(** ** any input at all, one lane *)
Lemma byte_1g s d c : (length (x_buf s) < N.to_nat BUF)%nat ->
  exists s' o, process_byte s d c = Ok (s', o) /\ (length (x_buf s') < N.to_nat BUF)%nat.
Proof.
  intro L. unfold process_byte. destruct c.
  - destruct (d =? 251); [|destruct (d =? 254); [|destruct (d =? 253); [destruct (x_d5 s)|]]]; eexists _, _; split; try reflexivity; cbn; try lia; exact L.
  - assert (G : exists s1, (if x_sof s then if x_d5 s then if N.of_nat (length (x_buf s)) <? BUF
          then Ok (mkXrx true (x_55 s) true (x_buf s ++ [d])) else UB
        else if x_55 s then Ok (if d =? 213 then mkXrx true true true (x_buf s) else s)
        else Ok (if d =? 85 then mkXrx true true (x_d5 s) (x_buf s) else s) else Ok s) = Ok s1 /\
        (length (x_buf s1) <= N.to_nat BUF)%nat).
    { destruct (x_sof s); [destruct (x_d5 s); [|destruct (x_55 s)]|].
      - destruct (N.ltb_spec (N.of_nat (length (x_buf s))) BUF); [|lia]. eexists. split; [reflexivity|]. cbn [x_buf].
        rewrite app_length. cbn [length]. lia.
      - eexists. split; [reflexivity|]. destruct (d =? 213); cbn [x_buf]; lia.
      - eexists. split; [reflexivity|]. destruct (d =? 85); cbn [x_buf]; lia.
      - eexists. split; [reflexivity|]. lia. }
    destruct G as (s1 & -> & L1). cbn [rbind].
    destruct (N.eqb_spec (N.of_nat (length (x_buf s1))) BUF); eexists _, _; (split; [reflexivity|]); cbn [x_reset x_buf length]; lia.
Qed.
Lemma run_1g w : forall s, (length (x_buf s) < N.to_nat BUF)%nat -> exists o s', x_receive MODE_1G s w = Ok (o, s').
Proof.
  induction w as [|[d c] w IH]; intros s L; cbn [x_receive]; [now eexists _, _|].
  unfold x_cycle. cbn [lanes seq map combine process_bytes fst snd].
  destruct (byte_1g s (lane_byte d 0) (lane_ctrl c 0) L) as (s1 & o1 & -> & L1). cbn [rbind fst snd].
  destruct (IH s1 L1) as (o & s2 & ->). cbn. now eexists _, _.
Qed.
