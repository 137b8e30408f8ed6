From Verif Require Import Base BaseFacts TlmModel TlmSpec TlmFacts RegapiModel RegapiProofs CdmaModel CdmaSpec.
Open Scope N_scope.

Definition rwf (regs : list N) : Prop := length regs = R_MAX.

Lemma reg_set regs i v j : length regs = R_MAX -> (i < R_MAX)%nat ->
  reg (set_reg regs i v) j = if (j =? i)%nat then v else reg regs j.
Proof. intros H Hi. unfold reg. apply set_reg_nth. lia. Qed.
Lemma len_set regs i v : length regs = R_MAX -> (i < R_MAX)%nat -> length (set_reg regs i v) = R_MAX.
Proof. intros H Hi. rewrite set_reg_length; lia. Qed.

Lemma lor_high_low h l : l < u32 -> h < u32 -> N.lor (N.shiftl h 32 mod u64) l = h * u32 + l.
Proof.
  intros Hl Hh. rewrite N.shiftl_mul_pow2. change (2 ^ 32) with u32.
  assert (h * u32 < u64).
  { change u64 with (u32 * u32). apply N.mul_lt_mono_pos_r; [reflexivity|exact Hh]. }
  rewrite N.mod_small by assumption.
  rewrite <- N.lxor_lor; [rewrite <- N.add_nocarry_lxor; [reflexivity|]|];
  (apply N.bits_inj; intros k; rewrite N.land_spec, N.bits_0;
   change u32 with (2 ^ 32); destruct (N.lt_ge_cases k 32);
   [rewrite N.mul_pow2_bits_low by assumption; reflexivity
   |rewrite (small_bits l 32 k) by assumption; apply andb_false_r]).
Qed.

(** The registers hold a 64-bit value in two halves. *)
Definition holds (regs : list N) (msb lsb : nat) (v : N) : Prop :=
  reg regs lsb = v mod u32 /\ reg regs msb = v / u32.
Lemma holds64 regs msb lsb v : holds regs msb lsb v -> v < u64 -> reg64 regs msb lsb = v.
Proof.
  intros [H1 H2] Hv. unfold reg64. rewrite H1, H2.
  rewrite lor_high_low.
  - rewrite N.mul_comm. symmetry. apply N.div_mod. discriminate.
  - apply N.mod_lt. discriminate.
  - apply N.div_lt_upper_bound; [discriminate|exact Hv].
Qed.

(** ** One block *)
Lemma block_regs {S} (t : target S) junk regs s sa da n :
  rwf regs -> holds regs R_SA_MSB R_SA sa -> holds regs R_DA_MSB R_DA da ->
  reg regs R_BTT = n -> sa < u64 -> da < u64 ->
  let tl := N.min n 64 in
  let regs' := fst (cdma_block t junk regs s) in
  rwf regs' /\ holds regs' R_SA_MSB R_SA ((sa + tl) mod u64) /\
  holds regs' R_DA_MSB R_DA ((da + tl) mod u64) /\ reg regs' R_BTT = n - tl /\
  reg regs' R_CR = reg regs R_CR /\
  reg regs' R_SR = if n - tl =? 0 then N.lor (reg regs R_SR) (N.lor SR_IDLE SR_IOC_IRQ) else reg regs R_SR.
Proof.
  intros W Hs Hd Hb Us Ud tl. unfold cdma_block.
  rewrite (holds64 _ _ _ _ Hs Us), (holds64 _ _ _ _ Hd Ud), Hb. fold tl.
  destruct (t s _) as [s1 [buf st1]]. destruct (t s1 _) as [s2 [buf2 st2]]. cbn [fst].
  assert (Sh : forall x, N.shiftr x 32 = x / u32) by (intros x; apply N.shiftr_div_pow2).
  rewrite !Sh.
  set (a := (sa + tl) mod u64). set (b := (da + tl) mod u64).
  clear - W Hb. clearbody a b tl. unfold holds, rwf, reg in *.
  do 11 (destruct regs as [|? regs]; [discriminate W|]).
  destruct regs; [|discriminate W].
  destruct (n - tl =? 0); repeat split.
Qed.

Lemma block_mem bad junk regs m sa da n :
  holds regs R_SA_MSB R_SA sa -> holds regs R_DA_MSB R_DA da -> reg regs R_BTT = n ->
  (64 <= length junk)%nat ->
  let tl := N.min n 64 in
  0 < tl -> sa + tl <= u64 -> da + tl <= u64 ->
  (forall x, sa <= x < sa + tl -> bad x = false) ->
  (forall x, da <= x < da + tl -> bad x = false) ->
  forall x, snd (cdma_block (atomic_memory bad) junk regs m) x = copied m sa da tl x.
Proof.
  intros Hs Hd Hb Hj tl H0 Us Ud Bs Bd x. unfold cdma_block.
  rewrite (holds64 _ _ _ _ Hs), (holds64 _ _ _ _ Hd), Hb by lia. fold tl.
  set (j := firstn (N.to_nat tl) junk).
  assert (Lj : length j = N.to_nat tl) by (unfold j; rewrite firstn_length; lia).
  assert (P1 : plain_at (dma_gp C_READ j sa) tl).
  { unfold plain_at, dma_gp, g_len. cbn [g_be g_sw g_data g_addr]. rewrite Lj. repeat split; lia. }
  rewrite (atomic_whole bad m (dma_gp C_READ j sa)) by (apply (plain_bad _ tl); [exact P1|exact Bs]).
  cbn [g_cmd dma_gp writes reads].
  change (accesses (mkGp C_READ sa j None (N.of_nat (length j)) St_INCOMPLETE))
    with (accesses (dma_gp C_READ j sa)).
  rewrite (plain_reads _ tl) by exact P1. cbn [dma_gp g_data g_addr]. rewrite Lj.
  set (buf := map (fun i => m (sa + N.of_nat i)) (seq 0 (N.to_nat tl))).
  assert (Lb : length buf = N.to_nat tl) by (unfold buf; rewrite map_length, seq_length; reflexivity).
  assert (P2 : plain_at (dma_gp C_WRITE buf da) tl).
  { unfold plain_at, dma_gp, g_len. cbn [g_be g_sw g_data g_addr]. rewrite Lb. repeat split; lia. }
  rewrite (atomic_whole bad m (dma_gp C_WRITE buf da)) by (apply (plain_bad _ tl); [exact P2|exact Bd]).
  cbn [snd]. change (writes (g_cmd (dma_gp C_WRITE buf da)) m (accesses (dma_gp C_WRITE buf da)))
    with (fold_left put (accesses (dma_gp C_WRITE buf da)) m).
  rewrite (plain_writes _ tl) by exact P2. unfold copied. cbn [dma_gp g_addr g_data].
  destruct ((da <=? x) && (x <? da + tl)) eqn:E; [|reflexivity].
  unfold buf. rewrite (nth_indep _ 0 (m (sa + N.of_nat 0))) by (rewrite map_length, seq_length; lia).
  rewrite (map_nth (fun i => m (sa + N.of_nat i))), seq_nth by lia. f_equal. lia.
Qed.

(** ** The whole transfer *)
Lemma run_copies bad junk : (64 <= length junk)%nat -> forall fuel regs m sa da n,
  rwf regs -> holds regs R_SA_MSB R_SA sa -> holds regs R_DA_MSB R_DA da -> reg regs R_BTT = n ->
  sa + n < u64 -> da + n < u64 ->
  (forall x, sa <= x < sa + n -> bad x = false) ->
  (forall x, da <= x < da + n -> bad x = false) ->
  da <= sa \/ sa + n <= da ->
  n <= 64 * N.of_nat fuel ->
  exists regs' m', cdma_run fuel (atomic_memory bad) junk regs m = Some (regs', m') /\
    (forall x, m' x = copied m sa da n x) /\
    rwf regs' /\ reg regs' R_BTT = 0 /\ holds regs' R_SA_MSB R_SA (sa + n) /\
    holds regs' R_DA_MSB R_DA (da + n) /\ reg regs' R_CR = reg regs R_CR /\
    reg regs' R_SR = if n =? 0 then reg regs R_SR else N.lor (reg regs R_SR) (N.lor SR_IDLE SR_IOC_IRQ).
Proof.
  intros Hj. induction fuel as [|fuel IH]; intros regs m sa da n W Hs Hd Hb Us Ud Bs Bd Ho Hf.
  - assert (Hz : n = 0) by lia. rewrite Hz in *. cbn [cdma_run]. rewrite Hb. cbn [N.eqb].
    exists regs, m. split; [reflexivity|]. split.
    { intros x. unfold copied. replace ((da <=? x) && (x <? da + 0)) with false by lia. reflexivity. }
    rewrite !N.add_0_r. auto 10.
  - cbn [cdma_run]. rewrite Hb. destruct (N.eqb_spec n 0) as [Hz|Hz].
    { exists regs, m. split; [reflexivity|]. split.
      { intros x. unfold copied. replace ((da <=? x) && (x <? da + n)) with false by lia. reflexivity. }
      rewrite Hz in *. rewrite !N.add_0_r. auto 10. }
    remember (N.min n 64) as tl eqn:Etl.
    pose proof (block_regs (atomic_memory bad) junk regs m sa da n W Hs Hd Hb) as R.
    pose proof (block_mem bad junk regs m sa da n Hs Hd Hb Hj) as M.
    cbn zeta in R, M. rewrite <- Etl in R, M.
    destruct (cdma_block (atomic_memory bad) junk regs m) as [r1 m1]. cbn [fst snd] in *.
    destruct R as [W1 [S1 [D1 [B1 [C1 SR1]]]]]; [lia|lia|].
    assert (M1 : forall x, m1 x = copied m sa da tl x).
    { apply M; try lia; intros x Hx; [apply Bs|apply Bd]; lia. }
    rewrite (N.mod_small (sa + tl)) in S1 by lia. rewrite (N.mod_small (da + tl)) in D1 by lia.
    destruct (IH r1 m1 (sa + tl) (da + tl) (n - tl)) as [r2 [m2 [E2 [M2 [W2 [B2 [S2 [D2 [C2 SR2]]]]]]]]];
      try assumption; try lia.
    { intros x Hx. apply Bs. lia. }
    { intros x Hx. apply Bd. lia. }
    exists r2, m2. split; [exact E2|]. split.
    { intros x. rewrite M2. unfold copied. rewrite !M1. unfold copied.
      clear - Ho Etl Hz.
      destruct ((da + tl <=? x) && (x <? da + tl + (n - tl))) eqn:E1.
      - replace ((da <=? x) && (x <? da + n)) with true by lia.
        destruct ((da <=? sa + tl + (x - (da + tl))) && (sa + tl + (x - (da + tl)) <? da + tl)) eqn:E2; [|f_equal; lia].
        exfalso. lia.
      - destruct ((da <=? x) && (x <? da + tl)) eqn:E2.
        + replace ((da <=? x) && (x <? da + n)) with true by lia. reflexivity.
        + replace ((da <=? x) && (x <? da + n)) with false by lia. reflexivity. }
    split; [exact W2|]. split; [exact B2|].
    replace (sa + tl + (n - tl)) with (sa + n) in S2 by lia.
    replace (da + tl + (n - tl)) with (da + n) in D2 by lia.
    split; [exact S2|]. split; [exact D2|]. split; [congruence|].
    rewrite SR2, SR1. destruct (N.eqb_spec (n - tl) 0); [reflexivity|].
    reflexivity.
Qed.

(** ** Programming *)
Lemma le_dec_enc4 v : v < u32 -> le_dec (le_enc 4 v) = v.
Proof.
  intros H. unfold le_dec, le_enc. rewrite rev_involutive, be_dec_enc. apply N.mod_small. exact H.
Qed.

Lemma write_plain regs a v : length regs = R_MAX -> v < u32 ->
  let ix := N.to_nat (N.shiftr a 2) in
  (1 < ix < 10)%nat ->
  cdma_transport regs (reg_write a v) = Ok (set_reg regs ix v, (le_enc 4 v, St_OK)).
Proof.
  intros W Hv ix Hi. unfold cdma_transport, reg_write, g_len.
  cbn [g_data g_be g_cmd g_addr]. rewrite le_dec_enc4 by exact Hv. fold ix.
  unfold le_enc at 1. rewrite rev_length, be_enc_length.
  change (negb (N.of_nat 4 =? 4) || false) with false. cbn match.
  destruct (Nat.leb_spec (length regs) ix); [unfold R_MAX in W; lia|].
  unfold R_CR, R_SR, R_BTT.
  destruct (Nat.eqb_spec ix 0); [lia|]. destruct (Nat.eqb_spec ix 1); [lia|].
  destruct (Nat.eqb_spec ix 10); [lia|]. reflexivity.
Qed.

Lemma write_btt regs v : length regs = R_MAX -> v < u32 ->
  cdma_transport regs (reg_write 40 v) =
  Ok (let r := set_reg regs R_BTT v in set_reg r R_SR (N.ldiff (reg r R_SR) SR_IDLE), (le_enc 4 v, St_OK)).
Proof.
  intros W Hv. unfold cdma_transport, reg_write, g_len.
  cbn [g_data g_be g_cmd g_addr]. rewrite le_dec_enc4 by exact Hv.
  unfold le_enc at 1. rewrite rev_length, be_enc_length.
  change (negb (N.of_nat 4 =? 4) || false) with false. cbn match.
  change (N.to_nat (N.shiftr 40 2)) with 10%nat.
  destruct (Nat.leb_spec (length regs) 10); [unfold R_MAX in W; lia|]. reflexivity.
Qed.

Lemma programmed regs sa da n : rwf regs -> sa < u64 -> da < u64 -> n < u32 ->
  exists regs', cdma_writes regs (program sa da n) = Ok regs' /\ rwf regs' /\
    holds regs' R_SA_MSB R_SA sa /\ holds regs' R_DA_MSB R_DA da /\ reg regs' R_BTT = n /\
    reg regs' R_CR = reg regs R_CR /\ reg regs' R_SR = N.ldiff (reg regs R_SR) SR_IDLE.
Proof.
  intros W Hs Hd Hn.
  assert (Hm : forall v, v mod u32 < u32) by (intros v; apply N.mod_lt; discriminate).
  assert (Hq : forall v, v < u64 -> v / u32 < u32)
    by (intros v Hv; apply N.div_lt_upper_bound; [discriminate|exact Hv]).
  unfold program. cbn [cdma_writes].
  assert (Ix : N.to_nat (N.shiftr 24 2) = R_SA /\ N.to_nat (N.shiftr 28 2) = R_SA_MSB /\
    N.to_nat (N.shiftr 32 2) = R_DA /\ N.to_nat (N.shiftr 36 2) = R_DA_MSB) by (repeat split).
  destruct Ix as [I1 [I2 [I3 I4]]].
  rewrite (write_plain regs 24 (sa mod u32)) by (rewrite ?I1; unfold R_SA; solve [apply Hm | exact W | lia]).
  rewrite I1. cbn [rbind]. set (r1 := set_reg regs R_SA _).
  assert (W1 : rwf r1) by (apply len_set; [exact W|unfold R_SA, R_MAX; lia]).
  rewrite (write_plain r1 28 (sa / u32)) by (rewrite ?I2; unfold R_SA_MSB; solve [apply Hq, Hs | exact W1 | lia]).
  rewrite I2. cbn [rbind]. set (r2 := set_reg r1 R_SA_MSB _).
  assert (W2 : rwf r2) by (apply len_set; [exact W1|unfold R_SA_MSB, R_MAX; lia]).
  rewrite (write_plain r2 32 (da mod u32)) by (rewrite ?I3; unfold R_DA; solve [apply Hm | exact W2 | lia]).
  rewrite I3. cbn [rbind]. set (r3 := set_reg r2 R_DA _).
  assert (W3 : rwf r3) by (apply len_set; [exact W2|unfold R_DA, R_MAX; lia]).
  rewrite (write_plain r3 36 (da / u32)) by (rewrite ?I4; unfold R_DA_MSB; solve [apply Hq, Hd | exact W3 | lia]).
  rewrite I4. cbn [rbind]. set (r4 := set_reg r3 R_DA_MSB _).
  assert (W4 : rwf r4) by (apply len_set; [exact W3|unfold R_DA_MSB, R_MAX; lia]).
  rewrite write_btt by (exact W4 || exact Hn). cbn [rbind]. cbn zeta.
  set (r5 := set_reg r4 R_BTT n).
  assert (W5 : rwf r5) by (apply len_set; [exact W4|unfold R_BTT, R_MAX; lia]).
  eexists. split; [reflexivity|].
  split; [apply len_set; [exact W5|unfold R_SR, R_MAX; lia]|].
  unfold holds.
  assert (G : forall j, reg (set_reg r5 R_SR (N.ldiff (reg r5 R_SR) SR_IDLE)) j =
    if (j =? R_SR)%nat then N.ldiff (reg regs R_SR) SR_IDLE else
    if (j =? R_BTT)%nat then n else if (j =? R_DA_MSB)%nat then da / u32 else
    if (j =? R_DA)%nat then da mod u32 else if (j =? R_SA_MSB)%nat then sa / u32 else
    if (j =? R_SA)%nat then sa mod u32 else reg regs j).
  { intros j. rewrite reg_set by (exact W5 || (unfold R_SR, R_MAX; lia)).
    assert (B : forall i, reg r5 i = if (i =? R_BTT)%nat then n else if (i =? R_DA_MSB)%nat then da / u32 else
      if (i =? R_DA)%nat then da mod u32 else if (i =? R_SA_MSB)%nat then sa / u32 else
      if (i =? R_SA)%nat then sa mod u32 else reg regs i).
    { intros i. unfold r5. rewrite reg_set by (exact W4 || (unfold R_BTT, R_MAX; lia)).
      unfold r4. rewrite reg_set by (exact W3 || (unfold R_DA_MSB, R_MAX; lia)).
      unfold r3. rewrite reg_set by (exact W2 || (unfold R_DA, R_MAX; lia)).
      unfold r2. rewrite reg_set by (exact W1 || (unfold R_SA_MSB, R_MAX; lia)).
      unfold r1. rewrite reg_set by (exact W || (unfold R_SA, R_MAX; lia)). reflexivity. }
    rewrite !B. reflexivity. }
  rewrite !G. repeat split.
Qed.
