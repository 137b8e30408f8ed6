(** Lemmas about the MCDMA model. *)
From Verif Require Import Base BaseFacts LeFacts TlmModel TlmSpec TlmFacts RegapiModel RegapiSpec RegapiProofs
  McdmaModel McdmaSpec.
Open Scope N_scope.

Lemma bit_spec v sh : bit v sh = N.testbit v sh.
Proof.
  unfold bit. change 1 with (N.ones 1). rewrite N.land_ones. change (2 ^ 1) with 2.
  rewrite <- N.bit0_mod, N.shiftr_spec by lia. rewrite N.add_0_l. now destruct (N.testbit v sh).
Qed.
Lemma land_pow_bit v c : negb (N.land v (N.shiftl 1 c) =? 0) = N.testbit v c.
Proof.
  rewrite N.shiftl_1_l. destruct (N.testbit v c) eqn:E.
  - destruct (N.eqb_spec (N.land v (2 ^ c)) 0) as [H|H]; [|reflexivity]. exfalso.
    assert (X : N.testbit (N.land v (2 ^ c)) c = true) by (rewrite N.land_spec, E, N.pow2_bits_true; reflexivity).
    rewrite H, N.bits_0 in X. discriminate.
  - destruct (N.eqb_spec (N.land v (2 ^ c)) 0) as [H|H]; [reflexivity|]. exfalso. apply H.
    apply N.bits_inj. intro k. rewrite N.land_spec, N.bits_0, N.pow2_bits_eqb.
    destruct (N.eqb_spec c k) as [<-|]; [now rewrite E|apply andb_false_r].
Qed.

Lemma reg_set regs i v j : (i < length regs)%nat ->
  reg (set_reg regs i v) j = if (j =? i)%nat then v else reg regs j.
Proof. apply set_reg_nth. Qed.
Lemma regs_ok_len regs : regs_ok regs -> length regs = NREGS.
Proof. now intros [H _]. Qed.
Lemma regs_ok_reg regs i : regs_ok regs -> reg regs i < u32.
Proof.
  intros [_ H]. unfold reg. destruct (Nat.lt_ge_cases i (length regs)) as [L|L].
  - rewrite Forall_forall in H. now apply H, nth_In.
  - rewrite nth_overflow by assumption. reflexivity.
Qed.
Lemma regs_ok_set regs i v : regs_ok regs -> (i < NREGS)%nat -> v < u32 -> regs_ok (set_reg regs i v).
Proof.
  intros H Hi Hv. pose proof (regs_ok_len _ H) as L. split.
  - rewrite set_reg_length by (rewrite L; exact Hi). exact L.
  - destruct H as [_ H]. unfold set_reg. apply Forall_app. split.
    + apply Forall_forall. intros x Hx. rewrite Forall_forall in H. apply H. rewrite <- (firstn_skipn i regs). apply in_or_app. now left.
    + constructor; [exact Hv|]. apply Forall_forall. intros x Hx. rewrite Forall_forall in H. apply H.
      rewrite <- (firstn_skipn (S i) regs). apply in_or_app. now right.
Qed.

Lemma lor_add a b n : b < 2 ^ n -> N.lor (N.shiftl a n) b = b + 2 ^ n * a.
Proof.
  intros H. rewrite N.shiftl_mul_pow2, N.mul_comm.
  rewrite N.lor_comm. rewrite N.lor_comm. symmetry. rewrite N.add_comm.
  rewrite N.add_nocarry_lxor.
  - rewrite N.lxor_lor; [reflexivity|]. apply N.bits_inj. intro k. rewrite N.land_spec, N.bits_0.
    destruct (N.lt_ge_cases k n) as [L|L].
    + rewrite N.mul_comm, N.mul_pow2_bits_low by assumption. reflexivity.
    + rewrite (small_bits b n k H L). apply andb_false_r.
  - apply N.bits_inj. intro k. rewrite N.land_spec, N.bits_0.
    destruct (N.lt_ge_cases k n) as [L|L].
    + rewrite N.mul_comm, N.mul_pow2_bits_low by assumption. reflexivity.
    + rewrite (small_bits b n k H L). apply andb_false_r.
Qed.
Lemma reg64_spec regs msb lsb : regs_ok regs ->
  reg64 regs msb lsb = reg regs lsb + u32 * reg regs msb.
Proof.
  intros H. unfold reg64. pose proof (regs_ok_reg regs msb H) as A. pose proof (regs_ok_reg regs lsb H) as B.
  rewrite N.mod_small; [|rewrite N.shiftl_mul_pow2; unfold u32, u64 in *; change (2 ^ 32) with 4294967296; clear - A; lia].
  apply (lor_add (reg regs msb) (reg regs lsb) 32 B).
Qed.

(** Memory accesses *)
Lemma bytes_at_length m a n : length (bytes_at m a n) = n.
Proof. unfold bytes_at. now rewrite map_length, seq_length. Qed.
Lemma bytes_at_nth m a n i : (i < n)%nat -> nth i (bytes_at m a n) 0 = m (a + N.of_nat i).
Proof.
  intros H. unfold bytes_at. rewrite (nth_indep _ 0 (m (a + N.of_nat 0))) by (rewrite map_length, seq_length; exact H).
  rewrite (map_nth (fun i => m (a + N.of_nat i))), seq_nth by exact H. reflexivity.
Qed.
Lemma bytes_at_ext m m' a n : (forall x, within a (N.of_nat n) x -> m' x = m x) -> bytes_at m' a n = bytes_at m a n.
Proof.
  intros H. unfold bytes_at. apply map_ext_in. intros i Hi. apply in_seq in Hi. apply H. unfold within. lia.
Qed.
Lemma bytes_at_ok m a n : mem_ok m -> bytes_ok (bytes_at m a n).
Proof. intros H. unfold bytes_at. apply Forall_map, Forall_forall. intros i _. apply H. Qed.
Lemma bytes_at_app m a n k : bytes_at m a (n + k) = bytes_at m a n ++ bytes_at m (a + N.of_nat n) k.
Proof.
  unfold bytes_at. rewrite seq_app, map_app. f_equal. rewrite <- (map_seq_shift (fun i => m (a + N.of_nat n + N.of_nat i))).
  - reflexivity.
  - intros i _. f_equal. lia.
Qed.
Lemma bytes_at_slice m a n off k : (off + k <= n)%nat ->
  slice off k (bytes_at m a n) = bytes_at m (a + N.of_nat off) k.
Proof.
  intros H. replace n with (off + (k + (n - off - k)))%nat by lia. rewrite bytes_at_app, bytes_at_app.
  unfold slice. rewrite skipn_app_len by apply bytes_at_length. apply firstn_app_len, bytes_at_length.
Qed.
Lemma le_dec_cons b l : le_dec (b :: l) = b + 256 * le_dec l.
Proof.
  unfold le_dec. cbn [rev]. unfold be_dec. rewrite be_dec_acc_app. cbn [be_dec_acc]. lia.
Qed.
Lemma le_at_dec m k : forall a, le_dec (bytes_at m a k) = le_at m a k.
Proof.
  induction k as [|k IH]; intro a; [reflexivity|].
  change (S k) with (1 + k)%nat. rewrite bytes_at_app. cbn [bytes_at seq map app].
  rewrite le_dec_cons, IH. cbn [le_at Nat.add]. rewrite N.add_0_r. reflexivity.
Qed.
Lemma le_at_ext m m' k : forall a, (forall x, within a (N.of_nat k) x -> m' x = m x) -> le_at m' a k = le_at m a k.
Proof.
  intros a H. rewrite <- !le_at_dec. f_equal. now apply bytes_at_ext.
Qed.
Lemma le_at_bound m a k : mem_ok m -> le_at m a k < 256 ^ N.of_nat k.
Proof.
  intros H. rewrite <- le_at_dec. rewrite <- (bytes_at_length m a k) at 2. apply le_dec_bound, bytes_at_ok, H.
Qed.
Lemma fld_at m a n off k : (off + k <= n)%nat -> le_fld off k (bytes_at m a n) = le_at m (a + N.of_nat off) k.
Proof. intros H. unfold le_fld. rewrite bytes_at_slice by exact H. apply le_at_dec. Qed.

Lemma dma_read bad m buf a : a + N.of_nat (length buf) <= u64 ->
  (forall x, within a (N.of_nat (length buf)) x -> bad x = false) ->
  dma_access bad C_READ m buf a = (m, (bytes_at m a (length buf), St_OK)).
Proof.
  intros Hu Hb. unfold dma_access.
  set (g := mkGp C_READ a buf None (N.of_nat (length buf)) St_INCOMPLETE).
  assert (P : plain_at g (N.of_nat (length buf))) by (refine (conj eq_refl (conj eq_refl (conj eq_refl Hu)))).
  rewrite atomic_whole by (apply (plain_bad g _ bad P); exact Hb). cbn [g_cmd g writes reads].
  fold g. rewrite (plain_reads g _ m P). reflexivity.
Qed.
Lemma dma_write bad m d a : a + N.of_nat (length d) <= u64 ->
  (forall x, within a (N.of_nat (length d)) x -> bad x = false) ->
  forall x, store bad m d a x =
    if (a <=? x) && (x <? a + N.of_nat (length d)) then nth (N.to_nat (x - a)) d 0 else m x.
Proof.
  intros Hu Hb x. unfold store, dma_access.
  set (g := mkGp C_WRITE a d None (N.of_nat (length d)) St_INCOMPLETE).
  assert (P : plain_at g (N.of_nat (length d))) by (refine (conj eq_refl (conj eq_refl (conj eq_refl Hu)))).
  rewrite atomic_whole by (apply (plain_bad g _ bad P); exact Hb). cbn [g_cmd g writes fst].
  fold g. rewrite (plain_writes g _ m x P). reflexivity.
Qed.
Lemma load_desc_ok bad m a : a + d_size <= u64 -> (forall x, within a d_size x -> bad x = false) ->
  load_desc bad m a = Ok (bytes_at m a BD_SIZE).
Proof.
  intros Hu Hb. unfold load_desc. rewrite dma_read; rewrite ?repeat_length; [reflexivity|exact Hu|exact Hb].
Qed.

Lemma mask26 v : N.land v (mask64 0 26) = v mod 2 ^ 26.
Proof. change (mask64 0 26) with (N.ones 26). apply N.land_ones. Qed.
Lemma bd_len_at m a : bd_len (bytes_at m a BD_SIZE) = N.to_nat (d_len m a).
Proof. unfold bd_len. rewrite mask26. unfold bd_ctrl. rewrite fld_at by (cbv; lia). reflexivity. Qed.
Lemma bd_next_at m a : bd_next (bytes_at m a BD_SIZE) = d_next m a.
Proof. unfold bd_next. rewrite fld_at by (cbv; lia). rewrite N.add_0_r. reflexivity. Qed.
Lemma bd_buffer_at m a : bd_buffer (bytes_at m a BD_SIZE) = d_buffer m a.
Proof. unfold bd_buffer. rewrite fld_at by (cbv; lia). reflexivity. Qed.
Lemma bd_eop_at m a : bd_eop (bytes_at m a BD_SIZE) = d_eop m a.
Proof. unfold bd_eop. rewrite bit_spec. unfold bd_ctrl. rewrite fld_at by (cbv; lia). reflexivity. Qed.
Lemma tx_status_at m a : bd_status MM2S_STATUS (bytes_at m a BD_SIZE) = tx_status m a.
Proof. unfold bd_status. rewrite fld_at by (cbv; lia). reflexivity. Qed.
Lemma rx_status_at m a : bd_status S2MM_STATUS (bytes_at m a BD_SIZE) = rx_status m a.
Proof. unfold bd_status. rewrite fld_at by (cbv; lia). reflexivity. Qed.

(** Registers *)
Lemma set_idle_spec regs sr sh b : regs_ok regs -> (sr < NREGS)%nat -> sh < 32 ->
  let regs' := set_idle sr sh b regs in
  regs_ok regs' /\ (forall j, j <> sr -> reg regs' j = reg regs j) /\
  forall k, N.testbit (reg regs' sr) k = if k =? sh then b else N.testbit (reg regs sr) k.
Proof.
  intros H Hs Hh. cbn zeta. unfold set_idle. pose proof (regs_ok_len _ H) as L.
  set (v := N.lor _ _).
  assert (Hv : forall k, N.testbit v k = if k =? sh then b else N.testbit (reg regs sr) k).
  { intro k. unfold v. rewrite N.lor_spec, N.ldiff_spec.
    replace (N.testbit (N.shiftl 1 sh) k) with (sh =? k) by (now rewrite N.shiftl_1_l, N.pow2_bits_eqb).
    replace (N.testbit (N.shiftl (if b then 1 else 0) sh) k) with (b && (sh =? k)).
    2:{ destruct b; [now rewrite N.shiftl_1_l, N.pow2_bits_eqb|rewrite N.shiftl_0_l, N.bits_0; reflexivity]. }
    rewrite (N.eqb_sym k sh). destruct (sh =? k), b, (N.testbit (reg regs sr) k); reflexivity. }
  assert (Hb : v < u32).
  { change u32 with (2 ^ 32). destruct (N.eq_dec v 0) as [->|Z]; [reflexivity|]. apply N.log2_lt_pow2; [lia|].
    destruct (N.lt_ge_cases (N.log2 v) 32) as [|G]; [assumption|exfalso].
    pose proof (N.bit_log2 v Z) as B. rewrite Hv in B. destruct (N.eqb_spec (N.log2 v) sh); [lia|].
    rewrite (small_bits (reg regs sr) 32) in B; [discriminate|exact (regs_ok_reg _ _ H)|exact G]. }
  refine (conj _ (conj _ _)).
  - now apply regs_ok_set.
  - intros j Hj. rewrite reg_set by lia. destruct (Nat.eqb_spec j sr); [contradiction|reflexivity].
  - intro k. rewrite reg_set by lia. rewrite Nat.eqb_refl. apply Hv.
Qed.

Lemma small_of_bits v : (forall k, 32 <= k -> N.testbit v k = false) -> v < u32.
Proof.
  intros H. change u32 with (2 ^ 32). destruct (N.eq_dec v 0) as [->|Z]; [reflexivity|]. apply N.log2_lt_pow2; [lia|].
  destruct (N.lt_ge_cases (N.log2 v) 32) as [|G]; [assumption|exfalso].
  pose proof (N.bit_log2 v Z) as B. rewrite (H _ G) in B. discriminate.
Qed.

Lemma finish_spec regs cr sr lsb msb sh t next : regs_ok regs -> sh < 16 ->
  (cr < NREGS)%nat -> (sr < NREGS)%nat -> (lsb < NREGS)%nat -> (msb < NREGS)%nat ->
  NoDup [cr; sr; lsb; msb] ->
  exists regs', finish cr sr lsb msb sh t next regs = Ok regs' /\ regs_ok regs' /\
    (forall j, j <> sr -> j <> lsb -> j <> msb -> reg regs' j = reg regs j) /\
    (next < u64 -> reg regs' lsb + u32 * reg regs' msb = next) /\
    (forall k, k < 16 -> N.testbit (reg regs' sr) k =
                 (k =? 5) || ((k =? sh) && t) || N.testbit (reg regs sr) k).
Proof.
  intros H Hsh Hcr Hsr Hl Hm ND.
  assert (D : sr <> lsb /\ sr <> msb /\ lsb <> msb /\ cr <> sr /\ cr <> lsb /\ cr <> msb).
  { inversion ND as [|? ? N1 ND1]; subst. inversion ND1 as [|? ? N2 ND2]; subst. inversion ND2 as [|? ? N3 ND3]; subst.
    cbn in N1, N2, N3. repeat split; intro E; subst; tauto. }
  destruct D as [D1 [D2 [D3 [D4 [D5 D6]]]]].
  unfold finish.
  set (r1 := if t then set_idle sr sh true regs else regs).
  assert (R1 : regs_ok r1 /\ (forall j, j <> sr -> reg r1 j = reg regs j) /\
               forall k, N.testbit (reg r1 sr) k = ((k =? sh) && t) || N.testbit (reg regs sr) k).
  { unfold r1. destruct t.
    - destruct (set_idle_spec regs sr sh true H Hsr) as [A [B C]]; [lia|]. refine (conj A (conj B _)).
      intro k. rewrite C. destruct (k =? sh); reflexivity.
    - refine (conj H (conj (fun _ _ => eq_refl) _)). intro k. rewrite andb_false_r. reflexivity. }
  destruct R1 as [O1 [S1 B1]]. pose proof (regs_ok_len _ O1) as L1.
  set (r2 := set_reg r1 lsb (next mod u32)).
  assert (O2 : regs_ok r2) by (apply regs_ok_set; [exact O1|exact Hl|apply N.mod_lt; discriminate]).
  pose proof (regs_ok_len _ O2) as L2.
  set (r3 := set_reg r2 msb (N.shiftr next 32 mod u32)).
  assert (O3 : regs_ok r3) by (apply regs_ok_set; [exact O2|exact Hm|apply N.mod_lt; discriminate]).
  pose proof (regs_ok_len _ O3) as L3.
  assert (E3 : forall j, j <> lsb -> j <> msb -> reg r3 j = reg r1 j).
  { intros j A B. unfold r3. rewrite reg_set by lia. destruct (Nat.eqb_spec j msb); [contradiction|].
    unfold r2. rewrite reg_set by lia. destruct (Nat.eqb_spec j lsb); [contradiction|reflexivity]. }
  set (v4 := N.lor (reg r3 sr) IOC_IRQ).
  assert (V4 : forall k, N.testbit v4 k = (k =? 5) || ((k =? sh) && t) || N.testbit (reg regs sr) k).
  { intro k. unfold v4. rewrite N.lor_spec, E3, B1 by congruence. change IOC_IRQ with (2 ^ 5). rewrite N.pow2_bits_eqb, (N.eqb_sym 5 k).
    destruct (k =? 5), ((k =? sh) && t), (N.testbit (reg regs sr) k); reflexivity. }
  assert (V4b : v4 < u32).
  { apply small_of_bits. intros k Hk. rewrite V4. destruct (N.eqb_spec k 5); [lia|]. destruct (N.eqb_spec k sh); [lia|].
    cbn [orb andb]. apply (small_bits _ 32); [exact (regs_ok_reg _ _ H)|exact Hk]. }
  set (r4 := set_reg r3 sr v4).
  assert (O4 : regs_ok r4) by (apply regs_ok_set; [exact O3|exact Hsr|exact V4b]).
  pose proof (regs_ok_len _ O4) as L4.
  assert (E4 : reg r4 sr = v4) by (unfold r4; rewrite reg_set by lia; now rewrite Nat.eqb_refl).
  rewrite E4. set (tmp := N.land _ 255).
  assert (T : tmp < 2 ^ 8).
  { unfold tmp. change 255 with (N.ones 8). rewrite N.land_ones. apply N.mod_lt. discriminate. }
  destruct (reg_deposit 32 v4 16 8 tmp) as [r| | |] eqn:ED; try discriminate.
  pose proof (deposit_bits 32 v4 16 8 tmp r ltac:(lia) V4b ltac:(lia) T ED) as BD.
  assert (Rb : r < u32).
  { apply small_of_bits. intros k Hk. rewrite BD. unfold in_range. destruct (N.ltb_spec k (16 + 8)); [lia|].
    rewrite andb_false_r. apply (small_bits _ 32); [exact V4b|exact Hk]. }
  exists (set_reg r4 sr r). refine (conj eq_refl (conj _ (conj _ (conj _ _)))).
  - now apply regs_ok_set.
  - intros j A B C. rewrite reg_set by lia. destruct (Nat.eqb_spec j sr); [contradiction|].
    unfold r4. rewrite reg_set by lia. destruct (Nat.eqb_spec j sr); [contradiction|]. rewrite E3, S1 by assumption. reflexivity.
  - intro Hn. rewrite !reg_set by lia. destruct (Nat.eqb_spec lsb sr); [congruence|]. destruct (Nat.eqb_spec msb sr); [congruence|].
    unfold r4. rewrite !reg_set by lia. destruct (Nat.eqb_spec lsb sr); [congruence|]. destruct (Nat.eqb_spec msb sr); [congruence|].
    unfold r3. rewrite !reg_set by lia. rewrite Nat.eqb_refl. destruct (Nat.eqb_spec lsb msb); [congruence|].
    unfold r2. rewrite !reg_set by lia. rewrite Nat.eqb_refl. rewrite N.shiftr_div_pow2. change (2 ^ 32) with u32.
    rewrite (N.mod_small (next / u32)) by (apply N.div_lt_upper_bound; [discriminate|exact Hn]).
    pose proof (N.div_mod next u32 ltac:(discriminate)). lia.
  - intros k Hk. rewrite reg_set by lia. rewrite Nat.eqb_refl, BD. unfold in_range.
    destruct (N.leb_spec 16 k); [lia|]. cbn [andb]. apply V4.
Qed.
