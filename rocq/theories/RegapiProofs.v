From Verif Require Import Base BaseFacts TlmModel TlmSpec RegapiModel RegapiSpec.
Open Scope N_scope.

Lemma set_reg_length regs i v : (i < length regs)%nat -> length (set_reg regs i v) = length regs.
Proof. intros H. unfold set_reg. rewrite app_length, firstn_length. cbn [length]. rewrite skipn_length. lia. Qed.

Lemma set_reg_nth regs i v j : (i < length regs)%nat ->
  nth j (set_reg regs i v) 0 = if (j =? i)%nat then v else nth j regs 0.
Proof.
  intros H. unfold set_reg.
  destruct (Nat.eqb_spec j i) as [->|Hj].
  - rewrite app_nth2; rewrite firstn_length; [|lia].
    replace (i - Nat.min i (length regs))%nat with 0%nat by lia. reflexivity.
  - rewrite <- (firstn_skipn i regs) at 3.
    destruct (Nat.lt_ge_cases j i).
    + rewrite !app_nth1 by (rewrite firstn_length; lia). reflexivity.
    + rewrite !app_nth2 by (rewrite firstn_length; lia). rewrite firstn_length.
      replace (j - Nat.min i (length regs))%nat with (S (j - i - 1)) by lia.
      change (nth (S (j - i - 1)) (v :: skipn (S i) regs) 0) with (nth (j - i - 1) (skipn (S i) regs) 0).
      replace (S i) with (i + 1)%nat by lia. rewrite <- skipn_add.
      destruct (skipn i regs) as [|x l] eqn:E; [destruct (j - i - 1)%nat; reflexivity|]. reflexivity.
Qed.

Lemma find_info_Some info a i : find_info info a = Some i -> In i info /\ ri_addr i = a.
Proof.
  induction info as [|x info IH]; intros H; [discriminate|]. cbn in H.
  destruct (N.eqb_spec a (ri_addr x)) as [->|].
  - injection H as <-. split; [left; reflexivity|reflexivity].
  - destruct (IH H). split; [right; assumption|assumption].
Qed.

Lemma find_info_In info i : NoDup (map ri_addr info) -> In i info -> find_info info (ri_addr i) = Some i.
Proof.
  induction info as [|x info IH]; intros Hn Hi; [destruct Hi|]. cbn. cbn in Hn.
  inversion Hn as [|? ? Hx Hn']; subst. destruct Hi as [->|Hi].
  - rewrite N.eqb_refl. reflexivity.
  - destruct (N.eqb_spec (ri_addr i) (ri_addr x)) as [E|_].
    + exfalso. apply Hx. rewrite <- E. apply in_map, Hi.
    + apply IH; assumption.
Qed.

Lemma div_inj sz a b : 0 < sz -> a mod sz = 0 -> b mod sz = 0 -> a / sz = b / sz -> a = b.
Proof.
  intros H Ha Hb E. rewrite (N.div_mod a sz), (N.div_mod b sz), Ha, Hb, E by lia. reflexivity.
Qed.

Definition reg_new (i : rinfo) (is_read : bool) (old val : N) : N :=
  if is_read then N.ldiff old (ri_cor i)
  else N.ldiff (if negb (ri_ro i =? 0)
                then N.lor (N.land old (ri_ro i)) (N.ldiff val (ri_ro i)) else val) (ri_w1c i).

Lemma reg_new_read i old val k :
  N.testbit (reg_new i true old val) k = N.testbit old k && negb (N.testbit (ri_cor i) k).
Proof. apply N.ldiff_spec. Qed.

Lemma reg_new_write i old val k :
  N.testbit (reg_new i false old val) k =
  (if N.testbit (ri_ro i) k then N.testbit old k else N.testbit val k) && negb (N.testbit (ri_w1c i) k).
Proof.
  unfold reg_new. rewrite N.ldiff_spec. f_equal.
  destruct (N.eqb_spec (ri_ro i) 0) as [E|_]; cbn [negb].
  - rewrite E, N.bits_0. reflexivity.
  - rewrite N.lor_spec, N.land_spec, N.ldiff_spec.
    destruct (N.testbit (ri_ro i) k), (N.testbit old k), (N.testbit val k); reflexivity.
Qed.

Lemma reg_access_spec sz info regs a rd val :
  described sz (length regs) info ->
  reg_access sz info regs a rd val =
  match find_info info a with
  | None => Ok (regs, St_ADDRESS, 0)
  | Some i => let ix := N.to_nat (a / sz) in
              let new := reg_new i rd (nth ix regs 0) val in
              Ok (set_reg regs ix new, St_OK, new)
  end.
Proof.
  intros [Hs [Hl [Hn Hf]]]. unfold reg_access. rewrite firstn_all2 by exact Hl.
  destruct (find_info info a) as [i|] eqn:E; [|reflexivity].
  apply find_info_Some in E. destruct E as [Hi <-].
  rewrite Forall_forall in Hf. destruct (Hf _ Hi) as [_ Hx].
  destruct (Nat.leb_spec (length regs) (N.to_nat (ri_addr i / sz))); [lia|]. reflexivity.
Qed.

(** One transaction: effect on the register at address [ri_addr i]. *)
Lemma transport_effect sz info regs g i :
  described sz (length regs) info -> In i info -> g_cmd g <> C_IGNORE ->
  exists regs' r, reg_transport sz info regs g = Ok (regs', r) /\ length regs' = length regs /\
    nth (N.to_nat (ri_addr i / sz)) regs' 0 =
      let old := nth (N.to_nat (ri_addr i / sz)) regs 0 in
      if (g_addr g =? ri_addr i) && (g_len g =? sz)
      then reg_new i (match g_cmd g with C_READ => true | _ => false end) old (le_dec (g_data g))
      else old.
Proof.
  intros Hd Hi Hc. unfold reg_transport. rewrite (N.eqb_sym sz).
  destruct (N.eqb_spec (g_len g) sz) as [Hz|Hz]; cbn [negb].
  2:{ rewrite andb_false_r. eauto. }
  rewrite andb_true_r. rewrite reg_access_spec by exact Hd.
  destruct Hd as [Hs [Hl [Hn Hf]]]. rewrite Forall_forall in Hf.
  destruct (find_info info (g_addr g)) as [i'|] eqn:E.
  - apply find_info_Some in E. destruct E as [Hi' E']. cbn zeta.
    destruct (Hf _ Hi') as [Hm' Hx']. destruct (Hf _ Hi) as [Hm Hx]. rewrite E' in *.
    cbn [rbind].
    eexists _, _. split; [reflexivity|].
    split; [apply set_reg_length; lia|].
    rewrite set_reg_nth by lia.
    destruct (N.eqb_spec (g_addr g) (ri_addr i)) as [Ea|Ea].
    + rewrite Ea. rewrite Nat.eqb_refl.
      assert (i' = i) as ->.
      { pose proof (find_info_In info i' Hn Hi') as F'. pose proof (find_info_In info i Hn Hi) as F.
        rewrite E', Ea in F'. congruence. }
      destruct (g_cmd g); [reflexivity|reflexivity|congruence].
    + destruct (Nat.eqb_spec (N.to_nat (ri_addr i / sz)) (N.to_nat (g_addr g / sz))) as [Ed|_]; [|reflexivity].
      exfalso. apply Ea. symmetry. apply (div_inj sz); [exact Hs|exact Hm|exact Hm'|lia].
  - cbn [rbind]. eexists _, _. split; [reflexivity|]. split; [reflexivity|].
    destruct (N.eqb_spec (g_addr g) (ri_addr i)) as [Ea|_]; [|reflexivity].
    rewrite Ea, find_info_In in E by assumption. discriminate.
Qed.

Lemma run_bits sz info i k : forall ops regs,
  described sz (length regs) info -> In i info -> only_reads_and_writes ops ->
  N.testbit (ri_cor i) k = false -> N.testbit (ri_w1c i) k = false ->
  exists regs' rs, reg_run sz info regs ops = Ok (regs', rs) /\ length regs' = length regs /\
    bit_of sz regs' (ri_addr i) k =
      if N.testbit (ri_ro i) k then bit_of sz regs (ri_addr i) k
      else last_written sz (ri_addr i) k (bit_of sz regs (ri_addr i) k) ops.
Proof.
  induction ops as [|g ops IH]; intros regs Hd Hi Ho Hc Hw.
  - cbn. destruct (N.testbit (ri_ro i) k); eauto.
  - inversion Ho as [|? ? Hg Ho']; subst.
    destruct (transport_effect sz info regs g i Hd Hi Hg) as [r1 [a1 [E1 [L1 N1]]]].
    destruct (IH r1) as [r2 [a2 [E2 [L2 N2]]]]; auto; [rewrite L1; exact Hd|].
    cbn [reg_run]. rewrite E1. cbn [rbind]. rewrite E2. cbn [rbind].
    eexists _, _. split; [reflexivity|]. split; [congruence|]. rewrite N2.
    assert (Hb : bit_of sz r1 (ri_addr i) k =
      if is_write_to sz (ri_addr i) g && negb (N.testbit (ri_ro i) k)
      then N.testbit (le_dec (g_data g)) k else bit_of sz regs (ri_addr i) k).
    { unfold bit_of. rewrite N1. cbn zeta. unfold is_write_to.
      destruct ((g_addr g =? ri_addr i) && (g_len g =? sz)).
      - destruct (g_cmd g); [| |congruence].
        + rewrite reg_new_read, Hc. cbn [andb negb]. apply andb_true_r.
        + rewrite reg_new_write, Hw. cbn [andb negb]. rewrite andb_true_r.
          destruct (N.testbit (ri_ro i) k); reflexivity.
      - destruct (g_cmd g); reflexivity. }
    rewrite Hb. cbn [last_written].
    destruct (N.testbit (ri_ro i) k); cbn [negb]; [rewrite andb_false_r; reflexivity|].
    rewrite andb_true_r. reflexivity.
Qed.

(** ** Reset *)
Lemma reset_list_spec sz info : forall todo done regs,
  described sz (length regs) info -> info = done ++ todo ->
  exists regs', reset_list sz todo regs = Ok regs' /\ length regs' = length regs /\
    (forall i, In i todo -> nth (N.to_nat (ri_addr i / sz)) regs' 0 = ri_reset i) /\
    (forall a, ~ (exists i, In i todo /\ N.to_nat (ri_addr i / sz) = a) -> nth a regs' 0 = nth a regs 0).
Proof.
  induction todo as [|i todo IH]; intros done regs Hd E.
  - exists regs. split; [reflexivity|]. split; [reflexivity|]. split; [intros i []|]. reflexivity.
  - cbn [reset_list]. unfold reg_reset.
    pose proof Hd as [Hs [Hl [Hn Hf]]]. rewrite Forall_forall in Hf.
    assert (Hi : In i info) by (rewrite E; apply in_elt).
    destruct (Hf _ Hi) as [Hm Hx].
    destruct (Nat.leb_spec (length regs) (N.to_nat (ri_addr i / sz))); [lia|]. cbn [rbind].
    set (r1 := set_reg regs (N.to_nat (ri_addr i / sz)) (ri_reset i)).
    assert (L1 : length r1 = length regs) by (apply set_reg_length; lia).
    destruct (IH (done ++ [i]) r1) as [r2 [E2 [L2 [R2 K2]]]].
    { rewrite L1. exact Hd. }
    { rewrite <- app_assoc. exact E. }
    exists r2. split; [exact E2|]. split; [congruence|]. split.
    + intros j [<-|Hj]; [|apply R2, Hj].
      rewrite K2; [unfold r1; rewrite set_reg_nth, Nat.eqb_refl by lia; reflexivity|].
      intros [j [Hj Ej]].
      assert (Hj' : In j info) by (rewrite E; apply in_or_app; right; right; exact Hj).
      assert (ri_addr j = ri_addr i).
      { apply (div_inj sz); [exact Hs|apply (Hf _ Hj')|exact Hm|lia]. }
      rewrite E, map_app in Hn. cbn [map] in Hn. apply NoDup_remove_2 in Hn.
      apply Hn, in_or_app. right. rewrite <- H0. apply in_map, Hj.
    + intros a Ha. rewrite K2 by (intros [j [Hj Ej]]; apply Ha; exists j; split; [right; exact Hj|exact Ej]).
      unfold r1. rewrite set_reg_nth by lia.
      destruct (Nat.eqb_spec a (N.to_nat (ri_addr i / sz))) as [->|_]; [|reflexivity].
      exfalso. apply Ha. exists i. split; [left; reflexivity|reflexivity].
Qed.

(** ** Masks *)
Lemma ones_shift n : N.shiftl 1 n - 1 = N.ones n.
Proof. rewrite N.shiftl_1_l, N.ones_equiv. lia. Qed.

Lemma ones_bit n k : N.testbit (N.ones n) k = (k <? n).
Proof.
  destruct (N.ltb_spec k n); [apply N.ones_spec_low|apply N.ones_spec_high]; assumption.
Qed.

Lemma mod_pow2_bit v w k : N.testbit (v mod 2 ^ w) k = N.testbit v k && (k <? w).
Proof. rewrite <- N.land_ones, N.land_spec, ones_bit. reflexivity. Qed.

Lemma mask32_spec n : n <= 32 -> mask32 n = Ok (N.ones n).
Proof.
  intros H. unfold mask32. destruct (N.ltb_spec 32 n); [lia|].
  destruct (N.eqb_spec n 32) as [->|Hn]; [reflexivity|].
  destruct (N.leb_spec 32 n); [lia|].
  rewrite ones_shift. f_equal. apply N.mod_small.
  rewrite N.ones_equiv. assert (2 ^ n <= 2 ^ 32) by (apply N.pow_le_mono_r; lia).
  change u32 with (2 ^ 32). assert (0 < 2 ^ n) by (apply N.neq_0_lt_0, N.pow_nonzero; lia). lia.
Qed.

Lemma mask64_bit s l k : N.testbit (mask64 s l) k = in_range s l k && (k <? 64).
Proof.
  unfold mask64, in_range.
  destruct (N.leb_spec 64 s); cbn [orb].
  { rewrite N.bits_0. lia. }
  destruct (N.eqb_spec l 0) as [->|Hl].
  { rewrite N.bits_0. lia. }
  assert (Hv : forall j, N.testbit (if l <? 64 then N.shiftr (u64 - 1) (64 - l) else u64 - 1) j
                         = (j <? 64) && (j <? l)).
  { intros j. change (u64 - 1) with (N.ones 64).
    destruct (N.ltb_spec l 64).
    - rewrite N.shiftr_spec', ones_bit. lia.
    - rewrite ones_bit. lia. }
  cbn zeta. revert Hv. generalize (if l <? 64 then N.shiftr (u64 - 1) (64 - l) else u64 - 1).
  intros v Hv. change u64 with (2 ^ 64). rewrite mod_pow2_bit.
  destruct (N.leb_spec s k).
  - rewrite N.shiftl_spec_high' by assumption. rewrite Hv. lia.
  - rewrite N.shiftl_spec_low by assumption. reflexivity.
Qed.

Lemma small_bits v n k : v < 2 ^ n -> n <= k -> N.testbit v k = false.
Proof.
  intros Hv Hk. destruct (N.eq_dec v 0) as [->|]; [apply N.bits_0|].
  apply N.bits_above_log2. apply N.log2_lt_pow2; [lia|].
  eapply N.lt_le_trans; [exact Hv|]. apply N.pow_le_mono_r; lia.
Qed.

Lemma deposit_bits w dst s l v r : w <= 64 -> dst < 2 ^ w -> s + l <= w -> v < 2 ^ l ->
  reg_deposit w dst s l v = Ok r ->
  forall k, N.testbit r k = if in_range s l k then N.testbit v (k - s) else N.testbit dst k.
Proof.
  intros Hw Hd Hs Hv E k. unfold reg_deposit in E.
  destruct (N.leb_spec w s); [discriminate|]. injection E as <-.
  rewrite N.lor_spec, N.ldiff_spec, mask64_bit, mod_pow2_bit. unfold in_range.
  destruct (N.leb_spec s k).
  - rewrite N.shiftl_spec_high' by assumption.
    destruct (N.ltb_spec k (s + l)); cbn [andb].
    + destruct (N.ltb_spec k 64); [|lia]. destruct (N.ltb_spec k w); [|lia].
      cbn [negb]. rewrite andb_false_r, andb_true_r. reflexivity.
    + rewrite (small_bits v l (k - s)) by (assumption || lia).
      cbn [andb negb]. rewrite andb_true_r, orb_false_r. reflexivity.
  - rewrite N.shiftl_spec_low by assumption. cbn [andb negb].
    rewrite andb_true_r, orb_false_r. reflexivity.
Qed.

Lemma field_ex_bits v s l r : field_ex v s l = Ok r ->
  forall k, N.testbit r k = N.testbit v (k + s) && (k <? l).
Proof.
  intros E k. unfold field_ex in E. destruct ((64 <=? s) || (64 <=? l)); [discriminate|].
  apply Ok_inj in E. subst r. rewrite ones_shift, N.land_spec, N.shiftr_spec', ones_bit. reflexivity.
Qed.

(** ** Buffers and bit vectors *)
Lemma set_byte_bit v i b k : b < 256 ->
  N.testbit (set_byte v i b) k =
  if (N.to_nat (k / 8) =? i)%nat then N.testbit b (k mod 8) else N.testbit v k.
Proof.
  intros Hb. unfold set_byte. rewrite N.lor_spec, N.ldiff_spec.
  change 255 with (N.ones 8).
  pose proof (N.div_mod k 8). pose proof (N.mod_lt k 8).
  destruct (Nat.eqb_spec (N.to_nat (k / 8)) i) as [E|E].
  - rewrite !N.shiftl_spec_high' by lia. rewrite ones_bit.
    destruct (N.ltb_spec (k - 8 * N.of_nat i) 8); [|lia]. cbn [negb].
    rewrite andb_false_r. cbn [orb]. f_equal. lia.
  - destruct (N.lt_ge_cases k (8 * N.of_nat i)).
    + rewrite !N.shiftl_spec_low by assumption. cbn [negb]. rewrite andb_true_r, orb_false_r. reflexivity.
    + rewrite !N.shiftl_spec_high' by assumption. rewrite ones_bit.
      destruct (N.ltb_spec (k - 8 * N.of_nat i) 8); [lia|].
      rewrite (small_bits b 8 (k - 8 * N.of_nat i)) by (exact Hb || assumption).
      cbn [negb]. rewrite andb_true_r, orb_false_r. reflexivity.
Qed.

Lemma set_bytes_bit buf : bytes_ok buf -> forall n v k, (n <= length buf)%nat ->
  N.testbit (fold_left (fun v i => set_byte v i (nth i buf 0)) (seq 0 n) v) k =
  if (N.to_nat (k / 8) <? n)%nat then N.testbit (nth (N.to_nat (k / 8)) buf 0) (k mod 8)
  else N.testbit v k.
Proof.
  intros Hb n v k. induction n as [|n IH]; intros Hn; [reflexivity|].
  rewrite seq_S, fold_left_app. cbn [fold_left Nat.add]. rewrite set_byte_bit.
  2:{ apply (proj1 (Forall_forall _ _) Hb), nth_In. lia. }
  destruct (Nat.eqb_spec (N.to_nat (k / 8)) n) as [E|E].
  - rewrite E. destruct (Nat.ltb_spec n (S n)); [reflexivity|lia].
  - rewrite IH by lia. destruct (Nat.ltb_spec (N.to_nat (k / 8)) n), (Nat.ltb_spec (N.to_nat (k / 8)) (S n));
      try lia; reflexivity.
Qed.
