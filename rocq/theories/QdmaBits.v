(** Bit-fields and byte memories of the QDMA model. *)
From Verif Require Import Base LeFacts BaseFacts QdmaModel QdmaSpec.
From Coq Require Import ZifyN ZifyNat ZifyBool.
Open Scope N_scope.

Ltac dm := Z.div_mod_to_equations; lia.

Lemma bf_field lo w c : bf lo w c = field c lo w.
Proof. unfold bf, field. now rewrite N.land_ones, N.shiftr_div_pow2. Qed.
Lemma field_bound c lo w : field c lo w < 2 ^ w.
Proof. apply N.mod_lt, N.pow_nonzero. lia. Qed.
Lemma bit_on_flag lo c : bit_on lo c = flag c lo.
Proof.
  unfold bit_on, flag. rewrite bf_field. unfold field. change (2 ^ 1) with 2.
  rewrite <- N.bit0_mod, N.bit0_odd. now destruct (N.odd _).
Qed.
Lemma flag_field c lo : flag c lo = (field c lo 1 =? 1).
Proof. rewrite <- bit_on_flag. unfold bit_on. rewrite bf_field.
  pose proof (field_bound c lo 1) as H. change (2 ^ 1) with 2 in H.
  destruct (N.eqb_spec (field c lo 1) 0), (N.eqb_spec (field c lo 1) 1); cbn [negb]; lia. Qed.

Lemma bf_set_same lo w c v : bf lo w (bf_set lo w c v) = v mod 2 ^ w.
Proof.
  rewrite <- N.land_ones. apply N.bits_inj. intro i. unfold bf, bf_set.
  rewrite !N.land_spec, N.shiftr_spec', N.lor_spec, N.ldiff_spec.
  destruct (N.lt_ge_cases i w) as [L|L].
  - rewrite (N.ones_spec_low w i L), andb_true_r.
    rewrite !N.shiftl_spec_high' by lia. rewrite N.add_sub, N.land_spec, (N.ones_spec_low w i L).
    rewrite andb_true_r. cbn [negb]. now rewrite andb_false_r, orb_false_l.
  - now rewrite (N.ones_spec_high w i L), !andb_false_r.
Qed.
Lemma bf_set_other lo w c v lo' w' : lo' + w' <= lo \/ lo + w <= lo' ->
  bf lo' w' (bf_set lo w c v) = bf lo' w' c.
Proof.
  intro D. apply N.bits_inj. intro i. unfold bf, bf_set.
  rewrite !N.land_spec, !N.shiftr_spec', N.lor_spec, N.ldiff_spec.
  destruct (N.lt_ge_cases i w') as [L|L].
  2:{ now rewrite (N.ones_spec_high w' i L), !andb_false_r. }
  rewrite (N.ones_spec_low w' i L), !andb_true_r.
  destruct D as [D|D].
  - rewrite !N.shiftl_spec_low by lia. now rewrite andb_true_r, orb_false_r.
  - rewrite !N.shiftl_spec_high' by lia.
    rewrite N.land_spec, !(N.ones_spec_high w (i + lo' - lo)) by lia.
    now rewrite andb_true_r, andb_false_r, orb_false_r.
Qed.
Lemma bf_set_bound lo w c v n : c < 2 ^ n -> lo + w <= n -> bf_set lo w c v < 2 ^ n.
Proof.
  intros C L. assert (E : bf_set lo w c v = bf_set lo w c v mod 2 ^ n);
    [|rewrite E; apply N.mod_lt, N.pow_nonzero; lia].
  assert (E0 : c = c mod 2 ^ n) by (symmetry; now apply N.mod_small).
  rewrite <- N.land_ones. apply N.bits_inj. intro i.
  rewrite N.land_spec. destruct (N.lt_ge_cases i n) as [I|I].
  - now rewrite (N.ones_spec_low n i I), andb_true_r.
  - rewrite (N.ones_spec_high n i I), andb_false_r. unfold bf_set.
    assert (T : N.testbit c i = false) by (rewrite E0; now apply N.mod_pow2_bits_high).
    rewrite N.lor_spec, N.ldiff_spec, T. cbn [andb orb].
    rewrite N.shiftl_spec_high' by lia. rewrite N.land_spec, (N.ones_spec_high w (i - lo)) by lia.
    now rewrite andb_false_r.
Qed.

Lemma sw_base_field c : sw_base c = g_base c.
Proof.
  unfold sw_base, g_base, a64. rewrite !bf_field. unfold field.
  rewrite N.shiftl_mul_pow2. change (2 ^ 96) with (2 ^ 64 * 2 ^ 32).
  rewrite <- N.div_div by (apply N.pow_nonzero; lia).
  set (x := c / 2 ^ 64). clearbody x. clear c.
  change (2 ^ 64) with (2 ^ 32 * 2 ^ 32). rewrite (N.mod_mul_r x).
  2,3: (apply N.pow_nonzero; lia).
  set (a := x mod 2 ^ 32). set (b := (x / 2 ^ 32) mod 2 ^ 32).
  assert (a < 2 ^ 32) by (apply N.mod_lt; discriminate).
  assert (b < 2 ^ 32) by (apply N.mod_lt; discriminate).
  clearbody a b. change (2 ^ 32) with 4294967296 in *. rewrite N.mod_small; lia.
Qed.

(** ** Memories *)
Lemma a64_a64 x : a64 (a64 x) = a64 x.
Proof. unfold a64. apply N.mod_mod. discriminate. Qed.
Lemma a64_add x y : a64 (a64 x + y) = a64 (x + y).
Proof. unfold a64. now rewrite N.add_mod_idemp_l by discriminate. Qed.

Lemma rd_a64 m a k : rd m (a64 a) k = rd m a k.
Proof. unfold rd. apply map_ext. intro i. now rewrite a64_add. Qed.
Lemma rd_length m a k : length (rd m a k) = k.
Proof. unfold rd. now rewrite map_length, seq_length. Qed.
Lemma rd_cons m a k : rd m a (S k) = m (a64 a) :: rd m (a + 1) k.
Proof.
  unfold rd. cbn [seq map]. f_equal; [now rewrite N.add_0_r|].
  rewrite <- seq_shift, map_map. apply map_ext. intro i. f_equal. f_equal. lia.
Qed.
Lemma le_dec_cons b l : le_dec (b :: l) = b + 256 * le_dec l.
Proof.
  unfold le_dec. cbn [rev]. unfold be_dec at 1.
  assert (A : forall u a, be_dec_acc a (u ++ [b]) = be_dec_acc a u * 256 + b).
  { induction u as [|y u IH]; intro a; cbn [app be_dec_acc]; [reflexivity|apply IH]. }
  rewrite A. fold (be_dec (rev l)). lia.
Qed.
Lemma value_rd m a k : value m a k = le_dec (rd m a k).
Proof.
  revert a. induction k as [|k IH]; intro a; [reflexivity|].
  rewrite rd_cons, le_dec_cons. cbn [value]. rewrite IH. unfold a64. reflexivity.
Qed.
Lemma slice_rd m a n off k : (off + k <= n)%nat ->
  slice off k (rd m a n) = rd m (a + N.of_nat off) k.
Proof.
  intro L. unfold slice, rd. rewrite skipn_map, firstn_map.
  replace n with (off + (k + (n - off - k)))%nat by lia.
  rewrite seq_app, skipn_app, seq_length, Nat.sub_diag. cbn [skipn].
  rewrite skipn_all2 by now rewrite seq_length. cbn [app].
  rewrite seq_app, firstn_app, seq_length, Nat.sub_diag. cbn [firstn]. rewrite app_nil_r.
  rewrite firstn_all2 by (rewrite seq_length; lia). rewrite Nat.add_0_l.
  replace off with (off + 0)%nat at 1 by lia. clear L. generalize 0%nat as z. intro z.
  revert z. induction k as [|k IH]; intro z; [reflexivity|]. cbn [seq map].
  f_equal; [f_equal; f_equal; lia|]. rewrite <- (IH (S z)). f_equal. f_equal. lia.
Qed.
Lemma le_fld_rd m a n off k : (off + k <= n)%nat ->
  le_fld off k (rd m (a64 a) n) = value m (a + N.of_nat off) k.
Proof. intro L. unfold le_fld. rewrite rd_a64, slice_rd by assumption. now rewrite value_rd. Qed.

Lemma past_bound a x : past a x < 2 ^ 64.
Proof. unfold past. apply N.mod_lt. discriminate. Qed.
Lemma past_a64 a x : past (a64 a) x = past a x.
Proof. unfold past, a64. now rewrite N.mod_mod by discriminate. Qed.
Lemma wr_placed m a d x : wr m a d x = placed m a d x.
Proof. reflexivity. Qed.
Lemma past_add a k x : k < 2 ^ 64 ->
  past (a + k) x = if past a x <? k then past a x + 2 ^ 64 - k else past a x - k.
Proof.
  unfold past. change (2 ^ 64) with 18446744073709551616. intro K.
  destruct (N.ltb_spec ((x + 18446744073709551616 - a mod 18446744073709551616)
    mod 18446744073709551616) k); dm.
Qed.
Lemma nth_rd m a k i : (i < k)%nat -> nth i (rd m a k) 0 = m (a64 (a + N.of_nat i)).
Proof.
  intro L. unfold rd. set (f := fun i => m (a64 (a + N.of_nat i))).
  rewrite (nth_indep _ 0 (f 0%nat)) by (rewrite map_length, seq_length; lia).
  rewrite map_nth, seq_nth by lia. reflexivity.
Qed.

Lemma copy_moved sbad dbad from : forall n to src dst to',
  4 * N.of_nat n <= 2 ^ 64 ->
  copy sbad dbad from to src dst n = Ok to' ->
  forall x, to' x = moved from to src dst (4 * N.of_nat n) x.
Proof.
  induction n as [|n IH]; intros to src dst to' B H x.
  - cbn in H. injection H as <-. unfold moved. destruct (N.ltb_spec (past dst x) (4 * N.of_nat 0)); [lia|reflexivity].
  - cbn [copy] in H. destruct (sbad src); [discriminate|]. destruct (dbad dst); [discriminate|].
    rewrite (IH _ _ _ _ ltac:(lia) H x). unfold moved.
    rewrite past_a64, past_add by reflexivity. rewrite wr_placed. unfold placed. rewrite rd_length.
    pose proof (past_bound dst x) as PB.
    change (2 ^ 64) with 18446744073709551616 in *.
    change (N.of_nat 4) with 4.
    destruct (N.ltb_spec (past dst x) 4) as [P|P].
    + destruct (N.ltb_spec (past dst x + 18446744073709551616 - 4) (4 * N.of_nat n)); [lia|].
      destruct (N.ltb_spec (past dst x) (4 * N.of_nat (S n))); [|lia].
      rewrite nth_rd by lia. f_equal. unfold a64. f_equal. lia.
    + destruct (N.ltb_spec (past dst x - 4) (4 * N.of_nat n));
        destruct (N.ltb_spec (past dst x) (4 * N.of_nat (S n))); try lia.
      * f_equal. unfold a64. rewrite N.add_mod_idemp_l by discriminate. f_equal. lia.
Qed.

Lemma value_ext m m' a k : (forall x, m x = m' x) -> value m a k = value m' a k.
Proof. intro E. revert a. induction k as [|k IH]; intro a; cbn [value]; [reflexivity|]. now rewrite E, IH. Qed.
Lemma moved_ext f f' t t' s d n : (forall x, f x = f' x) -> (forall x, t x = t' x) ->
  forall x, moved f t s d n x = moved f' t' s d n x.
Proof. intros F T x. unfold moved. now rewrite F, T. Qed.

Definition same2 (w w' : memory * memory) : Prop :=
  (forall x, fst w x = fst w' x) /\ (forall x, snd w x = snd w' x).
Lemma same2_refl w : same2 w w. Proof. split; reflexivity. Qed.
Lemma same2_trans u v w : same2 u v -> same2 v w -> same2 u w.
Proof. intros [A B] [C D]. split; intro x; congruence. Qed.
Lemma same2_sym u v : same2 u v -> same2 v u.
Proof. intros [A B]. split; intro x; congruence. Qed.
Lemma one_ext h2c base dsz w w' i : same2 w w' -> same2 (one h2c base dsz w i) (one h2c base dsz w' i).
Proof.
  destruct w as [H C], w' as [H' C']. intros [A B]. cbn [fst snd] in *.
  unfold one, d_src, d_dst, d_cnt. rewrite !(value_ext H H') by assumption.
  destruct h2c; split; cbn [fst snd]; intro x; try (now apply moved_ext); auto.
Qed.
Lemma all_ext h2c base dsz l : forall w w', same2 w w' -> same2 (all h2c base dsz l w) (all h2c base dsz l w').
Proof. induction l as [|i l IH]; intros w w' E; [assumption|]. apply IH. now apply one_ext. Qed.
Lemma whole_ext h2c base dsz l : forall w w', same2 w w' ->
  whole_words h2c base dsz l w -> whole_words h2c base dsz l w'.
Proof.
  induction l as [|i l IH]; intros w w' E W; [exact I|]. destruct W as [W1 W2]. split.
  - destruct E as [E _]. unfold d_cnt in *. now rewrite <- (value_ext _ _ _ _ E).
  - eapply IH; [|exact W2]. now apply one_ext.
Qed.
