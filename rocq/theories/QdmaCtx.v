(** Registers and contexts of the QDMA model. *)
From Verif Require Import Base LeFacts BaseFacts QdmaModel QdmaSpec QdmaBits QdmaDefs QdmaProofs QdmaRun.
From Coq Require Import ZifyN ZifyNat ZifyBool.
Open Scope N_scope.

Lemma bf_lor lo w a b : bf lo w (N.lor a b) = N.lor (bf lo w a) (bf lo w b).
Proof. unfold bf. now rewrite N.shiftr_lor, N.land_lor_distr_l. Qed.
Lemma bf_word i j x : x < 2 ^ 32 ->
  bf (32 * i) 32 (N.shiftl x (32 * j)) = if i =? j then x else 0.
Proof.
  intro X. apply N.bits_inj. intro k. unfold bf. rewrite N.land_spec, N.shiftr_spec'.
  assert (H : forall b, 32 <= b -> N.testbit x b = false).
  { intros b B. rewrite <- (N.mod_small x (2 ^ 32)) by assumption. now apply N.mod_pow2_bits_high. }
  destruct (N.lt_ge_cases k 32) as [K|K].
  - rewrite (N.ones_spec_low 32 k K), andb_true_r.
    destruct (N.eqb_spec i j) as [->|D].
    + rewrite N.shiftl_spec_high' by lia. f_equal. lia.
    + rewrite N.bits_0. destruct (N.lt_ge_cases i j).
      * apply N.shiftl_spec_low. lia.
      * rewrite N.shiftl_spec_high' by lia. apply H. lia.
  - rewrite (N.ones_spec_high 32 k K), andb_false_r.
    destruct (i =? j); [now rewrite H|now rewrite N.bits_0].
Qed.
Lemma data_word r i : (forall k, k < 8 -> r (R_IND_CTXT_DATA + k) < 2 ^ 32) -> i < 8 ->
  bf (32 * i) 32 (ctx_data r) = r (R_IND_CTXT_DATA + i).
Proof.
  intros B I. unfold ctx_data.
  assert (G : forall l, Forall (fun k => (k < 8)%nat) l -> NoDup l ->
    bf (32 * i) 32 (fold_right (fun i acc => N.lor (N.shiftl (r (R_IND_CTXT_DATA + N.of_nat i)) (32 * N.of_nat i)) acc) 0 l)
    = if existsb (Nat.eqb (N.to_nat i)) l then r (R_IND_CTXT_DATA + i) else 0).
  { induction l as [|k l IH]; intros F ND; cbn [fold_right existsb].
    - unfold bf. rewrite N.shiftr_0_l. apply N.land_0_l.
    - inversion F as [|? ? F1 F2]; subst. inversion ND as [|? ? N1 N2]; subst.
      rewrite bf_lor, IH by assumption. rewrite bf_word by (apply B; lia).
      destruct (N.eqb_spec i (N.of_nat k)) as [E|E], (Nat.eqb_spec (N.to_nat i) k) as [E'|E']; try lia.
      + cbn [orb]. rewrite <- E'. rewrite Nnat.N2Nat.id.
        destruct (existsb (Nat.eqb (N.to_nat i)) l) eqn:X; [|apply N.lor_0_r].
        apply N.lor_diag.
      + cbn [orb]. apply N.lor_0_l. }
  rewrite G.
  - assert (X : existsb (Nat.eqb (N.to_nat i)) (seq 0 8) = true).
    { apply existsb_exists. exists (N.to_nat i). split; [apply in_seq; lia|apply Nat.eqb_refl]. }
    now rewrite X.
  - apply Forall_forall. intros k K. apply in_seq in K. lia.
  - apply seq_NoDup.
Qed.

Lemma command_fields q cmd sel : q < 8192 -> cmd < 4 -> sel < 16 ->
  N.land (N.shiftr (command q cmd sel) 7) 8191 = q /\
  N.land (N.shiftr (command q cmd sel) 5) 3 = cmd /\
  N.land (N.shiftr (command q cmd sel) 1) 15 = sel /\ command q cmd sel < 2 ^ 32.
Proof.
  intros Q C S. change 8191 with (N.ones 13). change 3 with (N.ones 2). change 15 with (N.ones 4).
  rewrite !N.land_ones, !N.shiftr_div_pow2. unfold command.
  change (2 ^ 7) with 128. change (2 ^ 13) with 8192. change (2 ^ 5) with 32. change (2 ^ 2) with 4.
  change (2 ^ 1) with 2. change (2 ^ 4) with 16. change (2 ^ 32) with 4294967296.
  split; [dm|]. split; [dm|]. split; [dm|]. lia.
Qed.

Lemma cfg_cmd cpm4 s v : v < 2 ^ 32 ->
  cfg_write cpm4 s (cmd_addr cpm4) (le_enc 4 v) =
  rmap (fun s => Some (set_reg s (cmd_addr cpm4 / 4) (N.ldiff v 1), None)) (ctxt_cmd s v).
Proof.
  intro V. unfold cfg_write. rewrite le_enc_length, le_dec_enc.
  change (256 ^ N.of_nat 4) with (2 ^ 32). rewrite (N.mod_small v) by assumption.
  destruct cpm4; reflexivity.
Qed.

Definition known (sel : N) : Prop := sel <= 8 \/ sel = 12.

Lemma odd_ldiff v : N.odd (N.ldiff v 1) = false.
Proof. rewrite <- N.bit0_odd, N.ldiff_spec. now rewrite andb_false_r. Qed.
Lemma cmd_reg cpm4 : cmd_addr cpm4 / 4 < 513 \/ 521 <= cmd_addr cpm4 / 4.
Proof. destruct cpm4; right; cbv; discriminate. Qed.
Lemma valid_rg cpm4 c : it_valid c = rg_valid (ring_of cpm4 c).
Proof. apply rg_fields. Qed.
Lemma ring_of_inv cpm4 c : ring_of cpm4 (bf_set 0 1 c 0) =
  mkRing false (rg_vector (ring_of cpm4 c)) (rg_color (ring_of cpm4 c)) (rg_base (ring_of cpm4 c))
         (rg_slots (ring_of cpm4 c)).
Proof.
  unfold ring_of. destruct cpm4; rewrite !flag_field, <- !bf_field;
    cbn [rg_valid rg_vector rg_color rg_base rg_slots]; f_equal; bfs; reflexivity.
Qed.

Lemma put_at r c i : i < 8 -> put_data r c (data_reg i) = field c (32 * i) 32.
Proof.
  intro I. unfold put_data, data_reg. change R_IND_CTXT_DATA with 513.
  destruct (N.leb_spec 513 (513 + i)); [|lia]. destruct (N.ltb_spec (513 + i) (513 + 8)); [|lia].
  cbn [andb]. rewrite bf_field. f_equal. lia.
Qed.
Lemma put_out r c x : x < 513 \/ 521 <= x -> put_data r c x = r x.
Proof.
  intro X. unfold put_data. change R_IND_CTXT_DATA with 513. change (513 + 8) with 521.
  destruct (N.leb_spec 513 x); destruct (N.ltb_spec x 521); cbn [andb]; try reflexivity. lia.
Qed.

Lemma ctxt_cmd_spec cpm4 s q cmd sel v : q < 2 -> cmd < 4 -> known sel ->
  (forall i, i < 8 -> q_regs s (data_reg i) < 2 ^ 32) ->
  exists s1, ctxt_cmd s (command q cmd sel) = Ok s1 /\
    obeyed cpm4 s (set_reg s1 (cmd_addr cpm4 / 4) (N.ldiff v 1)) q cmd sel.
Proof.
  intros Q C K D. unfold known in K.
  destruct (command_fields q cmd sel ltac:(lia) C ltac:(lia)) as (F1 & F2 & F3 & F4).
  unfold ctxt_cmd. rewrite F1, F2, F3. change SELC_INT_COAL with 8. change QDMA_QUEUE_COUNT with 2.
  destruct (N.leb_spec 2 q) as [L|L]; [lia|].
  pose proof (cmd_reg cpm4) as CR.
  assert (DW : forall i, i < 8 -> field (ctx_data (q_regs s)) (32 * i) 32 = q_regs s (data_reg i)).
  { intros i I. rewrite <- bf_field. now apply data_word. }
  assert (UPD : forall x : N, x <> cmd_addr cpm4 / 4 -> forall f w,
    upd f (cmd_addr cpm4 / 4) w x = f x :> N) by (intros; now apply upd_other).
  assert (DR : forall i, i < 8 -> data_reg i <> cmd_addr cpm4 / 4) by (unfold data_reg; intros; lia).
  assert (CC : cmd = 0 \/ cmd = 1 \/ cmd = 2 \/ cmd = 3) by lia.
  assert (RG : forall x, rg_valid (ring cpm4 x q) = it_valid (q_ctx x q 8)).
  { intro x. symmetry. apply valid_rg. }
  destruct (N.eqb_spec sel 8) as [S8|S8].
  - subst sel. destruct CC as [->|[->|[->| ->]]]; cbn [N.eqb Pos.eqb].
    + eexists. split; [reflexivity|]. unfold obeyed, set_reg.
      cbn [q_regs q_ctx q_host q_card q_msix set_regs set_ctx q_ring].
      repeat split; try discriminate; auto.
      * intros a b X. apply ctx_other. exact X.
      * rewrite upd_same. apply odd_ldiff.
      * now rewrite !upd_same.
      * intro r. cbn [N.eqb]. rewrite andb_false_r. reflexivity.
    + eexists. split; [reflexivity|]. unfold obeyed.
      set (c' := ctx_data (q_regs s)) in *.
      set (s1 := if it_valid c' && negb (it_valid (q_ctx s q 8)) then set_ring (set_ctx s q 8 c') q 0 else set_ctx s q 8 c').
      assert (X1 : q_ctx s1 = q_ctx (set_ctx s q 8 c') /\ q_regs s1 = q_regs s /\ q_host s1 = q_host s /\
        q_card s1 = q_card s /\ q_msix s1 = q_msix s).
      { unfold s1. destruct (it_valid c' && _); repeat split. }
      destruct X1 as (X1 & X2 & X3 & X4 & X5). rewrite !RG.
      unfold set_reg. cbn [q_regs q_ctx q_host q_card q_msix set_regs q_ring].
      rewrite X1, X2. rewrite ctx_same.
      repeat split; try discriminate; auto.
      * intros a b X. apply ctx_other. exact X.
      * rewrite upd_same. apply odd_ldiff.
      * intro r. cbn [N.eqb Pos.eqb]. rewrite !andb_true_r. unfold s1.
        destruct (it_valid c' && negb (it_valid (q_ctx s q 8))) eqn:VV.
        -- cbn [q_ring set_ring set_ctx]. unfold upd. apply andb_true_iff in VV. destruct VV as [-> ->].
           now destruct (r =? q).
        -- rewrite <- andb_assoc, VV, andb_false_r. reflexivity.
    + eexists. split; [reflexivity|]. unfold obeyed, set_reg.
      cbn [q_regs q_ctx q_host q_card q_msix set_regs set_ctx q_ring].
      repeat split; try discriminate; auto.
      * rewrite upd_same. apply odd_ldiff.
      * intros x X Y. rewrite UPD by exact X. apply put_out. now apply Y.
      * intros i I. rewrite UPD by now apply DR. now apply put_at.
      * intro r. cbn [N.eqb Pos.eqb]. rewrite andb_false_r. reflexivity.
    + eexists. split; [reflexivity|]. unfold obeyed.
      repeat split; try discriminate; auto.
      * intros a b X. apply ctx_other. exact X.
      * unfold set_reg. cbn [q_regs set_regs]. rewrite upd_same. apply odd_ldiff.
      * intros x X Y. unfold set_reg. cbn [q_regs set_regs]. rewrite UPD by exact X. reflexivity.
      * intros _. cbn [N.eqb Pos.eqb]. unfold ring at 1. unfold set_reg. cbn [q_ctx set_regs].
        rewrite ctx_same. apply ring_of_inv.
      * intro r. cbn [N.eqb Pos.eqb]. rewrite andb_false_r. reflexivity.
  - assert (SU : supported sel = true).
    { unfold supported. change SELC_QID2VEC with 12. destruct (N.ltb_spec sel 8), (N.eqb_spec sel 12); try reflexivity. lia. }
    rewrite SU. cbn [negb].
    assert (S8' : (sel =? 8) = false) by now apply N.eqb_neq.
    destruct CC as [->|[->|[->| ->]]]; cbn [N.eqb Pos.eqb]; eexists; (split; [reflexivity|]);
      unfold obeyed, set_reg; cbn [q_regs q_ctx q_host q_card q_msix set_regs q_ring set_ctx];
      rewrite S8'.
    + repeat split; try discriminate; auto.
      * intros a b X. apply ctx_other. exact X.
      * rewrite upd_same. apply odd_ldiff.
      * now rewrite !upd_same.
      * intro r. rewrite !andb_false_r. reflexivity.
    + repeat split; try discriminate; auto.
      * intros a b X. apply ctx_other. exact X.
      * rewrite upd_same. apply odd_ldiff.
      * rewrite !upd_same. auto.
      * intro r. rewrite !andb_false_r. reflexivity.
    + repeat split; try discriminate; auto.
      * rewrite upd_same. apply odd_ldiff.
      * intros x X Y. rewrite UPD by exact X. apply put_out. now apply Y.
      * intros i I. rewrite UPD by now apply DR. now apply put_at.
      * intro r. rewrite !andb_false_r. reflexivity.
    + repeat split; try discriminate; auto.
      * rewrite upd_same. apply odd_ldiff.
      * intro r. rewrite !andb_false_r. reflexivity.
Qed.
