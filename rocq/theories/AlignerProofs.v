(** Proofs about the aligner. *)
From Verif Require Import Base BaseFacts TlmModel TlmSpec TlmFacts AlignerModel AlignerSpec.
Open Scope N_scope.

(** The lowest set bit of a 64-bit number. *)
Lemma odd_split n : n <> 0 -> exists k m, n = 2 ^ k * (2 * m + 1).
Proof.
  induction n as [n IH] using (well_founded_induction N.lt_wf_0). intros Hn.
  destruct (N.Even_or_Odd n) as [[q E]|[q E]].
  - destruct (IH q) as [k [m H]]; [lia|lia|]. exists (N.succ k), m.
    rewrite N.pow_succ_r', <- N.mul_assoc, <- H. exact E.
  - exists 0, q. rewrite N.pow_0_r. lia.
Qed.

Lemma land_odd_neg n m : 2 * m + 1 < 2 ^ n ->
  N.land (2 * m + 1) (2 ^ n - (2 * m + 1)) = 1.
Proof.
  intros H. set (a := 2 * m + 1) in *.
  assert (Ha : a <> 0) by (unfold a; lia).
  assert (Hl : N.log2 a < n) by (apply N.log2_lt_pow2; lia).
  pose proof (N.lnot_sub_low a n Hl) as L.
  pose proof (N.land_lnot_diag_low a n Hl) as Z.
  rewrite N.ones_equiv in L.
  assert (Hn : n <> 0) by (intros ->; cbn in H; lia).
  assert (E : 2 ^ n - a = N.lnot a n + 1) by lia.
  assert (V : N.testbit (N.lnot a n) 0 = false).
  { rewrite N.lnot_spec_low by lia. unfold a. rewrite N.testbit_odd_0. reflexivity. }
  assert (A : N.lnot a n + 1 = N.lor (N.lnot a n) 1).
  { assert (N.land (N.lnot a n) 1 = 0).
    { change 1 with (N.ones 1). rewrite N.land_ones. change (2 ^ 1) with 2.
      rewrite <- N.bit0_mod, V. reflexivity. }
    rewrite <- N.lxor_lor by assumption. apply N.add_nocarry_lxor. assumption. }
  rewrite E, A, N.land_lor_distr_r, Z, N.lor_0_l.
  change 1 with (N.ones 1) at 1. rewrite N.land_ones. change (2 ^ 1) with 2.
  unfold a. rewrite N.add_comm, N.mul_comm, N.mod_add by lia. reflexivity.
Qed.

Lemma natural_alignment_pow a : a <> 0 -> a < u64 ->
  exists k, natural_alignment a = 2 ^ k /\ a mod 2 ^ k = 0.
Proof.
  intros Hn Hb. destruct (odd_split a Hn) as [k [m E]].
  exists k. unfold natural_alignment.
  replace (a =? 0) with false by (symmetry; apply N.eqb_neq; exact Hn).
  assert (Hp : 2 ^ k <> 0) by (apply N.pow_nonzero; discriminate).
  assert (Hk : k < 64).
  { destruct (N.lt_ge_cases k 64) as [L|L]; [exact L|exfalso].
    apply (N.pow_le_mono_r 2) in L; [|discriminate].
    change (2 ^ 64) with u64 in L.
    assert (H : 2 ^ k * 1 <= 2 ^ k * (2 * m + 1)) by (apply N.mul_le_mono_l; clear; lia).
    rewrite <- E, N.mul_1_r in H.
    exact (N.lt_irrefl _ (N.lt_le_trans _ _ _ Hb (N.le_trans _ _ _ L H))). }
  assert (Hu : u64 = 2 ^ k * 2 ^ (64 - k)).
  { rewrite <- N.pow_add_r. replace (k + (64 - k)) with 64 by lia. reflexivity. }
  split.
  - rewrite Hu in *. rewrite E in *. rewrite <- N.mul_sub_distr_l.
    rewrite !(N.mul_comm (2 ^ k)), <- !N.shiftl_mul_pow2, <- N.shiftl_land.
    rewrite land_odd_neg; [rewrite N.shiftl_mul_pow2; lia|].
    apply (N.mul_lt_mono_pos_l (2 ^ k)); lia.
  - rewrite E, N.mul_comm. apply N.mod_mul. exact Hp.
Qed.

(** ** One chunk *)
Definition usable (c : acfg) : Prop := 8 <= ac_bus c /\ 0 < ac_max c /\ 0 < ac_bound c.

Lemma max_range_limits c a na :
  usable c -> 0 < na -> (a mod na = 0) ->
  0 < max_addr_range c a na /\ max_addr_range c a na <= ac_max c /\
  a mod ac_bound c + max_addr_range c a na <= ac_bound c /\
  (ac_nat c = true -> max_addr_range c a na <= na).
Proof.
  intros [_ [Hm Hb]] Hn Hz. unfold max_addr_range.
  assert (a mod ac_bound c < ac_bound c) by (apply N.mod_lt; lia).
  rewrite Hz. destruct (ac_nat c); repeat split; try discriminate; try lia.
Qed.

Lemma na_facts a : a < u64 -> 0 < natural_alignment a /\ a mod natural_alignment a = 0 /\
  (a = 0 \/ exists k, natural_alignment a = 2 ^ k /\ a mod 2 ^ k = 0).
Proof.
  intros H. destruct (N.eq_dec a 0) as [->|Hn].
  - repeat split; auto.
  - destruct (natural_alignment_pow a Hn H) as [k [E Z]]. rewrite E.
    repeat split; auto.
    + apply N.neq_0_lt_0, N.pow_nonzero; discriminate.
    + right. exists k. auto.
Qed.

Definition sw_of (g : gp) : N := if g_sw g =? 0 then g_len g else g_sw g.

(** The streaming width in the chunk payload is the original one until the
    first chunk has been issued. *)
Lemma chunk_shape_spec c g pos cur a l w :
  usable c -> gp_ok g -> pos < g_len g -> (pos = 0 -> cur = g_sw g) ->
  chunk_shape c (g_addr g) (g_len g) (sw_of g) pos cur = (a, l, w) ->
  0 < l <= ac_max c /\ pos + l <= g_len g /\
  a mod ac_bound c + l <= ac_bound c /\
  (ac_nat c = true -> a = 0 \/ exists k, a mod 2 ^ k = 0 /\ l <= 2 ^ k) /\
  (forall j, j < l -> (a + stream_off w j) mod u64 = byte_addr g (pos + j)).
Proof.
  intros Hu [Ha [Hl [Hs _]]] Hpos Hcur H.
  assert (Hsw : 0 < sw_of g).
  { unfold sw_of. destruct (N.eqb_spec (g_sw g) 0); lia. }
  assert (Hba : forall i, i < g_len g ->
            byte_addr g i = (g_addr g + i mod sw_of g) mod u64).
  { intros i Hi. unfold byte_addr, stream_off, sw_of.
    destruct (g_sw g =? 0); [rewrite (N.mod_small i) by exact Hi|]; reflexivity. }
  unfold chunk_shape in H.
  remember (sw_of g) as sw eqn:Dsw. remember (pos mod sw) as r eqn:Dr.
  assert (Hr : r < sw) by (subst r; apply N.mod_lt; clear - Hsw; lia).
  remember ((g_addr g + r) mod u64) as ta eqn:Dta.
  assert (Hta : ta < u64) by (subst ta; apply N.mod_lt; discriminate).
  destruct (na_facts ta Hta) as [N1 [N2 N3]].
  destruct (max_range_limits c ta (natural_alignment ta) Hu N1 N2) as [R1 [R2 [R3 R4]]].
  remember (max_addr_range c ta (natural_alignment ta)) as rg eqn:Drg.
  (* common part for any length not above the computed range *)
  assert (Common : forall l0, 0 < l0 -> l0 <= g_len g - pos -> l0 <= rg ->
    0 < l0 <= ac_max c /\ pos + l0 <= g_len g /\
    ta mod ac_bound c + l0 <= ac_bound c /\
    (ac_nat c = true -> ta = 0 \/ exists k, ta mod 2 ^ k = 0 /\ l0 <= 2 ^ k)).
  { clear - N3 R2 R3 R4 Hpos. intros l0 P1 P2 P3.
    split; [lia|]. split; [lia|]. split; [lia|].
    intros Hn. specialize (R4 Hn). destruct N3 as [N3|[k [N3 N4]]]; [left; exact N3|].
    right. exists k. split; [exact N4|]. rewrite <- N3. clear - P3 R4. lia. }
  assert (Addr : forall j, pos + j < g_len g -> r + j < sw ->
     (ta + j) mod u64 = byte_addr g (pos + j)).
  { intros j Hj Hrj. rewrite Hba by exact Hj.
    rewrite Dta, N.add_mod_idemp_l by discriminate. f_equal.
    rewrite <- N.add_assoc. f_equal.
    rewrite <- N.add_mod_idemp_l by (clear - Hsw; lia). rewrite <- Dr.
    symmetry. apply N.mod_small, Hrj. }
  assert (So : forall w j, j < w -> stream_off w j = j).
  { intros w0 j Hj. unfold stream_off. destruct (w0 =? 0); [reflexivity|]. apply N.mod_small, Hj. }
  clear N1 N2 N3 R2 R3 R4 Drg Hta.
  destruct (N.eqb_spec r 0) as [Er|Er]; cbn [negb] in H.
  - destruct (N.eqb_spec sw (g_len g)) as [El|El]; cbn [negb] in H.
    + injection H as <- <- <-.
      assert (P0 : pos = 0).
      { rewrite Er in Dr. rewrite N.mod_small in Dr by (clear - Hpos El; lia). symmetry; exact Dr. }
      assert (B : 0 < N.min (g_len g - pos) rg) by (clear - Hpos R1; lia).
      destruct (Common _ B (N.le_min_l _ _) (N.le_min_r _ _)) as [C1 [C2 [C3 C4]]].
      split; [exact C1|split; [exact C2|split; [exact C3|split; [exact C4|]]]].
      intros j Hj. rewrite (Hcur P0), <- Addr; [|clear - Hj C2; lia|clear - Hj P0 El Er; lia].
      f_equal. f_equal. rewrite Dsw in El. unfold stream_off, sw_of in *.
      destruct (N.eqb_spec (g_sw g) 0); [reflexivity|].
      apply N.mod_small. clear - Hj El. lia.
    + destruct (match ac_valid c with Some v => _ | None => _ end).
      * injection H as <- <- <-.
        assert (B : 0 < N.min (g_len g - pos) rg) by (clear - Hpos R1; lia).
        destruct (Common _ B (N.le_min_l _ _) (N.le_min_r _ _)) as [C1 [C2 [C3 C4]]].
        split; [exact C1|split; [exact C2|split; [exact C3|split; [exact C4|]]]].
        intros j Hj. rewrite Hba by (clear - Hj C2; lia).
        rewrite Dta, N.add_mod_idemp_l by discriminate. f_equal.
        rewrite <- N.add_assoc. f_equal. unfold stream_off.
        replace (sw =? 0) with false by (symmetry; apply N.eqb_neq; clear - Hsw; lia).
        rewrite Er, N.add_0_l, <- (N.add_mod_idemp_l pos) by (clear - Hsw; lia).
        rewrite <- Dr, Er. reflexivity.
      * injection H as <- <- <-.
        assert (Q : 0 < ac_bus c / 8).
        { apply N.div_str_pos. destruct Hu as [Hu _]. clear - Hu. lia. }
        remember (ac_bus c / 8) as q eqn:Dq.
        remember (N.min (N.min (g_len g - pos) rg) (N.min q sw)) as l0 eqn:Dl.
        assert (B : 0 < l0 /\ l0 <= g_len g - pos /\ l0 <= rg /\ l0 <= sw)
          by (clear - Dl Hpos R1 Q Hsw; lia).
        destruct B as [B1 [B2 [B3 B4]]].
        destruct (Common _ B1 B2 B3) as [C1 [C2 [C3 C4]]].
        split; [exact C1|split; [exact C2|split; [exact C3|split; [exact C4|]]]].
        intros j Hj. rewrite So by exact Hj.
        apply Addr; [clear - Hj C2; lia|clear - Hj B4 Er; lia].
  - injection H as <- <- <-.
    remember (N.min (N.min (g_len g - pos) rg) (sw - r)) as l0 eqn:Dl.
    assert (B : 0 < l0 /\ l0 <= g_len g - pos /\ l0 <= rg /\ l0 <= sw - r)
      by (clear - Dl Hpos R1 Hr; lia).
    destruct B as [B1 [B2 [B3 B4]]].
    destruct (Common _ B1 B2 B3) as [C1 [C2 [C3 C4]]].
    split; [exact C1|split; [exact C2|split; [exact C3|split; [exact C4|]]]].
    intros j Hj. rewrite So by exact Hj.
    apply Addr; [clear - Hj C2; lia|clear - Hj B4 Hr; lia].
Qed.

(** Chunks do not stream when the validator refuses to. *)
Definition no_streaming (c : acfg) : Prop :=
  exists v, ac_valid c = Some v /\ forall a l w, v a l w = true -> l <= w.

Lemma chunk_shape_sw c g pos cur a l w :
  pos < g_len g -> (pos = 0 -> cur = g_sw g) ->
  chunk_shape c (g_addr g) (g_len g) (sw_of g) pos cur = (a, l, w) ->
  a < u64 /\ (no_streaming c -> g_sw g <> 0 -> l <= w).
Proof.
  intros Hpos Hcur H.
  assert (A : a < u64).
  { unfold chunk_shape in H.
    assert (M : (g_addr g + pos mod sw_of g) mod u64 < u64) by (apply N.mod_lt; discriminate).
    destruct (negb (pos mod sw_of g =? 0)); [injection H as <- _ _; exact M|].
    destruct (negb (sw_of g =? g_len g)); [|injection H as <- _ _; exact M].
    destruct (match ac_valid c with Some v => _ | None => _ end); injection H as <- _ _; exact M. }
  split; [exact A|]. intros [v [Ev Hv]] Hs. unfold chunk_shape in H. rewrite Ev in H.
  assert (Esw : sw_of g = g_sw g) by (unfold sw_of; destruct (N.eqb_spec (g_sw g) 0); [contradiction|reflexivity]).
  rewrite Esw in H.
  destruct (N.eqb_spec (pos mod g_sw g) 0) as [Er|Er]; cbn [negb] in H.
  - destruct (N.eqb_spec (g_sw g) (g_len g)) as [El|El]; cbn [negb] in H.
    + injection H as <- <- <-.
      assert (P0 : pos = 0) by (rewrite N.mod_small in Er by (clear - Hpos El; lia); exact Er).
      rewrite (Hcur P0). eapply N.le_trans; [apply N.le_min_l|]. clear - El. lia.
    + destruct (v _ _ _) eqn:V.
      * injection H as <- <- <-. exact (Hv _ _ _ V).
      * injection H as <- <- <-. apply N.le_refl.
  - injection H as <- <- <-. apply N.le_refl.
Qed.

(** ** The loop *)
Definition limits (c : acfg) := within_limits (ac_max c) (ac_bound c) (ac_nat c).
Definition limits_sw (c : acfg) (g x : gp) : Prop :=
  limits c x /\ g_addr x < u64 /\ (no_streaming c -> g_sw g <> 0 -> g_len x <= g_sw x).

Lemma overlay_slice_len p n (l : list N) :
  (p + n <= length l)%nat -> length (slice p n l) = n.
Proof. apply slice_length. Qed.

Lemma skipn_overlay p n d (l : list N) :
  length d = n -> (p + n <= length l)%nat -> skipn (p + n) (overlay p d l) = skipn (p + n) l.
Proof.
  intros Hd Hl. unfold overlay. rewrite app_assoc.
  rewrite skipn_app_len; [rewrite Hd; reflexivity|].
  rewrite app_length, firstn_length. lia.
Qed.

Lemma firstn_overlay p n d (l : list N) :
  length d = n -> (p + n <= length l)%nat -> firstn (p + n) (overlay p d l) = firstn p l ++ d.
Proof.
  intros Hd Hl. unfold overlay. rewrite app_assoc.
  apply firstn_app_len. rewrite app_length, firstn_length. lia.
Qed.

Lemma loop_run {S} c (t : target S) g :
  usable c -> gp_ok g -> keeps_length t ->
  forall fuel s buf pos cur st,
  (length (g_data g) - N.to_nat pos <= fuel)%nat ->
  pos <= g_len g ->
  length buf = length (g_data g) ->
  skipn (N.to_nat pos) buf = skipn (N.to_nat pos) (g_data g) ->
  (pos = 0 -> cur = g_sw g) ->
  (pos = g_len g -> st = St_OK) ->
  exists s' d' st',
    align_loop fuel c t g (sw_of g) s buf pos cur st =
      Ok (s', (firstn (N.to_nat pos) buf ++ d', st')) /\
    run (limits_sw c g) (g_cmd g) t s
        (map (access_at g) (seq (N.to_nat pos) (length (g_data g) - N.to_nat pos)))
        s' d' st'.
Proof.
  intros Hu Hg Ht. induction fuel as [|fuel IH]; intros s buf pos cur st Hf Hp Hlen Hskip Hcur Hst.
  - assert (pos = g_len g) by (unfold g_len in *; lia). subst pos.
    cbn [align_loop]. rewrite N.leb_refl. exists s, [], st. split.
    + rewrite firstn_all2 by (unfold g_len; lia). rewrite app_nil_r. reflexivity.
    + replace (length (g_data g) - N.to_nat (g_len g))%nat with O by (unfold g_len; lia).
      rewrite (Hst eq_refl). constructor.
  - cbn [align_loop]. destruct (N.leb_spec (g_len g) pos) as [L|L].
    { assert (pos = g_len g) by lia. subst pos. exists s, [], st. split.
      + rewrite firstn_all2 by (unfold g_len; lia). rewrite app_nil_r. reflexivity.
      + replace (length (g_data g) - N.to_nat (g_len g))%nat with O by (unfold g_len; lia).
        rewrite (Hst eq_refl). constructor. }
    destruct (chunk_shape c (g_addr g) (g_len g) (sw_of g) pos cur) as [[a l] w] eqn:Hc.
    destruct (chunk_shape_spec c g pos cur a l w Hu Hg L Hcur Hc) as [C1 [C2 [C3 [C4 C5]]]].
    replace ((l =? 0) || (ac_max c <? l)) with false
      by (symmetry; apply orb_false_iff; split; [apply N.eqb_neq|apply N.ltb_ge]; lia).
    set (bw := if g_be_len g =? 0 then None else _).
    set (chunk := mkGp _ _ _ _ _ _).
    assert (Hnl : (N.to_nat pos + N.to_nat l <= length (g_data g))%nat) by (unfold g_len in *; lia).
    assert (Hdl : length (g_data chunk) = N.to_nat l).
    { unfold chunk; cbn [g_data]. rewrite slice_length; [reflexivity|]. rewrite Hlen. exact Hnl. }
    assert (Hgl : g_len chunk = l) by (unfold g_len; rewrite Hdl; lia).
    assert (Hacc : accesses chunk = map (access_at g) (seq (N.to_nat pos) (N.to_nat l))).
    { unfold accesses. rewrite Hdl. apply map_seq_shift. intros i Hi.
      unfold access_at. f_equal.
      - unfold byte_addr at 1. unfold chunk; cbn [g_addr g_sw].
        rewrite C5 by lia. f_equal. lia.
      - unfold chunk; cbn [g_be]. unfold bw, be_twice.
        rewrite (be_window (g_be g) (g_be_len g) pos) by reflexivity. f_equal. lia.
      - unfold chunk; cbn [g_data]. rewrite nth_slice by exact Hi.
        rewrite <- (nth_slice (N.to_nat pos) (Datatypes.S i)) by lia.
        rewrite <- (nth_slice (N.to_nat pos) (Datatypes.S i) (g_data g)) by lia.
        unfold slice. rewrite Hskip. reflexivity. }
    destruct (chunk_shape_sw c g pos cur a l w L Hcur Hc) as [W1 W2].
    assert (Hlim : limits_sw c g chunk).
    { split; [|split; [exact W1|rewrite Hgl; exact W2]].
      unfold limits, within_limits. rewrite Hgl. unfold chunk at 1 2 3; cbn [g_addr].
      repeat split; auto; lia. }
    destruct (t s chunk) as [s1 [d1 st1]] eqn:Et.
    assert (Hd1 : length d1 = N.to_nat l).
    { specialize (Ht s chunk). rewrite Et in Ht. cbn [fst snd] in Ht. rewrite Ht. exact Hdl. }
    assert (Hseq : seq (N.to_nat pos) (length (g_data g) - N.to_nat pos) =
                   seq (N.to_nat pos) (N.to_nat l) ++
                   seq (N.to_nat pos + N.to_nat l)
                       (length (g_data g) - (N.to_nat pos + N.to_nat l))).
    { rewrite <- seq_app. f_equal. lia. }
    rewrite Hseq, map_app, <- Hacc.
    assert (Hov : length (overlay (N.to_nat pos) d1 buf) = length (g_data g)).
    { rewrite overlay_length; [exact Hlen|]. rewrite Hd1, Hlen. exact Hnl. }
    assert (Fail : st1 <> St_OK ->
      exists s' d' st',
        Ok (s1, (overlay (N.to_nat pos) d1 buf, st1)) =
        Ok (s', (firstn (N.to_nat pos) buf ++ d', st')) /\
        run (limits_sw c g) (g_cmd g) t s
          (accesses chunk ++ map (access_at g)
             (seq (N.to_nat pos + N.to_nat l)
                  (length (g_data g) - (N.to_nat pos + N.to_nat l)))) s' d' st').
    { intros Hne. eexists _, _, _. split; cycle 1.
      - eapply run_fail; [exact Hlim|reflexivity|exact Et|exact Hne].
      - unfold overlay. do 4 f_equal. rewrite map_abyte_tail, Hd1.
        rewrite <- !skipn_add. rewrite Hskip. reflexivity. }
    destruct st1; try (apply Fail; discriminate). clear Fail.
    destruct (IH s1 (overlay (N.to_nat pos) d1 buf) (pos + l) w St_OK)
      as [s' [d' [st' [E R]]]].
    + lia.
    + lia.
    + exact Hov.
    + replace (N.to_nat (pos + l)) with (N.to_nat pos + N.to_nat l)%nat by lia.
      rewrite skipn_overlay by (auto; lia). rewrite <- !skipn_add, Hskip. reflexivity.
    + intros; lia.
    + reflexivity.
    + rewrite E. exists s', (d1 ++ d'), st'. split.
      * replace (N.to_nat (pos + l)) with (N.to_nat pos + N.to_nat l)%nat by lia.
        rewrite firstn_overlay by (auto; lia). rewrite app_assoc. reflexivity.
      * replace (N.to_nat (pos + l)) with (N.to_nat pos + N.to_nat l)%nat in R by lia.
        eapply run_step; eauto.
Qed.

Theorem align_run_sw {S} c (t : target S) g s :
  usable c -> gp_ok g -> 0 < g_len g -> keeps_length t ->
  exists s' d' st',
    align_transport c t s g = Ok (s', (d', st')) /\
    run (limits_sw c g) (g_cmd g) t s (accesses g) s' d' st'.
Proof.
  intros Hu Hg Hl Ht. unfold align_transport.
  replace (ac_bound c =? 0) with false
    by (symmetry; apply N.eqb_neq; destruct Hu as [_ [_ Hu]]; lia).
  fold (sw_of g). destruct (_ && _ && _ && _) eqn:E.
  - apply andb_prop in E as [E Esw]. apply andb_prop in E as [E Erange].
    apply andb_prop in E as [_ Emax].
    apply N.ltb_lt in Emax. apply N.eqb_eq in Erange, Esw.
    destruct Hg as [Ha Hg]. destruct (na_facts _ Ha) as [N1 [N2 N3]].
    destruct (max_range_limits c _ _ Hu N1 N2) as [R1 [R2 [R3 R4]]].
    rewrite <- Erange in *.
    assert (Hlim : limits_sw c g g).
    { split; [|split; [exact Ha|intros _ Hz; unfold sw_of in Esw; destruct (N.eqb_spec (g_sw g) 0); [contradiction|lia]]].
      unfold limits, within_limits. repeat split; try lia. intros Hn. specialize (R4 Hn).
      destruct N3 as [N3|[k [N3 N4]]]; [left; exact N3|right]. exists k. split; [exact N4|lia]. }
    destruct (t s g) as [s1 [d1 st1]] eqn:Et. exists s1, d1, st1. split; [reflexivity|].
    destruct (status_eqb st1 St_OK) eqn:Es.
    + replace st1 with St_OK in * by (destruct st1; try discriminate; reflexivity).
      rewrite <- (app_nil_r (accesses g)), <- (app_nil_r d1).
      eapply run_step; eauto. constructor.
    + rewrite <- (app_nil_r (accesses g)), <- (app_nil_r d1).
      eapply (run_fail _ _ _ _ _ []); eauto. intros ->; discriminate.
  - destruct (loop_run c t g Hu Hg Ht (length (g_data g)) s (g_data g) 0 (g_sw g) (g_status g))
      as [s' [d' [st' [E' R]]]]; try lia; auto.
    exists s', d', st'. cbn [N.to_nat firstn] in *. split; [exact E'|].
    change (N.to_nat 0) with O in R. rewrite Nat.sub_0_r in R. exact R.
Qed.

Theorem align_run {S} c (t : target S) g s :
  usable c -> gp_ok g -> 0 < g_len g -> keeps_length t ->
  exists s' d' st',
    align_transport c t s g = Ok (s', (d', st')) /\
    run (limits c) (g_cmd g) t s (accesses g) s' d' st'.
Proof.
  intros Hu Hg Hl Ht. destruct (align_run_sw c t g s Hu Hg Hl Ht) as [s' [d' [st' [E R]]]].
  exists s', d', st'. split; [exact E|]. eapply run_weaken; [|exact R]. intros x H. apply H.
Qed.
