(** C85-C88: the Xilinx QDMA. *)
From Verif Require Import Base LeFacts BaseFacts QdmaModel QdmaSpec QdmaBits QdmaDefs QdmaProofs
  QdmaRun QdmaLive QdmaRing QdmaCtx QdmaRegs.
From Coq Require Import ZifyN ZifyNat ZifyBool.
Open Scope N_scope.

(** ** The doorbell *)
Lemma door_starts cpm4 s q h2c v : q < 2 -> v < 2 ^ 32 ->
  let sw := software s q h2c in let p := v mod 65536 in
  cfg_write cpm4 s (door cpm4 q h2c) (le_enc 4 v) =
  if g_size sw <=? p then AssertFail
  else Ok (Some (set_ctx (set_reg s (door cpm4 q h2c / 4) v) q (sw_sel h2c) (bf_set 0 16 sw p),
                 Some (mkT q h2c p (g_dsz sw) (g_size sw) Top))).
Proof.
  intros Q V sw p. unfold cfg_write. rewrite le_enc_length, le_dec_enc.
  change (256 ^ N.of_nat 4) with (2 ^ 32). rewrite (N.mod_small v) by assumption.
  assert (P : N.land v 65535 = p) by (change 65535 with (N.ones 16); now rewrite N.land_ones).
  assert (SZ : nth (N.to_nat (sw_ring_size sw)) ring_sizes 0 = g_size sw).
  { unfold g_size, descriptors, sw_ring_size. now rewrite bf_field. }
  assert (DZ : 8 * 2 ^ sw_desc_size sw = g_dsz sw).
  { unfold g_dsz, sw_desc_size. now rewrite bf_field. }
  assert (G : forall i, (DMAP cpm4 + (if h2c then 4 else 8) + 16 * q) / 4 = i ->
    start cpm4 (set_reg s i v) q h2c =
      if g_size sw <=? p then AssertFail
      else Ok (set_ctx (set_reg s i v) q (sw_sel h2c) (bf_set 0 16 sw p),
               mkT q h2c p (g_dsz sw) (g_size sw) Top)).
  { intros i I. unfold start. change QDMA_QUEUE_COUNT with 2.
    destruct (N.ltb_spec 2 q); [lia|]. destruct (N.leb_spec 2 q); [lia|].
    cbn [q_regs q_ctx set_reg set_regs]. rewrite I, upd_same, P.
    change (q_ctx s q (sw_sel h2c)) with sw. rewrite SZ, DZ. reflexivity. }
  assert (QQ : q = 0 \/ q = 1) by lia.
  set (a := door cpm4 q h2c).
  assert (T1 : (DMAP cpm4 / 4 <=? a / 4) && (a / 4 <=? (DMAP cpm4 + 12 + 16 * QDMA_QUEUE_COUNT) / 4) = true)
    by (unfold a; destruct QQ as [->| ->], cpm4, h2c; reflexivity).
  assert (T2 : (a mod 16 =? 4) = h2c) by (unfold a; destruct QQ as [->| ->], cpm4, h2c; reflexivity).
  assert (T3 : h2c = false -> (a mod 16 =? 8) = true)
    by (unfold a; destruct QQ as [->| ->], cpm4, h2c; try discriminate; reflexivity).
  assert (T4 : (a - DMAP cpm4) / 16 = q) by (unfold a; destruct QQ as [->| ->], cpm4, h2c; reflexivity).
  assert (T5 : (DMAP cpm4 + (if h2c then 4 else 8) + 16 * q) / 4 = a / 4)
    by (unfold a; destruct QQ as [->| ->], cpm4, h2c; reflexivity).
  rewrite T1, T2, T4. change (4 <? 4)%nat with false. cbv beta iota zeta.
  destruct h2c; [|rewrite (T3 eq_refl)]; rewrite (G _ T5); destruct (g_size sw <=? p); reflexivity.
Qed.

Lemma set_pidx_keeps c p : let c' := bf_set 0 16 c p in
  g_size c' = g_size c /\ g_dsz c' = g_dsz c /\ g_base c' = g_base c /\
  g_writeback c' = g_writeback c /\ g_interrupt c' = g_interrupt c /\
  flag c' 139 = flag c 139 /\ field c' 128 11 = field c 128 11.
Proof.
  unfold g_size, g_dsz, g_base, g_writeback, g_interrupt. rewrite !flag_field, <- !bf_field.
  rewrite !bf_set_other by lia. auto 10.
Qed.

Lemma irq_ready_pidx cpm4 s i v q h2c p : irq_ready cpm4 s q h2c ->
  irq_ready cpm4 (set_ctx (set_reg s i v) q (sw_sel h2c) (bf_set 0 16 (software s q h2c) p)) q h2c.
Proof.
  intro I. set (s0 := set_ctx _ _ _ _). unfold irq_ready in *.
  assert (S : software s0 q h2c = bf_set 0 16 (software s q h2c) p)
    by (unfold software at 1, s0; apply ctx_same).
  assert (V : q_ctx s0 q 12 = q_ctx s q 12).
  { unfold s0. rewrite ctx_other; [reflexivity|]. destruct h2c; unfold sw_sel; congruence. }
  assert (X : forall r, ring cpm4 s0 r = ring cpm4 s r).
  { intro r. unfold ring, s0. rewrite ctx_other; [reflexivity|]. destruct h2c; unfold sw_sel; congruence. }
  destruct (set_pidx_keeps (software s q h2c) p) as (_ & _ & _ & _ & K5 & K6 & K7).
  assert (VE : vector cpm4 s0 q h2c = vector cpm4 s q h2c) by (unfold vector; now rewrite S, V, K7).
  assert (RE : rings cpm4 s0 q h2c = rings cpm4 s q h2c) by (unfold rings; now rewrite S, V, K6).
  rewrite S, K5, VE, RE, X. exact I.
Qed.

(** C85: a doorbell moves the data of exactly the descriptors posted since the last
    one, in ring order; then the status and the interrupt. *)
Theorem C85_moves_partial : forall cpm4 junk hbad cbad s q h2c v n s0 t s',
  junk < 2 ^ 64 -> q < 2 -> v < 2 ^ 32 ->
  let sw := software s q h2c in let p := v mod 65536 in let c := consumed s q h2c in
  c < g_size sw ->
  whole_words h2c (g_base sw) (g_dsz sw) (batch c p (g_size sw)) (q_host s, q_card s) ->
  cfg_write cpm4 s (door cpm4 q h2c) (le_enc 4 v) = Ok (Some (s0, Some t)) ->
  run cpm4 junk hbad cbad n s0 t = Ok s' ->
  p < g_size sw /\ consumed s' q h2c = p /\
  exists s1,
    same2 (q_host s1, q_card s1)
      (all h2c (g_base sw) (g_dsz sw) (batch c p (g_size sw)) (q_host s, q_card s)) /\
    consumed s1 q h2c = p /\ field (software s1 q h2c) 0 16 = p /\
    (forall lo w, 16 <= lo -> field (software s1 q h2c) lo w = field sw lo w) /\
    (forall a b, (a, b) <> (q, if h2c then 1 else 0) -> (a, b) <> (q, if h2c then 3 else 2) ->
       q_ctx s1 a b = q_ctx s a b) /\
    q_ring s1 = q_ring s /\ q_msix s1 = q_msix s /\
    (c = p -> s' = s1) /\
    (c <> p -> 32 <= g_dsz sw /\ completed cpm4 s1 s' q h2c p).
Proof.
  intros cpm4 junk hbad cbad s q h2c v n s0 t s' J Q V sw p c CS W D R.
  rewrite door_starts in D by assumption. fold sw p in D.
  destruct (N.leb_spec (g_size sw) p) as [L|L]; [discriminate|]. apply Ok_inj in D. injection D as D1 D2.
  split; [exact L|].
  destruct (set_pidx_keeps sw p) as (K1 & K2 & K3 & _).
  assert (SW0 : sw_of s0 t = bf_set 0 16 sw p).
  { subst s0 t. unfold sw_of. cbn [t_q t_h2c]. apply ctx_same. }
  assert (HW0 : hw_of s0 t = hardware s q h2c).
  { subst s0 t. unfold hw_of. cbn [t_q t_h2c]. rewrite ctx_other; [reflexivity|].
    destruct h2c; unfold sw_sel, hw_sel; congruence. }
  assert (C0 : hw_cidx (hw_of s0 t) = c) by (rewrite HW0; unfold hw_cidx; now rewrite bf_field).
  assert (M0 : q_host s0 = q_host s /\ q_card s0 = q_card s) by (subst s0; split; reflexivity).
  destruct M0 as [M1 M2].
  assert (TT : t_ph t = Top /\ t_q t = q /\ t_h2c t = h2c /\ t_pidx t = p /\ t_ring t = g_size sw /\ t_dsz t = g_dsz sw)
    by (subst t; repeat split). destruct TT as (T1 & T2 & T3 & T4 & T5 & T6).
  pose proof (run_spec cpm4 junk hbad cbad J (batch c p (g_size sw)) n s0 t s') as RS. cbv zeta in RS.
  rewrite T2, T3, T4, T5, T6, SW0, K3, C0, M1, M2 in RS.
  destruct RS as (s1 & (P1 & P2 & P3 & P4 & P5 & P6) & N1 & N2).
  - exact T1.
  - unfold fits. rewrite SW0, K1, K2, T2, T5, T6. auto.
  - unfold sw_pidx. rewrite bf_set_same. apply N.mod_small. apply N.mod_lt. discriminate.
  - exact L.
  - exact CS.
  - reflexivity.
  - exact W.
  - exact R.
  - rewrite T2, T3 in P4.
    rewrite T3, SW0, K3, T6, M1, M2 in P6.
    assert (CP : consumed s1 q h2c = p).
    { unfold consumed, hardware. rewrite <- P5. unfold hw_cidx, hw_of. rewrite T2, T3, bf_field. reflexivity. }
    assert (S1 : software s1 q h2c = bf_set 0 16 sw p).
    { unfold software. change (if h2c then 1 else 0) with (sw_sel h2c). rewrite P4.
      - subst s0. apply ctx_same.
      - destruct h2c; unfold sw_sel, hw_sel; congruence. }
    assert (EB : batch c p (g_size sw) = [] <-> c = p).
    { split; intro X.
      - destruct (N.eqb_spec c p) as [E|E]; [exact E|]. rewrite batch_cons in X by assumption. discriminate.
      - rewrite X. now apply batch_nil. }
    split.
    { destruct (N.eqb_spec c p) as [E|E].
      - rewrite (N1 (proj2 EB E)). exact CP.
      - destruct N2 as [_ CO]; [intro X; now apply E, EB|].
        destruct CO as (_ & _ & m1 & _ & CO).
        enough (HE : hardware s' q h2c = hardware s1 q h2c) by (unfold consumed in *; now rewrite HE).
        destruct (g_interrupt (software s1 q h2c)).
        + destruct (rings cpm4 s1 q h2c).
          * destruct CO as (_ & _ & _ & _ & _ & E' & _). unfold hardware. apply E'. destruct h2c; congruence.
          * destruct CO as (_ & _ & E' & _). unfold hardware. now rewrite E'.
        + destruct CO as (_ & _ & E' & _). unfold hardware. now rewrite E'. }
    exists s1. split; [exact P6|]. split; [exact CP|].
    split; [rewrite S1, <- bf_field, bf_set_same; apply N.mod_small, N.mod_lt; discriminate|].
    split; [intros lo w LO; rewrite S1, <- !bf_field, bf_set_other by lia; reflexivity|].
    split.
    { intros a b A1 A2. rewrite P4; [|destruct h2c; exact A2]. subst s0. rewrite ctx_other; [reflexivity|].
      destruct h2c; exact A1. }
    split; [rewrite P2; subst s0; reflexivity|]. split; [rewrite P3; subst s0; reflexivity|].
    split; [intro E; apply N1; now apply EB|]. intro E. apply N2. intro X. now apply E, EB.
Qed.

(** Without bus errors the doorbell always comes to an end. *)
Theorem C85_ends : forall cpm4 junk s q h2c v,
  junk < 2 ^ 64 -> q < 2 -> v < 2 ^ 32 ->
  let sw := software s q h2c in
  consumed s q h2c < g_size sw -> v mod 65536 < g_size sw -> 32 <= g_dsz sw ->
  irq_ready cpm4 s q h2c ->
  forall hbad cbad, (forall a, hbad a = false) -> (forall a, cbad a = false) ->
  exists s0 t n s',
    cfg_write cpm4 s (door cpm4 q h2c) (le_enc 4 v) = Ok (Some (s0, Some t)) /\
    run cpm4 junk hbad cbad n s0 t = Ok s'.
Proof.
  intros cpm4 junk s q h2c v J Q V sw CS PS D32 I hbad cbad HB CB.
  pose proof (door_starts cpm4 s q h2c v Q V) as D. cbv zeta in D. fold sw in D.
  destruct (N.leb_spec (g_size sw) (v mod 65536)) as [L|L]; [lia|].
  set (p := v mod 65536) in *. set (s0 := set_ctx _ _ _ _) in *. set (t := mkT _ _ _ _ _ _) in *.
  destruct (set_pidx_keeps sw p) as (K1 & K2 & K3 & _).
  assert (SW0 : sw_of s0 t = bf_set 0 16 sw p) by apply ctx_same.
  assert (HW0 : hw_of s0 t = hardware s q h2c).
  { unfold hw_of, s0. cbn [t_q t_h2c t]. rewrite ctx_other; [reflexivity|].
    destruct h2c; unfold sw_sel, hw_sel; congruence. }
  assert (C0 : hw_cidx (hw_of s0 t) = consumed s q h2c) by (rewrite HW0; unfold hw_cidx; now rewrite bf_field).
  pose proof (run_ok cpm4 junk hbad cbad HB CB J
    (batch (consumed s q h2c) p (g_size sw)) s0 t) as RO. cbv zeta in RO. rewrite C0, SW0 in RO.
  destruct RO as (n & s' & R).
  - reflexivity.
  - unfold fits. rewrite SW0, K1, K2. exact (conj Q (conj eq_refl eq_refl)).
  - unfold sw_pidx. rewrite bf_set_same. apply N.mod_small. apply N.mod_lt. discriminate.
  - exact L.
  - exact CS.
  - reflexivity.
  - exact D32.
  - apply irq_ready_pidx. exact I.
  - exists s0, t, n, s'. split; [exact D|exact R].
Qed.

Definition is_ok {A} (r : res A) : bool := match r with Ok _ => true | _ => false end.
Lemma ok_ex {A} (r : res A) : is_ok r = true -> exists x, r = Ok x.
Proof. destruct r; cbn [is_ok]; try discriminate. eauto. Qed.

(** Witnesses: CPM5, queue 0, host to card, 64 descriptors of 32 bytes at 0x1000,
    interrupt ring 1 at 0x9000, vector 3. *)
Definition w_sw : N :=
  2 ^ 16 + 2 ^ 44 + 2 * 2 ^ 48 + 2 ^ 52 + 2 ^ 53 + 4096 * 2 ^ 64 + 2 ^ 128 + 2 ^ 139.
Definition w_ring : N := 1 + 3 * 2 + 2 ^ 14 + 9 * 2 ^ 15.
Definition w_ctx (cidx : N) : N -> N -> N := fun q sel =>
  if (q =? 0) && (sel =? 1) then w_sw
  else if (q =? 0) && (sel =? 3) then cidx
  else if (q =? 1) && (sel =? 8) then w_ring else 0.
Definition w_desc (m : mem) (i src cnt dst : N) : mem :=
  wr m (4096 + 32 * i) (le_enc 8 src ++ le_enc 8 cnt ++ le_enc 8 dst).
Definition w_data : mem := wr (fun _ => 0) 20480 [1; 2; 3; 4; 5; 6; 7; 8].
Definition never (_ : N) : bool := false.
Definition w_st (cidx : N) (m : mem) : st :=
  mkQ (fun _ => 0) (w_ctx cidx) (fun _ => 0) m (fun _ => 0) [].
Definition w_door (s : st) (p : N) (n : nat) : res st :=
  match cfg_write false s (door false 0 true) (le_enc 4 p) with
  | Ok (Some (s0, Some t)) => run false 0 never never n s0 t
  | _ => Unmodelled
  end.

Example C85_case :
  (* descriptors 63 and 0 *)
  let s := w_st 63 (w_desc (w_desc w_data 63 20480 8 32) 0 20484 4 64) in
  match w_door s 1 20 with
  | Ok s' =>
      rd (q_card s') 32 8 = [1; 2; 3; 4; 5; 6; 7; 8] /\ rd (q_card s') 64 5 = [5; 6; 7; 8; 0] /\
      consumed s' 0 true = 1 /\ rd (q_host s') 6144 8 = [0; 0; 1; 0; 1; 0; 0; 0] /\
      q_msix s' = [3] /\ q_ring s' 1 = 1 /\
      read_notice false (value (q_host s') 36864 8) = mkNotice 0 false 1 1
  | _ => False
  end.
Proof. vm_compute. auto 10. Qed.

(** A count that is no multiple of 4 moves up to 3 bytes too many. *)
Theorem C85_bytes_refuted :
  ~ (forall s p n s', w_door s p n = Ok s' -> consumed s 0 true < 64 ->
     forall x, q_card s' x =
       snd (all true (g_base (software s 0 true)) (g_dsz (software s 0 true))
              (batch (consumed s 0 true) p (g_size (software s 0 true)))
              (q_host s, q_card s)) x).
Proof.
  intro H. set (s := w_st 0 (w_desc w_data 0 20480 5 32)).
  destruct (ok_ex (w_door s 1 20) ltac:(vm_compute; reflexivity)) as [s' E].
  specialize (H s 1 20%nat s' E ltac:(vm_compute; reflexivity) 37).
  assert (A : q_card s' 37 = 6).
  { assert (X : rmap (fun s' => q_card s' 37) (w_door s 1 20) = Ok 6) by (vm_compute; reflexivity).
    rewrite E in X. now apply Ok_inj in X. }
  rewrite A in H. revert H.
  assert (B : snd (all true (g_base (software s 0 true)) (g_dsz (software s 0 true))
              (batch (consumed s 0 true) 1 (g_size (software s 0 true))) (q_host s, q_card s)) 37 = 0)
    by (vm_compute; reflexivity).
  rewrite B. intro H. discriminate H.
Qed.

(** A second doorbell that arrives while the data of a descriptor is being moved:
    the queue ends with both descriptors consumed, the second was never processed. *)
Theorem C85_concurrent_refuted : exists s z,
  d_cnt (q_host s) (4096 + 32 * 1) = 4 /\
  execs false 0 never never (s, [])
    [Write (door false 0 true) (le_enc 4 1); Go 0;
     Write (door false 0 true) (le_enc 4 2); Go 1; Go 0; Go 1; Go 1; Go 0] = Ok z /\
  Forall (fun t => t_ph t = Done) (snd z) /\ length (snd z) = 2%nat /\
  consumed (fst z) 0 true = 2 /\
  rd (q_card (fst z)) (d_dst (q_host s) (4096 + 32 * 1)) 4 = [0; 0; 0; 0] /\
  rd (q_host s) (d_src (q_host s) (4096 + 32 * 1)) 4 = [5; 6; 7; 8].
Proof.
  exists (w_st 0 (w_desc (w_desc w_data 0 20480 4 32) 1 20484 4 64)).
  destruct (ok_ex (execs false 0 never never
    (w_st 0 (w_desc (w_desc w_data 0 20480 4 32) 1 20484 4 64), [])
    [Write (door false 0 true) (le_enc 4 1); Go 0;
     Write (door false 0 true) (le_enc 4 2); Go 1; Go 0; Go 1; Go 1; Go 0])
    ltac:(vm_compute; reflexivity)) as [z E].
  exists z.
  set (T := rmap (fun z => (map t_ph (snd z), consumed (fst z) 0 true, rd (q_card (fst z)) 64 4)) (Ok z)).
  assert (X : T = Ok ([Done; Done], 2, [0; 0; 0; 0])).
  { unfold T. rewrite <- E. vm_compute. reflexivity. }
  unfold T in X. cbn [rmap] in X. apply Ok_inj in X.
  apply pair_equal_spec in X. destruct X as [X X3]. apply pair_equal_spec in X. destruct X as [X1 X2].
  split; [vm_compute; reflexivity|]. split; [exact E|].
  assert (L : length (snd z) = 2%nat) by (rewrite <- (map_length t_ph), X1; reflexivity).
  split.
  { destruct (snd z) as [|t1 [|t2 [|]]]; try discriminate L. cbn [map] in X1.
    injection X1 as Y1 Y2. auto. }
  split; [exact L|]. split; [exact X2|]. split; [|vm_compute; reflexivity].
  assert (DD : d_dst (q_host (w_st 0 (w_desc (w_desc w_data 0 20480 4 32) 1 20484 4 64))) (4096 + 32 * 1) = 64)
    by (vm_compute; reflexivity).
  rewrite DD. exact X3.
Qed.

(** ** C86: a driver that polls the colour finds every entry once, in order. *)
Theorem C86_poll_partial : forall cpm4 junk hbad r s l s', junk < 2 ^ 64 ->
  let R := ring cpm4 s r in
  let B := rg_base R in let S := rg_slots R in
  rg_color R = true -> q_ring s r = 0 ->
  (forall k, k < S -> color_of (slot (q_host s) B S k) = false) ->
  fed cpm4 junk hbad r s l s' ->
  forall k, k <= N.of_nat (length l) -> N.of_nat (length l) <= k + S ->
    (k < N.of_nat (length l) ->
       color_of (slot (q_host s') B S k) = awaited S k /\
       nth_error l (N.to_nat k) = Some (read_notice cpm4 (slot (q_host s') B S k))) /\
    (k = N.of_nat (length l) -> color_of (slot (q_host s') B S k) <> awaited S k).
Proof.
  intros cpm4 junk hbad r s l s' J R B S C I Z F k K1 K2.
  pose proof (fed_inv cpm4 junk hbad r s l s' J C I Z F) as (_ & _ & _ & _ & E & G).
  fold R in E, G. fold B S in E, G.
  pose proof (slots_pos cpm4 (q_ctx s r 8)) as [S1 S2]. fold (ring cpm4 s r) in S1, S2. fold R in S1, S2. fold S in S1, S2.
  split; [intro L; now apply E|]. intros ->.
  set (n := N.of_nat (length l)) in *.
  destruct (N.lt_ge_cases n S) as [L|L].
  - rewrite G by lia. unfold awaited. rewrite N.div_small by assumption. discriminate.
  - destruct (E (n - S) ltac:(lia) ltac:(lia)) as [X _].
    assert (M : slot (q_host s') B S (n - S) = slot (q_host s') B S n).
    { unfold slot. replace n with (n - S + 1 * S) at 2 by lia. now rewrite N.mod_add by lia. }
    rewrite M in X. rewrite X. unfold awaited. replace n with (n - S + 1 * S) at 2 by lia.
    rewrite N.div_add by lia. rewrite N.add_1_r, N.even_succ, <- N.negb_even.
    now destruct (N.even ((n - S) / S)).
Qed.

Definition w_thr (p : N) : thr := mkT 0 true p 32 8192 Copied.
Example C86_case :
  match aggregate false 0 never (w_st 7 (fun _ => 0)) (w_thr 7) with
  | Ok s1 =>
      match aggregate false 0 never (set_ctx s1 0 3 9) (w_thr 9) with
      | Ok s2 =>
          read_notice false (slot (q_host s2) 36864 512 0) = mkNotice 0 false 7 7 /\
          read_notice false (slot (q_host s2) 36864 512 1) = mkNotice 0 false 9 9 /\
          map (fun k => color_of (slot (q_host s2) 36864 512 k)) [0; 1; 2] = [true; true; false]
      | _ => False
      end
  | _ => False
  end.
Proof. vm_compute. auto. Qed.

(** The producer index of an entry has lost its upper bits: 12 bits in the context. *)
Theorem C86_pidx_refuted : exists s t s',
  t_pidx t < descriptors 13 /\ aggregate false 0 never s t = Ok s' /\
  n_pidx (read_notice false (slot (q_host s') 36864 512 0)) <> t_pidx t.
Proof.
  exists (w_st 7 (fun _ => 0)), (w_thr 5000).
  destruct (ok_ex (aggregate false 0 never (w_st 7 (fun _ => 0)) (w_thr 5000))
    ltac:(vm_compute; reflexivity)) as [s' E].
  exists s'. split; [vm_compute; reflexivity|]. split; [exact E|].
  assert (X : rmap (fun s' => n_pidx (read_notice false (slot (q_host s') 36864 512 0)))
    (aggregate false 0 never (w_st 7 (fun _ => 0)) (w_thr 5000)) = Ok 904) by (vm_compute; reflexivity).
  rewrite E in X. cbn [rmap] in X. apply Ok_inj in X. rewrite X. intro H. discriminate H.
Qed.

(** On CPM4 the error-interrupt bit of an entry is whatever was on the stack. *)
Theorem C86_error_bit_refuted : forall b : bool, exists junk,
  junk < 2 ^ 64 /\ flag (mk_entry true junk 0 0 1 7 7) 50 = b.
Proof.
  intros [|].
  - exists (2 ^ 50). split; vm_compute; reflexivity.
  - exists 0. split; vm_compute; reflexivity.
Qed.

(** ** C87: contexts *)
Theorem C87_command : forall cpm4 s q cmd sel, q < 2 -> cmd < 4 -> sel <= 8 \/ sel = 12 ->
  (forall i, i < 8 -> q_regs s (data_reg i) < 2 ^ 32) ->
  exists s', cfg_write cpm4 s (cmd_addr cpm4) (le_enc 4 (command q cmd sel)) = Ok (Some (s', None)) /\
    obeyed cpm4 s s' q cmd sel.
Proof.
  intros cpm4 s q cmd sel Q C K D.
  destruct (command_fields q cmd sel ltac:(lia) C ltac:(lia)) as (_ & _ & _ & F4).
  destruct (ctxt_cmd_spec cpm4 s q cmd sel (command q cmd sel) Q C K D) as (s1 & E & O).
  rewrite cfg_cmd by exact F4. rewrite E. cbn [rmap]. eexists. split; [reflexivity|exact O].
Qed.

(** What was written to a context is read back, whatever other registers and
    contexts were accessed in between. *)
Theorem C87_readback : forall cpm4 junk hbad cbad version s q sel s1 ts ws s2 ts2 s3,
  q < 2 -> sel <= 8 \/ sel = 12 ->
  (forall i, i < 8 -> q_regs s (data_reg i) < 2 ^ 32) ->
  (forall i, i < 8 -> q_regs s2 (data_reg i) < 2 ^ 32) ->
  cfg_write cpm4 s (cmd_addr cpm4) (le_enc 4 (command q 1 sel)) = Ok (Some (s1, None)) ->
  Forall (fun w => bystander cpm4 q sel (fst w) (snd w)) ws ->
  execs cpm4 junk hbad cbad (s1, ts) (map (fun w => Write (fst w) (snd w)) ws) = Ok (s2, ts2) ->
  cfg_write cpm4 s2 (cmd_addr cpm4) (le_enc 4 (command q 2 sel)) = Ok (Some (s3, None)) ->
  forall i, i < 8 -> cfg_read version s3 (2052 + 4 * i) 4 = cfg_read version s (2052 + 4 * i) 4.
Proof.
  intros cpm4 junk hbad cbad version s q sel s1 ts ws s2 ts2 s3 Q K D D2 W F X R i I.
  destruct (C87_command cpm4 s q 1 sel Q ltac:(lia) K D) as (s1' & W' & O1).
  rewrite W in W'. apply Ok_inj in W'. injection W' as <-.
  destruct (C87_command cpm4 s2 q 2 sel Q ltac:(lia) K D2) as (s3' & R' & O2).
  rewrite R in R'. apply Ok_inj in R'. injection R' as <-.
  pose proof (bystanders_keep _ _ _ _ _ _ _ _ _ _ _ F X) as E.
  destruct O1 as (_ & _ & _ & _ & _ & _ & _ & A & _). specialize (A eq_refl i I).
  destruct O2 as (_ & _ & _ & _ & _ & _ & _ & _ & B & _). destruct (B eq_refl) as [_ B2]. specialize (B2 i I).
  unfold cfg_read. replace ((2052 + 4 * i) / 4) with (data_reg i) by (unfold data_reg; dm).
  destruct (N.leb_spec NREGS (data_reg i)); [reflexivity|].
  destruct (data_reg i =? R_GLBL2_MISC_CAP); [reflexivity|].
  rewrite B2, E, A. reflexivity.
Qed.

Example C87_case :
  let s := mkQ (fun x => x) (fun _ _ => 0) (fun _ => 5) (fun _ => 0) (fun _ => 0) [] in
  match cfg_write false s 2116 (le_enc 4 (command 1 1 8)) with
  | Ok (Some (s1, None)) =>
      (* valid in word 0: the ring starts afresh *)
      q_ring s1 1 = 0 /\ q_ring s1 0 = 5 /\
      match cfg_write false (set_reg s1 513 0) 2116 (le_enc 4 (command 1 2 8)) with
      | Ok (Some (s2, None)) => map (q_regs s2) [512; 513; 520; 521] = [512; 513; 520; 521]
      | _ => False
      end
  | _ => False
  end.
Proof. vm_compute. auto. Qed.

(** The index of an interrupt context is not checked: any larger one is an access out
    of the array. *)
Theorem C87_index_refuted : forall cpm4 s q cmd, 2 <= q -> q < 8192 -> cmd < 4 ->
  cfg_write cpm4 s (cmd_addr cpm4) (le_enc 4 (command q cmd 8)) = UB.
Proof.
  intros cpm4 s q cmd Q Q2 C. destruct (command_fields q cmd 8 Q2 C ltac:(lia)) as (F1 & F2 & F3 & F4).
  rewrite cfg_cmd by exact F4. unfold ctxt_cmd. rewrite F1, F2, F3.
  change (8 =? SELC_INT_COAL) with true. cbv beta iota zeta. change QDMA_QUEUE_COUNT with 2.
  destruct (N.leb_spec 2 q); [reflexivity|lia].
Qed.
(** So is the doorbell of queue 2: the test is for more than QDMA_QUEUE_COUNT. *)
Theorem C87_door_refuted : forall cpm4 s h2c d, length d = 4%nat ->
  cfg_write cpm4 s (door cpm4 2 h2c) d = UB.
Proof. intros cpm4 s h2c d L. unfold cfg_write. rewrite L. destruct cpm4, h2c; reflexivity. Qed.

(** ** C88: registers *)
Theorem C88_readonly : forall cpm4 junk hbad cbad version s ts l s' ts',
  execs cpm4 junk hbad cbad (s, ts) (Reset :: l) = Ok (s', ts') ->
  cfg_read version s' 0 4 = Ok (Some (le_enc 4 533921793)) /\
  cfg_read version s' 308 4 = Ok (Some (le_enc 4 version)).
Proof.
  intros cpm4 junk hbad cbad version s ts l s' ts' H. cbn [execs exec rbind] in H.
  pose proof (execs_reg0 _ _ _ _ _ (reset s, ts) _ (eq_refl : q_regs (reset s) 0 = 533921793) H) as E.
  cbn [fst] in E. unfold cfg_read. change (4 <? 4)%nat with false. change (0 / 4) with 0. change (308 / 4) with 77.
  change (NREGS <=? 0) with false. change (NREGS <=? 77) with false.
  change (0 =? R_GLBL2_MISC_CAP) with false. change (77 =? R_GLBL2_MISC_CAP) with true. cbv beta iota zeta.
  rewrite E. rewrite !firstn_all2 by (rewrite le_enc_length; lia). split; reflexivity.
Qed.

Definition plain (cpm4 : bool) (i : N) : Prop :=
  i < 98304 /\ i <> 0 /\ i <> 77 /\ i <> 177 /\ i <> cmd_addr cpm4 / 4 /\
  (i < door cpm4 0 true / 4 - 1 \/ door cpm4 2 false / 4 + 1 < i).

Theorem C88_register_partial : forall cpm4 version s i v, plain cpm4 i -> v < 2 ^ 32 ->
  exists s', cfg_write cpm4 s (4 * i) (le_enc 4 v) = Ok (Some (s', None)) /\
    cfg_read version s' (4 * i) 4 = Ok (Some (le_enc 4 v)) /\
    (forall j, j <> i -> q_regs s' j = q_regs s j) /\
    q_ctx s' = q_ctx s /\ q_host s' = q_host s /\ q_card s' = q_card s /\ q_msix s' = q_msix s.
Proof.
  intros cpm4 version s i v (P1 & P2 & P3 & P4 & P5 & P6) V.
  unfold cfg_write. rewrite le_enc_length, le_dec_enc. change (256 ^ N.of_nat 4) with (2 ^ 32).
  rewrite (N.mod_small v) by assumption. change (4 <? 4)%nat with false.
  replace (4 * i / 4) with i by dm.
  assert (RG : (DMAP cpm4 / 4 <=? i) && (i <=? (DMAP cpm4 + 12 + 16 * QDMA_QUEUE_COUNT) / 4) = false).
  { apply andb_false_iff. rewrite !N.leb_gt. destruct cpm4.
    - change (DMAP true / 4) with 6400. change ((DMAP true + 12 + 16 * QDMA_QUEUE_COUNT) / 4) with 6411.
      change (door true 0 true / 4 - 1) with 6400 in P6. change (door true 2 false / 4 + 1) with 6411 in P6. lia.
    - change (DMAP false / 4) with 24576. change ((DMAP false + 12 + 16 * QDMA_QUEUE_COUNT) / 4) with 24587.
      change (door false 0 true / 4 - 1) with 24576 in P6. change (door false 2 false / 4 + 1) with 24587 in P6. lia. }
  rewrite RG. replace (R_IND_CTXT_CMD cpm4) with (cmd_addr cpm4 / 4) by (now destruct cpm4).
  rewrite (proj2 (N.eqb_neq _ _) P5). change R_CONFIG_BLOCK_IDENT with 0. change R_GLBL2_MISC_CAP with 77.
  change R_GLBL_INTR_CFG with 177. change NREGS with 98304.
  rewrite (proj2 (N.eqb_neq _ _) P2), (proj2 (N.eqb_neq _ _) P3), (proj2 (N.eqb_neq _ _) P4). cbn [orb].
  assert (L : (98304 <=? i) = false) by (apply N.leb_gt; exact P1). rewrite L.
  eexists. split; [reflexivity|]. split.
  - unfold cfg_read. change (4 <? 4)%nat with false. replace (4 * i / 4) with i by dm. change NREGS with 98304.
    rewrite L. change R_GLBL2_MISC_CAP with 77. rewrite (proj2 (N.eqb_neq _ _) P3).
    unfold set_reg. cbn [q_regs set_regs]. rewrite upd_same, firstn_all2 by (rewrite le_enc_length; lia). reflexivity.
  - split; [|repeat split]. intros j J. unfold set_reg. cbn [q_regs set_regs]. now apply upd_other.
Qed.

Example C88_case :
  match cfg_write true (w_st 0 (fun _ => 0)) 512 [1; 2; 3; 4] with
  | Ok (Some (s, None)) => cfg_read 9 s 512 4 = Ok (Some [1; 2; 3; 4]) /\
      cfg_read 9 (reset s) 0 4 = Ok (Some [1; 0; 211; 31])
  | _ => False
  end.
Proof. vm_compute. auto. Qed.

(** A shorter write clears the rest of the register, and goes to its first byte. *)
Theorem C88_short_refuted : exists s s',
  cfg_read 0 s 512 4 = Ok (Some [1; 2; 3; 4]) /\
  cfg_write true s 514 [9] = Ok (Some (s', None)) /\
  cfg_read 0 s' 512 4 = Ok (Some [9; 0; 0; 0]).
Proof.
  set (s := set_reg (w_st 0 (fun _ => 0)) 128 67305985).
  exists s, (set_reg s 128 9). split; [vm_compute; reflexivity|]. split; [reflexivity|].
  vm_compute. reflexivity.
Qed.
(** Nothing checks the address against the array of registers. *)
Theorem C88_range_refuted : forall cpm4 s addr d, 393216 <= addr -> length d = 4%nat ->
  cfg_write cpm4 s addr d = UB.
Proof.
  intros cpm4 s addr d A L. unfold cfg_write. rewrite L. change (4 <? 4)%nat with false.
  assert (I : 98304 <= addr / 4) by dm. set (i := addr / 4) in *. clearbody i.
  assert (RG : (DMAP cpm4 / 4 <=? i) && (i <=? (DMAP cpm4 + 12 + 16 * QDMA_QUEUE_COUNT) / 4) = false).
  { apply andb_false_iff. rewrite !N.leb_gt. right. destruct cpm4.
    - change ((DMAP true + 12 + 16 * QDMA_QUEUE_COUNT) / 4) with 6411. lia.
    - change ((DMAP false + 12 + 16 * QDMA_QUEUE_COUNT) / 4) with 24587. lia. }
  rewrite RG.
  assert (C : (i =? R_IND_CTXT_CMD cpm4) = false).
  { apply N.eqb_neq. destruct cpm4; [change (R_IND_CTXT_CMD true) with 521|change (R_IND_CTXT_CMD false) with 529]; lia. }
  rewrite C. change R_CONFIG_BLOCK_IDENT with 0. change R_GLBL2_MISC_CAP with 77. change R_GLBL_INTR_CFG with 177.
  destruct (N.eqb_spec i 0); [lia|]. destruct (N.eqb_spec i 77); [lia|]. destruct (N.eqb_spec i 177); [lia|].
  cbn [orb]. change NREGS with 98304. destruct (N.leb_spec 98304 i); [reflexivity|lia].
Qed.

Print Assumptions C85_moves_partial.
Print Assumptions C85_ends.
Print Assumptions C85_bytes_refuted.
Print Assumptions C85_concurrent_refuted.
Print Assumptions C86_poll_partial.
Print Assumptions C86_pidx_refuted.
Print Assumptions C86_error_bit_refuted.
Print Assumptions C87_command.
Print Assumptions C87_readback.
Print Assumptions C87_index_refuted.
Print Assumptions C87_door_refuted.
Print Assumptions C88_readonly.
Print Assumptions C88_register_partial.
Print Assumptions C88_short_refuted.
Print Assumptions C88_range_refuted.
