(** C92: the flits of the CHI bridges. *)
From Verif Require Import Base BaseFacts LeFacts ChiFlitModel ChiFlitSpec ChiFlitProofs.
From Coq Require Import Lia ZifyN ZifyNat ZifyBool.
Open Scope N_scope.

(** A position given two ways. *)
Ltac here H := match type of H with
  | field ?f ?p ?w = _ => match goal with
    | |- bits_of _ ?q ?w' = _ => apply held_bits; replace q with p by (clear; lia); exact H
    | |- bit_of _ ?q = _ => apply held_bit; replace q with p by (clear; lia); exact H
    end end.

(** ** Responses *)
Theorem C92_rsp n x : n <= 16 -> rsp_fits n x ->
  exists f, rsp_create n x = Ok f /\ rsp_at n f x /\
    rsp_parse n f = Ok x /\ ck_rsp_parse n f = Ok x.
Proof.
  intros Hn (F1 & F2 & F3 & F4 & F5 & F6 & F7 & F8 & F9 & F10).
  assert (Wl : Forall well (rsp_fields n x)).
  { unfold rsp_fields. all_well. }
  assert (Sp : 0 + span (rsp_fields n x) <= rsp_width n)
    by (unfold rsp_width; cbn [rsp_fields span width]; lia).
  destruct (sets_ok (rsp_width n) (rsp_fields n x) 0 0 Wl Sp) as (f & E & H & _).
  exists f. split. { unfold rsp_create. rewrite E. reflexivity. }
  assert (P : rsp_parse n f = Ok x).
  { unfold rsp_parse. rewrite (gets_ok false (rsp_width n) (rsp_fields n x) (rsp_reads n) f 0).
    - cbn [rbind rsp_fields map val rsp_of]. rewrite isb_b2n. destruct x; reflexivity.
    - assert (2 ^ n <= 2 ^ 16) by (apply N.pow_le_mono_r; [discriminate|exact Hn]).
      unfold rsp_reads, rsp_fields.
      repeat (apply Forall2_cons; [cbn [matches bits]; repeat split; try assumption;
        try lia; try (eapply N.lt_le_trans; [eassumption|]; try assumption;
        apply N.pow_le_mono_r; [discriminate|lia])|]). apply Forall2_nil.
    - exact Sp.
    - exact H. }
  split; [|split; [exact P|exact P]].
  cbn [holds rsp_fields width val] in H.
  destruct H as (H1 & H2 & H3 & H4 & H5 & H6 & H7 & H8 & H9 & H10 & H11 & _).
  unfold rsp_at. repeat split; first [here H1|here H2|here H3|here H4|here H5|here H6|here H7|
    here H8|here H9|here H10|here H11].
Qed.
Example C92_rsp_case :
  rsp_create 7 (mkRsp 15 5 100 200 4 1 2 3 77 9 true) = Ok 1780497267236959 /\
  rsp_parse 7 1780497267236959 = Ok (mkRsp 15 5 100 200 4 1 2 3 77 9 true).
Proof. vm_compute. split; reflexivity. Qed.

Ltac qlia := repeat match goal with
  | H : context [N.pow] |- _ => clear H
  | H : context [N.testbit] |- _ => clear H
  | H : context [get_size] |- _ => clear H
  | H : context [N.shiftr] |- _ => clear H
  | H : context [span] |- _ => clear H
  end; lia.
Ltac fits := first [reflexivity | assumption | discriminate | solve [qlia]
  | solve [eapply N.lt_le_trans; [eassumption|]; apply N.pow_le_mono_r; [discriminate|qlia]]
  | idtac].
Ltac all_fit := repeat (apply Forall_cons; [cbn [well]; repeat split; cbn [shifts bits]; fits|]);
  try apply Forall_nil.
Ltac all_match := repeat (apply Forall2_cons; [cbn [matches bits shifts]; repeat split; fits|]);
  try apply Forall2_nil.

(** ** Snoops *)
Theorem C92_snp n a x : n <= 16 -> a <= 61 -> snp_fits n a x ->
  exists f, snp_create n a x = Ok f /\ snp_at n a f x /\ snp_parse n a f = Ok x.
Proof.
  intros Hn Ha (F1 & F2 & F3 & F4 & F5 & F6 & F7 & F8).
  assert (A1 : N.shiftr (s_addr x) 3 < 2 ^ a).
  { rewrite N.shiftr_div_pow2. apply N.div_lt_upper_bound; [discriminate|].
    rewrite <- N.pow_add_r, N.add_comm. exact F7. }
  assert (A2 : 8 * N.shiftr (s_addr x) 3 = s_addr x).
  { rewrite N.shiftr_div_pow2. change (2 ^ 3) with 8.
    pose proof (N.div_mod (s_addr x) 8 ltac:(discriminate)). lia. }
  assert (Wl : Forall well (snp_fields n a x)).
  { unfold snp_fields. all_fit. }
  assert (Sp : 0 + span (snp_fields n a x) <= snp_width n a)
    by (unfold snp_width; cbn [snp_fields span width]; lia).
  destruct (sets_ok (snp_width n a) (snp_fields n a x) 0 0 Wl Sp) as (f & E & H & _).
  exists f. split. { unfold snp_create. rewrite E. reflexivity. }
  assert (P : snp_parse n a f = Ok x).
  { unfold snp_parse. rewrite (gets_ok true (snp_width n a) (snp_fields n a x) (snp_reads n a) f 0).
    - cbn [rbind snp_fields map val snp_of]. rewrite !isb_b2n.
      rewrite (N.mod_small (s_ftxn x)) by exact F5.
      rewrite N.shiftl_mul_pow2. change (2 ^ 3) with 8. rewrite N.mul_comm, A2.
      rewrite N.mod_small; [destruct x; reflexivity|].
      eapply N.lt_le_trans; [exact F7|]. apply N.pow_le_mono_r; [discriminate|lia].
    - unfold snp_reads, snp_fields. all_match.
    - exact Sp.
    - exact H. }
  split; [|exact P].
  cbn [holds snp_fields width val] in H.
  destruct H as (H1 & H2 & H3 & H4 & H5 & H6 & H7 & H8 & H9 & H10 & H11 & _).
  unfold snp_at. repeat split; try first [here H1|here H2|here H3|here H4|here H5|here H6|
    here H8|here H9|here H10|here H11].
  assert (B : bits_of f (25 + 2 * n) a = N.shiftr (s_addr x) 3) by here H7.
  rewrite B. exact A2.
Qed.
Example C92_snp_case :
  rbind (snp_create 7 41 (mkSnp 1 2 3 4 5 6 (17592186044408) true false true false))
    (snp_parse 7 41) = Ok (mkSnp 1 2 3 4 5 6 17592186044408 true false true false).
Proof. vm_compute. reflexivity. Qed.

(** The checker's parser of the same flit: undefined at the usual address width. *)
Theorem C92_checker_snp_refuted :
  exists x f, snp_fits 7 41 x /\ snp_create 7 41 x = Ok f /\ ck_snp_parse 7 41 f = UB.
Proof.
  exists (mkSnp 1 2 3 4 5 6 64 true false true false). eexists.
  split; [vm_compute; repeat split; reflexivity|]. split; [vm_compute; reflexivity|].
  vm_compute. reflexivity.
Qed.

(** ** Requests *)
Theorem C92_req_partial n a r x : n <= 16 -> a < 31 -> r < 31 -> req_fits n a r x ->
  exists f, req_create n a r x = Ok f /\ req_at n a r f x /\
    req_parse n a r f = Ok x /\ ck_req_parse n a r f = Ok x.
Proof.
  intros Hn Ha Hr (F1 & F2 & F3 & F4 & F5 & F6 & F7 & F8 & F9 & F10 & F11 & F12 & F13).
  destruct F8 as (i & I & F8).
  assert (SZ : get_size (q_len x) = i) by (rewrite F8; apply size_ok, I).
  assert (SI : get_size (q_len x) < 2 ^ 3) by (rewrite SZ; change (2 ^ 3) with 8; lia).
  destruct (memattr_ok x) as (M0 & M3 & M2 & M1 & M4).
  assert (Wl : Forall well (req_fields n a r x)).
  { unfold req_fields. cbn [app]. all_fit. destruct (r =? 0); all_fit. }
  assert (Sp : 0 + span (req_fields n a r x) <= req_width n a r).
  { clear. unfold req_width. cbn [req_fields app span width].
    destruct (r =? 0) eqn:R; cbn [span width]; lia. }
  destruct (sets_ok (req_width n a r) (req_fields n a r x) 0 0 Wl Sp) as (f & E & H & O).
  exists f. split. { unfold req_create. rewrite E. reflexivity. }
  assert (RZ : (r =? 0) = true -> q_rsvdc x = 0).
  { intros R. apply N.eqb_eq in R. subst r. change (2 ^ 0) with 1 in F13. lia. }
  assert (Q : req_of (map val (req_fields n a r x)) = Ok x).
  { unfold req_fields. cbn [app map val req_of]. rewrite !isb_b2n, SZ, M1, M2, M3, M4.
    rewrite (N.mod_small (q_lpid x)) by (clear - F12; change (2 ^ 5) with 32 in F12; change (2 ^ 8) with 256; lia).
    rewrite <- F8. destruct (r =? 0) eqn:R; cbn [map val];
      [rewrite <- (RZ eq_refl)|]; destruct x; reflexivity. }
  assert (P : req_parse n a r f = Ok x).
  { unfold req_parse. rewrite (gets_ok false (req_width n a r) (req_fields n a r x) (req_reads n a r) f 0).
    - exact Q.
    - unfold req_reads, req_fields. cbn [app]. all_match. destruct (r =? 0); all_match.
    - exact Sp.
    - exact H. }
  assert (C : ck_req_parse n a r f = Ok x).
  { unfold ck_req_parse. rewrite (gets_ok false (req_width n a r) (req_fields n a r x)).
    - exact Q.
    - unfold req_fields. cbn [app]. all_match. destruct (r =? 0); all_match.
    - exact Sp.
    - exact H. }
  split; [|split; [exact P|exact C]].
  unfold req_fields in H. cbn [app holds width val] in H.
  destruct H as (H1 & H2 & H3 & H4 & H5 & H6 & H7 & H8 & H9 & H10 & H11 & H12 & H13 & H14 & H15
    & H16 & H17 & H18 & H19 & H20 & H21 & H22).
  assert (MB : forall o, o < 4 -> bit_of f (39 + 3 * n + a + o) = N.testbit (memattr x) o).
  { intros o L. rewrite <- H16. rewrite field_testbit. rewrite (proj2 (N.ltb_lt o 4) L).
    unfold bit_of. f_equal. clear. lia. }
  unfold req_at.
  assert (B27 : bits_of f (27 + 3 * n) 3 = get_size (q_len x)) by here H9.
  assert (B52 : bits_of f (52 + 3 * n + a) r = q_rsvdc x).
  { destruct (r =? 0) eqn:R.
    - rewrite (RZ eq_refl). apply N.eqb_eq in R. subst r. unfold bits_of. apply N.mod_1_r.
    - destruct H22 as [H22 _]. here H22. }
  repeat split; try exact B52; try first [here H1|here H2|here H3|here H4|here H5|here H6|here H7|
    here H8|here H10|here H11|here H12|here H13|here H14|here H15|here H17|here H18|here H19|
    here H20|here H21].
  - rewrite B27, SZ. symmetry. exact F8.
  - replace (39 + 3 * n + a) with (39 + 3 * n + a + 0) by (clear; lia). rewrite MB by reflexivity. exact M4.
  - replace (40 + 3 * n + a) with (39 + 3 * n + a + 1) by (clear; lia). rewrite MB by reflexivity. exact M1.
  - replace (41 + 3 * n + a) with (39 + 3 * n + a + 2) by (clear; lia). rewrite MB by reflexivity. exact M2.
  - replace (42 + 3 * n + a) with (39 + 3 * n + a + 3) by (clear; lia). rewrite MB by reflexivity. exact M3.
Qed.
Definition areq : req :=
  mkReq 3 11 12 13 14 true 15 4 32 4096 false true false 2 5 true false true false true 17
    false true false 9.
Example C92_req_case :
  rbind (req_create 7 30 4 areq) (req_parse 7 30 4) = Ok areq.
Proof. vm_compute. reflexivity. Qed.

(** With the bridges' default widths the request's RSVDC field is undefined behaviour when
    sent, and with a smaller one the address is when received. *)
Theorem C92_req_refuted :
  req_fits 7 44 32 areq /\ req_create 7 44 32 areq = UB /\
  exists f, req_create 7 44 4 areq = Ok f /\ req_at 7 44 4 f areq /\
    req_parse 7 44 4 f = UB /\ ck_req_parse 7 44 4 f = UB.
Proof.
  split. { repeat split; try reflexivity. exists 5. split; [discriminate|reflexivity]. }
  split; [vm_compute; reflexivity|]. eexists. split; [vm_compute; reflexivity|].
  split; [vm_compute; repeat split; reflexivity|]. vm_compute. split; reflexivity.
Qed.
(** A length that is no power of two is sent as one byte. *)
Theorem C92_size_refuted :
  exists f y, req_create 7 30 4 (mkReq 3 11 12 13 14 true 15 4 24 4096 false true false 2 5
      true false true false true 17 false true false 9) = Ok f /\
    req_parse 7 30 4 f = Ok y /\ q_len y = 1.
Proof. do 2 eexists. split; [vm_compute; reflexivity|]. split; vm_compute; reflexivity. Qed.

(** ** Data *)
Definition dat_ready (p : dpar) (k : dpkt) : Prop :=
  w_n p <= 16 /\ w_o p <= 8 /\ w_r p < 31 /\ w_k p < 31 /\ w_z p <= 8 /\
  k_pos k = 0 /\ k_sent k = 0 /\ k_len k <= w_b p /\
  (N.to_nat (k_len k) < length (k_buf k))%nat /\ bytes_ok (k_buf k) /\
  (k_len k = w_b p -> 8 <= w_k p + w_z p).
Lemma dat_round t p k : dat_fits p (k_attr k) -> dat_ready p k -> w_r p <= bits t ->
  exists f k' y, dat_create p k = Ok (f, k') /\ dat_done k' = true /\ dat_parse t p f = Ok y /\
    same_attr (k_attr k) y /\ same_data (w_b p) (k_buf k) (k_len k) (k_be k) y.
Proof.
  intros (F1 & F2 & F3 & F4 & F5 & F6 & F7 & F8 & F9 & F10 & F11 & F12 & F13 & F14)
    (Wn & Wo & Wr & Wk & Wz & K0 & S0 & Len & Buf & By & Ex) Wt.
  set (W := dat_width p).
  set (B := fun i => lane_on (k_be k) (k_len k) (k_sent k) i).
  set (bl := map (fun i => FB (B i)) (seq 0 (N.to_nat (w_b p)))).
  assert (HH : span (dat_head p k) = 33 + 3 * w_n p + w_o p + w_r p).
  { clear. unfold dat_head. rewrite span_app. cbn [span width].
    destruct (w_r p =? 0) eqn:E; cbn [span width]; lia. }
  assert (HT : span (dat_tail p k) = w_k p + w_z p).
  { clear. unfold dat_tail. rewrite span_app.
    destruct (w_k p =? 0) eqn:E, (w_z p =? 0) eqn:E'; cbn [span width]; lia. }
  assert (HB : span bl = w_b p) by (unfold bl; rewrite span_bits, seq_length; apply N2Nat.id).
  assert (HW : W = span (dat_head p k) + w_b p + 8 * w_b p + span (dat_tail p k)).
  { rewrite HH, HT. unfold W, dat_width. clear. lia. }
  assert (DI : k_sent k / w_b p mod 2 ^ 8 = 0).
  { rewrite S0. destruct (w_b p); reflexivity. }
  assert (RZ : (w_r p =? 0) = true -> d_rsvdc (k_attr k) = 0).
  { intros R. apply N.eqb_eq in R. rewrite R in F12. change (2 ^ 0) with 1 in F12.
    clear - F12. lia. }
  assert (KZ : (w_k p =? 0) = true -> d_check (k_attr k) = 0).
  { intros R. apply N.eqb_eq in R. rewrite R in F13. change (2 ^ 0) with 1 in F13.
    clear - F13. lia. }
  assert (ZZ : (w_z p =? 0) = true -> d_poison (k_attr k) = 0).
  { intros R. apply N.eqb_eq in R. rewrite R in F14. change (2 ^ 0) with 1 in F14.
    clear - F14. lia. }
  assert (WH : Forall well (dat_head p k)).
  { unfold dat_head. rewrite DI. cbn [app]. all_fit. destruct (w_r p =? 0); all_fit. }
  assert (WT : Forall well (dat_tail p k)).
  { unfold dat_tail. destruct (w_k p =? 0), (w_z p =? 0); cbn [app]; all_fit. }
  set (h := span (dat_head p k)) in *.
  assert (I1 : 0 + h <= W) by (rewrite HW; clear; lia).
  destruct (sets_ok W (dat_head p k) 0 0 WH I1) as (f1 & E1 & H1 & O1).
  fold h in E1. rewrite N.add_0_l in E1.
  assert (I2 : h + span bl <= W) by (rewrite HB, HW; clear; lia).
  destruct (sets_ok W bl f1 h (well_bits B _) I2) as (f2 & E2 & H2 & O2).
  rewrite HB in E2, O2.
  assert (MN : N.min (k_len k) (w_b p) = k_len k) by (clear - Len; lia).
  assert (I3 : h + w_b p + 8 * N.of_nat (S (N.to_nat (k_len k))) <= W).
  { rewrite HW, HT. clear - Len Ex.
    destruct (N.eq_dec (k_len k) (w_b p)) as [C|C]; [specialize (Ex C)|]; lia. }
  destruct (lanes_ok W (S (N.to_nat (k_len k))) (k_buf k) f2 (h + w_b p) Buf I3 By)
    as (f3 & E3 & H3 & O3).
  assert (I4 : h + w_b p + 8 * w_b p + span (dat_tail p k) <= W) by (rewrite HW; reflexivity).
  destruct (sets_ok W (dat_tail p k) f3 (h + w_b p + 8 * w_b p) WT I4) as (f4 & E4 & H4 & O4).
  assert (G1 : holds f4 0 (dat_head p k)).
  { apply (holds_frame f1); [exact H1|]. fold h. intros a q _ L.
    rewrite O4, O3, O2 by (left; clear - L; lia). reflexivity. }
  assert (G2 : holds f4 h bl).
  { apply (holds_frame f2); [exact H2|]. rewrite HB. intros a q _ L.
    rewrite O4, O3 by (left; clear - L; lia). reflexivity. }
  assert (G3 : forall i, (i < N.to_nat (k_len k))%nat ->
    field f4 (h + w_b p + 8 * N.of_nat i) 8 = nth i (k_buf k) 0).
  { intros i L. rewrite O4 by (left; clear - L Len; lia). apply H3. clear - L; lia. }
  set (y := mkDat (d_qos (k_attr k)) (d_tgt (k_attr k)) (d_src (k_attr k)) (d_txn (k_attr k))
    (d_home (k_attr k)) (d_opc (k_attr k)) (d_err (k_attr k)) (d_resp (k_attr k))
    (d_fwd (k_attr k)) (d_dbid (k_attr k)) (d_ccid (k_attr k)) 0 (d_trace (k_attr k))
    (d_rsvdc (k_attr k)) (map B (seq 0 (N.to_nat (w_b p))))
    (map (fun i => field f4 (h + w_b p + 8 * N.of_nat i) 8) (seq 0 (N.to_nat (w_b p))))
    (d_check (k_attr k)) (d_poison (k_attr k))).
  exists f4. eexists. exists y. split; [|split; [|split; [|split]]].
  - unfold dat_create. rewrite K0. cbn [N.eqb negb]. fold W. rewrite E1. cbn [rbind].
    change (set_be W p k (f1, h)) with (sets W (f1, h) bl). rewrite E2. cbn [rbind]. unfold set_data, rmap.
    rewrite MN, E3. cbn [rbind]. rewrite E4. cbn [rbind fst snd]. reflexivity.
  - unfold dat_done. cbn [k_len k_sent]. rewrite S0. apply N.leb_le. exact Len.
  - assert (T : total (dat_reads t p) = h).
    { rewrite HH. clear. unfold dat_reads, total. cbn [app fold_right rwidth].
      destruct (w_r p =? 0) eqn:E; cbn [fold_right rwidth]; lia. }
    unfold dat_parse. fold W. rewrite T.
    rewrite (gets_ok false W (dat_head p k) (dat_reads t p) f4 0); [|
      unfold dat_reads, dat_head; rewrite DI; cbn [app]; all_match; destruct (w_r p =? 0); all_match
      |exact I1|exact G1].
    cbn [rbind].
    rewrite (gets_ok false W bl (repeat RB (N.to_nat (w_b p))) f4 h); [|
      apply matches_bits; now rewrite seq_length|exact I2|exact G2].
    cbn [rbind]. rewrite bytes_read by (rewrite HW; clear; lia). cbn [rbind].
    assert (PP : h + 9 * w_b p = h + w_b p + 8 * w_b p) by (clear; lia). rewrite PP.
    assert (CK : (if w_k p =? 0 then Ok 0
      else get1 false W f4 (h + w_b p + 8 * w_b p) (RT U64 (w_k p))) = Ok (d_check (k_attr k))).
    { destruct (w_k p =? 0) eqn:E; [now rewrite KZ|].
      apply (get1_ok false W f4 _ _ (FT U64 (w_k p) (d_check (k_attr k)))).
      - cbn [matches bits]. repeat split; fits.
      - cbn [width]. rewrite HW, HT. clear; lia.
      - unfold dat_tail in H4. rewrite E in H4. cbn [app holds] in H4. exact (proj1 H4). }
    rewrite CK. cbn [rbind].
    assert (CZ : (if w_z p =? 0 then Ok 0
      else get1 false W f4 (h + w_b p + 8 * w_b p + w_k p) (RT U8 (w_z p))) =
      Ok (d_poison (k_attr k))).
    { destruct (w_z p =? 0) eqn:E; [now rewrite ZZ|].
      apply (get1_ok false W f4 _ _ (FT U8 (w_z p) (d_poison (k_attr k)))).
      - cbn [matches bits]. repeat split; fits.
      - cbn [width]. rewrite HW, HT. clear; lia.
      - unfold dat_tail in H4. rewrite E in H4. cbn [width val].
        destruct (w_k p =? 0) eqn:E'; cbn [app holds] in H4.
        + apply N.eqb_eq in E'. rewrite E', N.add_0_r. exact (proj1 H4).
        + exact (proj1 (proj2 H4)). }
    rewrite CZ. cbn [rbind]. unfold bl. rewrite vals_bits.
    unfold dat_head. rewrite DI. cbn [app map val dat_of nth]. rewrite isb_b2n.
    unfold y. destruct (w_r p =? 0) eqn:E; cbn [map val]; [rewrite RZ by reflexivity|]; reflexivity.
  - unfold same_attr, y. cbn. repeat split.
  - unfold same_data, y. cbn [d_be d_data]. rewrite !map_length, !seq_length.
    split; [reflexivity|]. split; [reflexivity|]. split.
    + intros i L. rewrite (nth_indep _ false (B 0%nat)) by now rewrite map_length, seq_length.
      rewrite map_nth, seq_nth by exact L. unfold B, lane_on, enabled. rewrite S0.
      destruct (k_be k); [reflexivity|]. cbn [N.to_nat]. now rewrite Nat.add_0_r.
    + intros i L. rewrite <- (G3 i L).
      assert (L' : (i < N.to_nat (w_b p))%nat) by (clear - L Len; lia).
      rewrite (nth_indep _ 0 (field f4 (h + w_b p + 8 * N.of_nat 0) 8))
        by now rewrite map_length, seq_length.
      rewrite (map_nth (fun i => field f4 (h + w_b p + 8 * N.of_nat i) 8) _ 0%nat).
      rewrite seq_nth by exact L'. reflexivity.
Qed.

Lemma dat_eq y z : d_qos y = d_qos z -> d_tgt y = d_tgt z -> d_src y = d_src z -> d_txn y =
  d_txn z -> d_home y = d_home z -> d_opc y = d_opc z -> d_err y = d_err z -> d_resp y = d_resp
  z -> d_fwd y = d_fwd z -> d_dbid y = d_dbid z -> d_ccid y = d_ccid z -> d_dataid y = d_dataid
  z -> d_trace y = d_trace z -> d_rsvdc y = d_rsvdc z -> d_be y = d_be z -> d_data y = d_data z
  -> d_check y = d_check z -> d_poison y = d_poison z -> y = z.
Proof. destruct y, z. cbn. intros. subst. reflexivity. Qed.

(** A payload of at most one beat, followed by at least one readable byte, arrives at the
    checker; at the bridge when RSVDC has at most 8 bits. *)
Theorem C92_dat_partial p k : dat_fits p (k_attr k) -> dat_ready p k ->
  exists f k' y, dat_create p k = Ok (f, k') /\ dat_done k' = true /\
    ck_dat_parse p f = Ok y /\ same_attr (k_attr k) y /\
    same_data (w_b p) (k_buf k) (k_len k) (k_be k) y /\
    (w_r p <= 8 -> dat_parse U8 p f = Ok y).
Proof.
  intros F R. assert (A : w_r p <= bits U32).
  { destruct R as (_ & _ & R & _). clear - R. cbn [bits]. lia. }
  destruct (dat_round U32 p k F R A) as (f & k' & y & E & D & P & SA & SD).
  exists f, k', y. do 5 (split; [assumption|]). intros B.
  assert (B' : w_r p <= bits U8) by exact B.
  destruct (dat_round U8 p k F R B') as (g & k2 & y2 & E2 & _ & P2 & SA2 & SD2).
  rewrite E in E2. injection E2 as <- <-. rewrite P2. f_equal.
  unfold dat_parse in P, P2. destruct (gets false (dat_width p) f 0 (dat_reads U8 p)) as [l| | |] eqn:L;
    try discriminate P2. unfold rbind at 1 in P2.
  destruct (gets false (dat_width p) f 0 (dat_reads U32 p)) as [l'| | |] eqn:L';
    try discriminate P. unfold rbind at 1 in P.
  assert (T : total (dat_reads U8 p) = total (dat_reads U32 p)).
  { unfold dat_reads. cbn [app total fold_right rwidth]. destruct (w_r p =? 0); reflexivity. }
  rewrite T in P2. revert P P2.
  match goal with |- rbind ?x _ = _ -> _ => destruct x as [be| | |]; try discriminate end.
  unfold rbind at 1 6.
  match goal with |- rbind ?x _ = _ -> _ => destruct x as [da| | |]; try discriminate end.
  unfold rbind at 1 4.
  match goal with |- rbind ?x _ = _ -> _ => destruct x as [ch| | |]; try discriminate end.
  unfold rbind at 1 3.
  match goal with |- rbind ?x _ = _ -> _ => destruct x as [ps| | |]; try discriminate end.
  unfold rbind.
  destruct SA as (a1 & a2 & a3 & a4 & a5 & a6 & a7 & a8 & a9 & a10 & a11 & a12 & a13 & a14 & a15 & a16).
  destruct SA2 as (b1 & b2 & b3 & b4 & b5 & b6 & b7 & b8 & b9 & b10 & b11 & b12 & b13 & b14 & b15 & b16).
  intros P P2.
  assert (Q : d_be y = map isb be /\ d_data y = da).
  { unfold dat_of in P. do 13 (destruct l' as [|? l']; [discriminate P|]). apply Ok_inj in P.
    subst y. split; reflexivity. }
  assert (Q2 : d_be y2 = map isb be /\ d_data y2 = da).
  { unfold dat_of in P2. do 13 (destruct l as [|? l]; [discriminate P2|]). apply Ok_inj in P2.
    subst y2. split; reflexivity. }
  destruct Q as [q1 q2], Q2 as [r1 r2]. apply dat_eq; congruence.
Qed.
Definition adat : dat :=
  mkDat 9 1 2 33 4 4 1 2 3 44 1 0 true 171 [] [] 0 5.
Example C92_dat_case :
  exists f k', dat_create (mkDp 16 7 8 0 8 4)
      (mkPk adat [10; 20; 30; 40; 50] 4 [true; false; true; true] 0 0) = Ok (f, k') /\
    exists y, dat_parse U8 (mkDp 16 7 8 0 8 4) f = Ok y /\ d_opc y = 4 /\ d_dbid y = 44 /\
      d_rsvdc y = 171 /\ d_poison y = 5 /\ firstn 4 (d_data y) = [10; 20; 30; 40] /\
      firstn 5 (d_be y) = [true; false; true; true; true].
Proof.
  do 2 eexists. split; [vm_compute; reflexivity|].
  eexists. split; [vm_compute; reflexivity|]. repeat split.
Qed.
Example C92_dat_ready_case :
  dat_ready (mkDp 16 7 8 0 8 4) (mkPk adat [10; 20; 30; 40; 50] 4 [true; false; true; true] 0 0).
Proof.
  unfold dat_ready. cbn [w_n w_o w_r w_k w_z w_b k_pos k_sent k_len k_buf].
  do 9 (split; [first [reflexivity | discriminate | vm_compute; lia]|]).
  split; [|intros H; vm_compute in H; discriminate H].
  unfold bytes_ok, is_byte. repeat (apply Forall_cons; [reflexivity|]). apply Forall_nil.
Qed.

(** The payload's buffer is read one byte past its end. *)
Theorem C92_overread_refuted :
  dat_create (mkDp 16 7 8 0 8 4) (mkPk adat [10; 20; 30; 40] 4 [] 0 0) = UB.
Proof. vm_compute. reflexivity. Qed.
(** Without data check and poison a full beat runs past the end of the flit. *)
Theorem C92_overrun_refuted :
  dat_create (mkDp 16 7 8 0 0 4) (mkPk adat (repeat 1 17) 16 [] 0 0) = AssertFail.
Proof. vm_compute. reflexivity. Qed.
(** The second flit of a payload wider than the bus is never made. *)
Theorem C92_beats_refuted :
  exists f k', dat_create (mkDp 16 7 8 0 8 4) (mkPk adat (repeat 1 33) 32 [] 0 0) = Ok (f, k') /\
    dat_done k' = false /\ dat_create (mkDp 16 7 8 0 8 4) k' = AssertFail.
Proof.
  do 2 eexists. split; [vm_compute; reflexivity|]. split; vm_compute; reflexivity.
Qed.
(** RSVDC: the bridge keeps the low byte, the checker all of it. *)
Theorem C92_rsvdc_refuted :
  exists f k' y z, dat_create (mkDp 16 7 16 0 8 4)
      (mkPk (mkDat 9 1 2 33 4 4 1 2 3 44 1 0 true 4660 [] [] 0 5) [10; 20; 30] 2 [] 0 0) =
      Ok (f, k') /\ dat_parse U8 (mkDp 16 7 16 0 8 4) f = Ok y /\
    ck_dat_parse (mkDp 16 7 16 0 8 4) f = Ok z /\ d_rsvdc z = 4660 /\ d_rsvdc y = 52.
Proof.
  do 4 eexists. split; [vm_compute; reflexivity|]. split; [vm_compute; reflexivity|].
  split; [vm_compute; reflexivity|]. split; vm_compute; reflexivity.
Qed.
(** The default widths (512 data, 64 data check, 8 poison bits, RSVDC 32): undefined, with
    or without RSVDC. *)
Theorem C92_default_refuted :
  dat_create (mkDp 64 7 32 64 8 4) (mkPk adat (repeat 1 65) 64 [] 0 0) = UB /\
  dat_create (mkDp 64 7 4 64 8 4) (mkPk adat (repeat 1 65) 64 [] 0 0) = UB /\
  dat_parse U8 (mkDp 64 7 4 64 8 4) 0 = UB.
Proof. repeat split; vm_compute; reflexivity. Qed.

Print Assumptions C92_rsp.
Print Assumptions C92_snp.
Print Assumptions C92_checker_snp_refuted.
Print Assumptions C92_req_partial.
Print Assumptions C92_req_refuted.
Print Assumptions C92_size_refuted.
Print Assumptions C92_dat_partial.
Print Assumptions C92_overread_refuted.
Print Assumptions C92_overrun_refuted.
Print Assumptions C92_beats_refuted.
Print Assumptions C92_rsvdc_refuted.
Print Assumptions C92_default_refuted.
