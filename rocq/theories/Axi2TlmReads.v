(** Lemmas on the read data side of the axi2tlm model. *)
From Verif Require Import Base BaseFacts TlmModel TlmSpec WrapSpec AxiSpec Tlm2AxiSpec Tlm2AxiModel Tlm2AxiProofs Axi2TlmSpec Axi2TlmModel Axi2TlmProofs.
Open Scope N_scope.

(** [idx n]: data buffer position of beat [n]; [A i]: address of position [i]. *)
Definition out_plan (B : N) (b : aburst) (A idx : N -> N) (len : N) : Prop :=
  idx 0 = 0 /\ forall n, n < b_beats b ->
    let lo := fst (beat_lanes B b (n + 1)) in let up := snd (beat_lanes B b (n + 1)) in
    lo <= up /\ up < B /\ idx (n + 1) = idx n + (up + 1 - lo) /\ idx (n + 1) <= len /\
    forall a, In a (beat_range b n) -> lo <= a mod B <= up /\ A (idx n + (a mod B - lo)) = a.

Lemma read_out_ok B b A idx len m data :
  0 < B -> out_plan B b A idx len -> N.of_nat (length data) = len ->
  (forall i, i < len -> nth (N.to_nat i) data 0 = m (A i)) ->
  forall k n prev, N.of_nat k + n = b_beats b ->
  exists rs, read_out k B b (n + 1) (idx n) data prev = Ok rs /\ length rs = k /\
    (forall j r a, nth_error rs j = Some r -> In a (beat_range b (n + N.of_nat j)) ->
                   nth (lane B a) (fst r) 0 = m a) /\
    (forall j r, nth_error rs j = Some r -> snd r = (n + N.of_nat j + 1 =? b_beats b)) /\
    (forall j r, nth_error rs j = Some r -> length (fst r) = N.to_nat B).
Proof.
  intros Bp [_ P] Hlen Hm. induction k as [|k IH]; intros n prev Hk.
  - exists []. cbn. repeat split; intros [|j]; discriminate.
  - cbn [read_out]. destruct (P n ltac:(lia)) as [P1 [P2 [P3 [P4 P5]]]].
    unfold get_data. destruct (beat_lanes B b (n + 1)) as [lo up]. cbn [fst snd] in P1, P2, P3, P5.
    rewrite (N.min_l (up + 1) B) by lia.
    rewrite <- P3. replace (N.of_nat (length data) <? idx (n + 1)) with false by (clear - P4 Hlen; lia).
    set (l := map _ (seq 0 (N.to_nat B))).
    destruct (IH (n + 1) l ltac:(lia)) as [rs [E1 [E2 [E3 [E4 E5]]]]].
    rewrite E1. cbn [rmap rbind]. eexists. split; [reflexivity|].
    split; [cbn [length]; rewrite E2; reflexivity|]. split; [|split].
    + intros [|j] r a Hn Ha.
      * cbn in Hn. assert (r = (l, n + 1 =? b_beats b)) as -> by congruence. cbn [fst].
        rewrite N.add_0_r in Ha. destruct (P5 a Ha) as [Q1 Q2]. unfold l, lane.
        pose proof (N.mod_lt a B ltac:(lia)) as Ma.
        set (h := fun i : nat => _).
        rewrite (nth_indep _ 0 (h O)) by (rewrite map_length, seq_length; lia).
        rewrite map_nth, seq_nth by lia. cbn [Nat.add]. unfold h.
        rewrite N2Nat.id. replace (lo <=? a mod B) with true by lia. replace (a mod B <=? up) with true by lia.
        cbn [andb]. rewrite Hm, Q2; [reflexivity|].
        remember (a mod B) as x. clear - Q1 P1 P3 P4. lia.
      * cbn [nth_error] in Hn. apply (E3 j r a Hn).
        replace (n + 1 + N.of_nat j) with (n + N.of_nat (S j)) by lia. exact Ha.
    + intros [|j] r Hn.
      * cbn in Hn. assert (r = (l, n + 1 =? b_beats b)) as -> by congruence. cbn [snd].
        rewrite N.add_0_r. reflexivity.
      * cbn [nth_error] in Hn. rewrite (E4 j r Hn).
        replace (n + 1 + N.of_nat j) with (n + N.of_nat (S j)) by lia. reflexivity.
    + intros [|j] r Hn.
      * cbn in Hn. assert (r = (l, n + 1 =? b_beats b)) as -> by congruence. cbn [fst].
        unfold l. rewrite map_length, seq_length. reflexivity.
      * cbn [nth_error] in Hn. exact (E5 j r Hn).
Qed.

Lemma nth_error_ext {X} (l l' : list X) : (forall i, nth_error l i = nth_error l' i) -> l = l'.
Proof.
  revert l'. induction l as [|x l IH]; intros [|y l'] H; [reflexivity|specialize (H O); discriminate ..|].
  pose proof (H O) as H0. cbn in H0. assert (x = y) as -> by congruence. f_equal. apply IH. intros i. exact (H (S i)).
Qed.

Lemma rlast_of b (lasts : list bool) : N.of_nat (length lasts) = b_beats b ->
  (forall j x, nth_error lasts j = Some x -> x = (N.of_nat j + 1 =? b_beats b)) -> rlast_legal b lasts.
Proof.
  intros Hl H. split; [exact Hl|]. apply nth_error_ext. intros i.
  assert (b_beats b = N.of_nat (S (length lasts - 1))) as Eb by (unfold b_beats in *; lia).
  destruct (Nat.lt_ge_cases i (length lasts)) as [Hi|Hi].
  - destruct (nth_error lasts i) as [x|] eqn:E; [|apply nth_error_None in E; lia].
    rewrite (H i x E), Eb. destruct (Nat.eq_dec i (length lasts - 1)) as [->|Ne].
    + rewrite nth_error_app2; rewrite repeat_length; [|lia]. rewrite Nat.sub_diag. cbn. f_equal. lia.
    + rewrite nth_error_app1 by (rewrite repeat_length; lia).
      rewrite nth_error_repeat by lia. f_equal. lia.
  - rewrite (proj2 (nth_error_None lasts i) Hi). symmetry. apply nth_error_None.
    rewrite app_length, repeat_length. cbn [length]. lia.
Qed.

Lemma rdata_ok B b A idx len m data prev :
  0 < B -> out_plan B b A idx len -> N.of_nat (length data) = len ->
  (forall i, i < len -> nth (N.to_nat i) data 0 = m (A i)) ->
  exists rs, a2t_rdata B b data prev = Ok rs /\ serves B b m (map fst rs) /\ rlast_legal b (map snd rs) /\
             (forall r, In r rs -> length (fst r) = N.to_nat B).
Proof.
  intros Bp P Hl Hm.
  destruct (read_out_ok B b A idx len m data Bp P Hl Hm (N.to_nat (b_beats b)) 0 prev ltac:(lia))
    as [rs [E1 [E2 [E3 [E4 E5]]]]].
  exists rs. destruct P as [P0 _]. rewrite P0, N.add_0_l in E1. unfold a2t_rdata. split; [exact E1|].
  split; [|split].
  - intros n r a Hn Ha. rewrite nth_error_map in Hn. destruct (nth_error rs n) as [x|] eqn:E; [|discriminate].
    cbn in Hn. assert (fst x = r) as <- by congruence. exact (E3 n x a E Ha).
  - apply rlast_of; [rewrite map_length, E2; lia|]. intros j x Hj. rewrite nth_error_map in Hj.
    destruct (nth_error rs j) as [y|] eqn:E; [|discriminate]. cbn in Hj. assert (snd y = x) as <- by congruence.
    rewrite (E4 j y E), N.add_0_l. reflexivity.
  - intros r Hr. destruct (In_nth_error _ _ Hr) as [j Hj]. exact (E5 j r Hj).
Qed.

(** ** Plans *)
Lemma range_in b n a : In a (beat_range b n) <->
  exists j, j < b_bytes b - beat_addr b n mod b_bytes b /\ a = beat_addr b n + j.
Proof.
  unfold beat_range. rewrite in_map_iff. split.
  - intros [x [<- Hx]]. apply in_seq in Hx. exists (N.of_nat x). split; [lia|reflexivity].
  - intros [j [Hj ->]]. exists (N.to_nat j). split; [lia|]. apply in_seq. lia.
Qed.

Lemma incr_out B b : incr_burst B b ->
  out_plan B b (fun i => b_addr b + i)
    (fun n => if n =? 0 then 0 else align (b_addr b) (b_bytes b) + n * b_bytes b - b_addr b) (data_len B b).
Proof.
  intros [HB [W [Hw [Hk Hend]]]]. pose proof (bus_pos _ HB) as Bp. pose proof (bus_pos _ W) as Wp.
  split; [reflexivity|]. intros n Hn.
  pose proof (align_split (b_addr b) (b_bytes b) Wp) as EA. pose proof (align_mod (b_addr b) (b_bytes b) Wp) as EM.
  pose proof (align_split (b_addr b) B Bp) as EB. pose proof (align_mod (b_addr b) B Bp) as EBM.
  pose proof (N.mod_lt (b_addr b) (b_bytes b) ltac:(lia)) as M1.
  pose proof (bus_divide _ _ W HB Hw) as Dv.
  assert (EL : data_len B b = b_bytes b - b_addr b mod b_bytes b + (b_beats b - 1) * b_bytes b).
  { unfold data_len. rewrite Hk, EM. reflexivity. }
  unfold beat_lanes. rewrite Hk.
  replace (n + 1 =? 0) with false by lia.
  destruct (N.eqb_spec n 0) as [->|Nz].
  - cbn [N.add N.eqb Pos.eqb fst snd]. rewrite N.mul_1_l.
    pose proof (window_fits (b_addr b) (b_bytes b) B Wp Bp Dv) as F.
    rewrite EL. rewrite EBM.
    assert (Ebeat : beat_addr b 0 = b_addr b) by (unfold beat_addr; rewrite Hk; reflexivity).
    split; [remember (b_addr b mod B) as r; remember (align (b_addr b) B) as al; clear - EA EB M1 Wp; lia|].
    split; [remember (b_addr b mod B) as r; remember (align (b_addr b) B) as al; clear - EA EB M1 Wp F Bp; lia|].
    split; [remember (b_addr b mod B) as r; remember (align (b_addr b) B) as al; clear - EA EB M1 Wp; lia|].
    split; [remember ((b_beats b - 1) * b_bytes b) as t; remember (b_addr b mod b_bytes b) as r; clear - EA M1 Wp; lia|].
    intros a Ha. apply range_in in Ha. rewrite Ebeat in Ha. destruct Ha as [j [Hj ->]].
    rewrite lane_step by (try exact Bp; clear - F Hj; lia).
    split; [remember (b_addr b mod B) as r; remember (align (b_addr b) B) as al; clear - EA EB M1 Wp Hj; lia|].
    remember (b_addr b mod B) as r. clear. lia.
  - replace (n + 1 =? 1) with false by lia. cbn [fst snd]. replace (n + 1 - 1) with n by lia.
    set (a0 := align (b_addr b) (b_bytes b) + n * b_bytes b).
    assert (Ebeat : beat_addr b n = a0).
    { unfold beat_addr. rewrite Hk. replace (n =? 0) with false by lia. reflexivity. }
    assert (Em : a0 mod b_bytes b = 0).
    { unfold a0, align. rewrite N.mod_add, N.mod_mul by lia. reflexivity. }
    rewrite align_mod by exact Bp.
    pose proof (window_fits a0 (b_bytes b) B Wp Bp Dv) as F. rewrite Em, N.sub_0_r in F.
    assert (Hge : b_bytes b <= n * b_bytes b).
    { rewrite <- (N.mul_1_l (b_bytes b)) at 1. apply N.mul_le_mono_r. lia. }
    assert (Hlt : n * b_bytes b <= (b_beats b - 1) * b_bytes b) by (apply N.mul_le_mono_r; lia).
    assert (Ge : b_addr b <= a0) by (unfold a0; clear - EA M1 Hge; lia).
    rewrite N.mul_add_distr_r, N.mul_1_l, N.add_assoc. fold a0.
    remember (a0 mod B) as r0.
    split; [clear - Wp; lia|]. split; [clear - F Wp; lia|]. split; [clear - Ge Wp; lia|].
    split.
    { rewrite EL. unfold a0 in *. remember (n * b_bytes b) as t. remember ((b_beats b - 1) * b_bytes b) as t2.
      clear - EA M1 Hlt. lia. }
    intros a Ha. apply range_in in Ha. rewrite Ebeat, Em, N.sub_0_r in Ha. destruct Ha as [j [Hj ->]].
    rewrite lane_step by (try exact Bp; rewrite <- Heqr0; clear - F Hj; lia).
    rewrite <- Heqr0. split; [clear - Hj; lia|]. clear - Ge. lia.
Qed.

Lemma fixed_out B b : fixed_burst B b ->
  out_plan B b (fun i => align (b_addr b) B + i mod B) (fun n => n * B) (data_len B b).
Proof.
  intros [HB [W [Hw [Hk Hend]]]]. pose proof (bus_pos _ HB) as Bp. pose proof (bus_pos _ W) as Wp.
  split; [reflexivity|]. intros n Hn. unfold beat_lanes. rewrite Hk. cbn [fst snd].
  assert (EL : data_len B b = b_beats b * B) by (unfold data_len; rewrite Hk; reflexivity).
  split; [lia|]. split; [lia|]. split; [lia|].
  split; [rewrite EL; apply N.mul_le_mono_r; lia|].
  intros a Ha. apply range_in in Ha.
  assert (Eb : beat_addr b n = b_addr b) by (unfold beat_addr; rewrite Hk; reflexivity).
  rewrite Eb in Ha. destruct Ha as [j [Hj ->]].
  pose proof (window_fits (b_addr b) (b_bytes b) B Wp Bp (bus_divide _ _ W HB Hw)) as F.
  pose proof (align_split (b_addr b) B Bp) as EA.
  rewrite lane_step by (try exact Bp; clear - F Hj; lia).
  remember (b_addr b mod B) as r. remember (align (b_addr b) B) as al.
  assert (r + j < B) by (clear - F Hj; lia).
  split; [lia|]. rewrite N.sub_0_r, (N.add_comm (n * B)), N.mod_add by lia. rewrite N.mod_small by lia.
  clear - EA. lia.
Qed.

Lemma wrap_out B b : wrap_burst B b -> wrap_lanes B b ->
  let base := b_addr b / span b * span b in
  out_plan B b (fun i => base + (b_addr b - base + i) mod span b) (fun n => n * b_bytes b) (data_len B b).
Proof.
  intros [HB [W [Hw [Hk [Hal Hend]]]]] Hwl base. pose proof (bus_pos _ HB) as Bp. pose proof (bus_pos _ W) as Wp.
  pose proof (bus_divide _ _ W HB Hw) as Dv.
  split; [reflexivity|]. intros n Hn.
  assert (Hb1 : 1 <= b_beats b) by (unfold b_beats; lia).
  pose proof (align_split (b_addr b) (b_bytes b) Wp) as EA. rewrite Hal, N.add_0_r in EA.
  assert (EL : data_len B b = span b).
  { unfold data_len, span. rewrite Hk, <- EA, N.sub_diag, N.sub_0_r, N.mul_sub_distr_r, N.mul_1_l.
    rewrite (N.mul_comm (b_bytes b)).
    assert (1 * b_bytes b <= b_beats b * b_bytes b) by (apply N.mul_le_mono_r; exact Hb1). lia. }
  destruct (wrap_beat B b n W Hk Hal Hn Bp) as [X1 [X2 X3]]. cbn zeta in X1, X2, X3. fold base in X1. specialize (X3 Hwl).
  assert (EBL : beat_lanes B b (n + 1) =
                ((b_addr b + n * b_bytes b) mod B, (b_addr b + n * b_bytes b) mod B + (b_bytes b - 1))).
  { unfold beat_lanes. rewrite Hk, <- EA. destruct (N.eqb_spec (n + 1) 1) as [E|E].
    - assert (n = 0) as -> by lia. rewrite N.mul_0_l, N.add_0_r. rewrite align_mod by exact Bp.
      pose proof (align_split (b_addr b) B Bp) as Y. f_equal. clear - Y Wp. lia.
    - replace (n + 1 - 1) with n by lia. rewrite align_mod by exact Bp. reflexivity. }
  rewrite EBL. cbn [fst snd]. rewrite <- X3.
  pose proof (window_fits (beat_addr b n) (b_bytes b) B Wp Bp Dv) as F. rewrite X2, N.sub_0_r in F.
  split; [clear - Wp; lia|]. split; [clear - F Wp; lia|]. split; [clear - Wp; lia|].
  split; [rewrite EL; unfold span; rewrite (N.mul_comm (b_bytes b)); apply N.mul_le_mono_r; lia|].
  intros a Ha. apply range_in in Ha. rewrite X2, N.sub_0_r in Ha. destruct Ha as [j [Hj ->]].
  rewrite lane_step by (try exact Bp; clear - F Hj; lia).
  split; [clear - Hj; lia|].
  replace (beat_addr b n mod B + j - beat_addr b n mod B) with j by (clear; lia).
  rewrite X1. rewrite <- N.add_assoc, N.add_assoc with (n := b_addr b - base). f_equal.
  assert (Hsp : 0 < span b) by (unfold span; apply N.mul_pos_pos; lia).
  assert (Ds : (b_bytes b | span b)) by (exists (b_beats b); unfold span; lia).
  apply lane_step; [exact Hsp|].
  pose proof (window_fits (b_addr b - base + n * b_bytes b) (b_bytes b) (span b) Wp Hsp Ds) as F2.
  assert (Y : (b_addr b - base + n * b_bytes b) mod b_bytes b = 0).
  { rewrite N.mod_add by lia. unfold base. destruct Ds as [q Eq]. rewrite Eq at 2. rewrite N.mul_assoc.
    rewrite EA at 1. unfold align. rewrite <- N.mul_sub_distr_r. apply N.mod_mul. lia. }
  rewrite Y in F2. clear - F2 Hj. lia.
Qed.

(** ** What a target reading memory [m] returns *)
Lemma incr_rdata B b g m prev : incr_burst B b ->
  g_addr g = tr_addr B b -> g_sw g = tr_sw B b -> N.of_nat (length (g_data g)) = data_len B b ->
  exists rs, a2t_rdata B b (map (fun x => m (a_addr x)) (accesses g)) prev = Ok rs /\
    serves B b m (map fst rs) /\ rlast_legal b (map snd rs) /\ (forall r, In r rs -> length (fst r) = N.to_nat B).
Proof.
  intros Hb Ha Hs Hl. pose proof (incr_out B b Hb) as P. destruct Hb as [HB [W [Hw [Hk Hend]]]].
  pose proof (bus_pos _ W) as Wp. pose proof (align_split (b_addr b) (b_bytes b) Wp) as EA.
  pose proof (align_mod (b_addr b) (b_bytes b) Wp) as EM.
  pose proof (N.mod_lt (b_addr b) (b_bytes b) ltac:(lia)) as M1.
  assert (Hu : b_addr b + data_len B b <= u64).
  { unfold data_len. rewrite Hk, EM. unfold span in Hend. fold (align (b_addr b) (b_bytes b)) in Hend.
    rewrite N.mul_sub_distr_r, N.mul_1_l, (N.mul_comm (b_beats b)).
    assert (b_bytes b * 1 <= b_bytes b * b_beats b) by (apply N.mul_le_mono_l; unfold b_beats; lia).
    remember (b_bytes b * b_beats b) as t. remember (b_addr b mod b_bytes b) as r. clear - EA M1 Hend H. lia. }
  apply (rdata_ok B b _ _ (data_len B b) m _ prev (bus_pos _ HB) P).
  - unfold accesses. rewrite !map_length, seq_length. exact Hl.
  - intros i Hi. set (h := fun x : access => m (a_addr x)). unfold accesses. rewrite map_map.
    rewrite (nth_indep _ 0 (h (access_at g O))) by (rewrite map_length, seq_length; lia).
    rewrite (map_nth (fun x => h (access_at g x))), seq_nth by lia. cbn [Nat.add].
    unfold h, access_at, byte_addr, stream_off. cbn [a_addr]. rewrite Ha, Hs. unfold tr_addr, tr_sw. rewrite Hk.
    rewrite N2Nat.id. replace (data_len B b =? 0) with false by lia.
    rewrite (N.mod_small i) by exact Hi. rewrite N.mod_small by lia. reflexivity.
Qed.

Lemma fixed_rdata B b g m prev : fixed_burst B b ->
  g_addr g = tr_addr B b -> g_sw g = tr_sw B b -> N.of_nat (length (g_data g)) = data_len B b ->
  exists rs, a2t_rdata B b (map (fun x => m (a_addr x)) (accesses g)) prev = Ok rs /\
    serves B b m (map fst rs) /\ rlast_legal b (map snd rs) /\ (forall r, In r rs -> length (fst r) = N.to_nat B).
Proof.
  intros Hb Ha Hs Hl. pose proof (fixed_out B b Hb) as P. destruct Hb as [HB [W [Hw [Hk Hend]]]].
  pose proof (bus_pos _ HB) as Bp.
  apply (rdata_ok B b _ _ (data_len B b) m _ prev Bp P).
  - unfold accesses. rewrite !map_length, seq_length. exact Hl.
  - intros i Hi. set (h := fun x : access => m (a_addr x)). unfold accesses. rewrite map_map.
    rewrite (nth_indep _ 0 (h (access_at g O))) by (rewrite map_length, seq_length; lia).
    rewrite (map_nth (fun x => h (access_at g x))), seq_nth by lia. cbn [Nat.add].
    unfold h, access_at, byte_addr, stream_off. cbn [a_addr]. rewrite Ha, Hs. unfold tr_addr, tr_sw. rewrite Hk.
    rewrite N2Nat.id. replace (B =? 0) with false by lia.
    pose proof (N.mod_lt i B ltac:(lia)). unfold align.
    rewrite (N.mod_small (_ + _) u64) by lia. reflexivity.
Qed.

Lemma wrap_rdata B b g m prev : wrap_burst B b -> wrap_lanes B b ->
  g_addr g = tr_addr B b -> N.of_nat (length (g_data g)) = data_len B b ->
  exists rs, a2t_rdata B b (map (fun x => m (a_addr x)) (wrap_accesses g)) prev = Ok rs /\
    serves B b m (map fst rs) /\ rlast_legal b (map snd rs) /\ (forall r, In r rs -> length (fst r) = N.to_nat B).
Proof.
  intros Hb Hwl Ha Hl. pose proof (wrap_out B b Hb Hwl) as P. destruct Hb as [HB [W [Hw [Hk [Hal Hend]]]]].
  pose proof (bus_pos _ W) as Wp.
  assert (EL : data_len B b = span b).
  { pose proof (align_split (b_addr b) (b_bytes b) Wp) as EA. rewrite Hal, N.add_0_r in EA.
    unfold data_len, span. rewrite Hk, <- EA, N.sub_diag, N.sub_0_r, N.mul_sub_distr_r, N.mul_1_l.
    rewrite (N.mul_comm (b_bytes b)).
    assert (1 * b_bytes b <= b_beats b * b_bytes b) by (apply N.mul_le_mono_r; unfold b_beats; lia). lia. }
  assert (Hsp : 0 < span b) by (unfold span; apply N.mul_pos_pos; unfold b_beats; lia).
  apply (rdata_ok B b _ _ (data_len B b) m _ prev (bus_pos _ HB) P).
  - unfold wrap_accesses. rewrite !map_length, seq_length. exact Hl.
  - intros i Hi. set (h := fun x : access => m (a_addr x)). unfold wrap_accesses. rewrite map_map.
    rewrite (nth_indep _ 0 (h (wrap_access_at g O))) by (rewrite map_length, seq_length; lia).
    rewrite (map_nth (fun x => h (wrap_access_at g x))), seq_nth by lia. cbn [Nat.add].
    unfold h, wrap_access_at, wrap_base, g_len. cbn [a_addr]. rewrite Ha, Hl, EL. unfold tr_addr. rewrite Hk.
    rewrite N2Nat.id.
    set (base := b_addr b / span b * span b).
    assert (Hbase : base <= b_addr b) by (unfold base; rewrite N.mul_comm; apply N.mul_div_le; lia).
    pose proof (N.mod_lt (b_addr b - base + i) (span b) ltac:(lia)).
    rewrite (N.mod_small (_ + _) u64) by lia. reflexivity.
Qed.
