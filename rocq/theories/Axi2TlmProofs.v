(** Lemmas about the axi2tlm model: data. *)
From Verif Require Import Base BaseFacts TlmModel TlmSpec TlmFacts AxiSpec WrapSpec.
From Verif Require Import Tlm2AxiSpec Tlm2AxiModel Tlm2AxiProofs Axi2TlmSpec Axi2TlmModel.
Open Scope N_scope.

Lemma align_mod a B : 0 < B -> a - align a B = a mod B.
Proof. intros H. unfold align. rewrite (N.mul_comm (a / B)). symmetry. apply N.mod_eq. lia. Qed.
Lemma align_split a B : 0 < B -> a = align a B + a mod B.
Proof. intros H. unfold align. rewrite N.mul_comm. apply N.div_mod. lia. Qed.

(** ** Entries with addresses *)
Fixpoint tagged (A : nat -> N) (p : nat) (f : list (bool * N)) : list (N * N) :=
  match f with
  | [] => []
  | (e, v) :: f' => (if e then [(A p, v)] else []) ++ tagged A (S p) f'
  end.

Lemma tagged_app A f1 : forall p f2, tagged A p (f1 ++ f2) = tagged A p f1 ++ tagged A (p + length f1)%nat f2.
Proof.
  induction f1 as [|[e v] f1 IH]; intros p f2; cbn [tagged app length].
  - rewrite Nat.add_0_r. reflexivity.
  - rewrite IH, <- app_assoc. do 2 f_equal. f_equal. lia.
Qed.

Lemma tagged_map A (h : nat -> bool * N) k : forall p s,
  tagged A p (map h (seq s k)) = flat_map (fun l => if fst (h l) then [(A (p + (l - s))%nat, snd (h l))] else []) (seq s k).
Proof.
  induction k as [|k IH]; intros p s; cbn [seq map tagged flat_map]; [reflexivity|].
  destruct (h s) as [e v] eqn:E. cbn [fst snd]. rewrite IH. rewrite Nat.sub_diag, Nat.add_0_r.
  f_equal. rewrite !flat_map_concat_map. f_equal. apply map_ext_in. intros l Hl. apply in_seq in Hl.
  replace (p + (l - s))%nat with (S p + (l - S s))%nat by lia. reflexivity.
Qed.

(** Payload built from entries. *)
Lemma entries_be_at f i : (i < length f)%nat -> be_at (entries_be f) (N.of_nat i) = fst (nth i f (false, 0)).
Proof.
  intros H. unfold entries_be. destruct (forallb fst f) eqn:E.
  - cbn [be_at]. symmetry. rewrite forallb_forall in E. apply E, nth_In, H.
  - unfold be_at. destruct f as [|e0 f0] eqn:Ef; [cbn in H; lia|]. rewrite <- Ef in *.
    destruct (map _ f) as [|x l] eqn:Em; [rewrite Ef in Em; discriminate|].
    rewrite <- Em. rewrite map_length, N.mod_small by lia. rewrite Nat2N.id.
    change 0 with (if fst (false, 0) then BE_ON else BE_OFF) at 1.
    rewrite (map_nth (fun e : bool * N => if fst e then BE_ON else BE_OFF) f (false, 0) i).
    destruct (fst (nth i f (false, 0))); reflexivity.
Qed.

Lemma entries_enabled (acc : nat -> access) (A : nat -> N) f :
  (forall i, (i < length f)%nat -> acc i = mkAcc (A i) (be_at (entries_be f) (N.of_nat i)) (nth i (map snd f) 0)) ->
  enabled (map acc (seq 0 (length f))) = tagged A 0 f.
Proof.
  intros H. rewrite enabled_flat.
  replace f with (map (fun i => nth i f (false, 0)) (seq 0 (length f))) at 2.
  - rewrite tagged_map, !flat_map_concat_map. f_equal. apply map_ext_in. intros i Hi. apply in_seq in Hi.
    rewrite H by lia. cbn [a_en a_addr a_byte]. rewrite entries_be_at by lia.
    assert (M : nth i (map snd f) 0 = snd (nth i f (false, 0))) by exact (map_nth snd f (false, 0) i).
    rewrite M. cbn [Nat.add]. rewrite Nat.sub_0_r. reflexivity.
  - apply (nth_ext _ _ (false, 0) (false, 0)); rewrite map_length, seq_length; [reflexivity|].
    intros i Hi. rewrite nth_map_seq by exact Hi. reflexivity.
Qed.

(** ** One write beat *)
Lemma flat_map_nil {X Y} (f : X -> list Y) l : (forall x, In x l -> f x = []) -> flat_map f l = [].
Proof.
  induction l as [|x l IH]; intros H; [reflexivity|]. cbn. rewrite (H x) by (left; reflexivity).
  apply IH. intros y Hy. apply H. right. exact Hy.
Qed.

Lemma lanes_writes B b n w i0 : bus_width B -> bus_width (b_bytes b) -> b_bytes b <= B ->
  let a := beat_addr b n in
  (N.of_nat i0 <= a mod B) ->
  (forall l, (i0 <= l < N.to_nat B)%nat -> nth l (w_strb w) false = true ->
     a mod B <= N.of_nat l < a mod B + (b_bytes b - a mod b_bytes b)) ->
  beat_writes B b n w =
  flat_map (fun l => if nth l (w_strb w) false then [(align a B + N.of_nat l, nth l (w_data w) 0)] else [])
           (seq i0 (N.to_nat B - i0)).
Proof.
  intros HB W Hw a Hi0 Hs. pose proof (bus_pos _ HB) as Bp. pose proof (bus_pos _ W) as Wp.
  pose proof (window_fits a (b_bytes b) B Wp Bp (bus_divide _ _ W HB Hw)) as F.
  pose proof (align_split a B Bp) as EA. pose proof (N.mod_lt a B ltac:(lia)) as Mb.
  unfold beat_writes, beat_range. fold a.
  remember (b_bytes b - a mod b_bytes b) as k eqn:Ek. clear Ek.
  remember (a mod B) as lo eqn:Elo.
  replace (seq i0 (N.to_nat B - i0)) with
    (seq i0 (N.to_nat lo - i0) ++ seq (N.to_nat lo) (N.to_nat k) ++
     seq (N.to_nat lo + N.to_nat k) (N.to_nat B - N.to_nat lo - N.to_nat k)).
  2:{ rewrite <- seq_app. replace (N.to_nat lo) with (i0 + (N.to_nat lo - i0))%nat at 2 by lia.
      rewrite <- seq_app. f_equal. lia. }
  rewrite !flat_map_app.
  rewrite (flat_map_nil _ (seq i0 _)), (flat_map_nil _ (seq (N.to_nat lo + _) _)).
  - rewrite app_nil_r. cbn [app].
    replace (seq (N.to_nat lo) (N.to_nat k)) with (map (fun j => (N.to_nat lo + j)%nat) (seq 0 (N.to_nat k))).
    2:{ rewrite <- (map_id (seq (N.to_nat lo) (N.to_nat k))). apply (map_seq_shift (fun j => (N.to_nat lo + j)%nat) (fun i => i)). reflexivity. }
    rewrite !flat_map_concat_map, !map_map. f_equal. apply map_ext_in. intros j Hj. apply in_seq in Hj.
    assert (EL : lane B (a + N.of_nat j) = (N.to_nat lo + j)%nat).
    { unfold lane. rewrite lane_step; [rewrite <- Elo; lia|exact Bp|rewrite <- Elo; lia]. }
    rewrite EL. replace (align a B + N.of_nat (N.to_nat lo + j)) with (a + N.of_nat j) by lia. reflexivity.
  - intros l Hl. apply in_seq in Hl. destruct (nth l (w_strb w) false) eqn:E; [|reflexivity].
    specialize (Hs l ltac:(lia) E). lia.
  - intros l Hl. apply in_seq in Hl. destruct (nth l (w_strb w) false) eqn:E; [|reflexivity].
    specialize (Hs l ltac:(lia) E). lia.
Qed.

(** ** All write beats.  [i0]: first lane of the first beat; [A]: address of
    entry [i]. *)
Section Fill.
Context (B : N) (b : aburst) (addr : N) (junk : nat -> N) (A : nat -> N).
Let i0 := N.to_nat (addr - align addr B).
Let lane0 (n : nat) : nat := match n with O => i0 | _ => 0%nat end.
Let pos (n : nat) : nat := match n with O => 0%nat | S n' => (N.to_nat B - i0 + n' * N.to_nat B)%nat end.
Hypothesis HB : bus_width B.
Hypothesis HW : bus_width (b_bytes b).
Hypothesis Hw : b_bytes b <= B.

Definition fill_plan (len : N) (ws : list wbeat) : Prop :=
  N.to_nat len = pos (length ws) /\
  forall n w, nth_error ws n = Some w ->
    let a := beat_addr b (N.of_nat n) in
    N.of_nat (lane0 n) <= a mod B /\
    (forall l, (lane0 n <= l < N.to_nat B)%nat -> nth l (w_strb w) false = true ->
       a mod B <= N.of_nat l < a mod B + (b_bytes b - a mod b_bytes b)) /\
    (forall l, (lane0 n <= l < N.to_nat B)%nat -> A (pos n + (l - lane0 n))%nat = align a B + N.of_nat l).

Lemma i0_lt : (i0 < N.to_nat B)%nat.
Proof.
  unfold i0. pose proof (bus_pos _ HB). rewrite align_mod by assumption.
  pose proof (N.mod_lt addr B ltac:(lia)). lia.
Qed.

Lemma pos_S n : pos (S n) = (pos n + (N.to_nat B - lane0 n))%nat.
Proof. pose proof i0_lt. unfold pos, lane0. destruct n as [|n]; cbn [Nat.mul]; lia. Qed.
Lemma pos_mono n m : (n <= m)%nat -> (pos n <= pos m)%nat.
Proof. induction 1 as [|m H IH]; [lia|]. rewrite pos_S. lia. Qed.

Lemma fill_ok len ws : fill_plan len ws -> forall n filled rest,
  firstn n ws ++ rest = ws -> (n <= length ws)%nat -> length filled = pos n ->
  let f := fill_beats B len addr (match n with O => true | _ => false end) junk filled rest in
  length f = pos (length ws) /\ tagged A 0 f = tagged A 0 filled ++ writes_from B b (N.of_nat n) rest.
Proof.
  intros [HL HP] n filled rest. revert n filled.
  induction rest as [|w rest IH]; intros n filled E Hn Hf; cbn [fill_beats writes_from].
  - rewrite app_nil_r in E. rewrite app_nil_r. split; [|reflexivity].
    rewrite Hf. f_equal. apply (f_equal (@length _)) in E. rewrite firstn_length in E. lia.
  - assert (Hnl : (n < length ws)%nat).
    { apply (f_equal (@length _)) in E. rewrite app_length, firstn_length in E. cbn [length] in E. lia. }
    assert (Hw1 : nth_error ws n = Some w).
    { rewrite <- E. rewrite nth_error_app2; rewrite firstn_length; [|lia].
      replace (n - Nat.min n (length ws))%nat with 0%nat by lia. reflexivity. }
    destruct (HP n w Hw1) as [P1 [P2 P3]].
    pose proof i0_lt as I0.
    set (first := match n with O => true | _ => false end).
    assert (Ei : (if first then N.to_nat (addr - align addr B) else 0%nat) = lane0 n).
    { unfold first, lane0. destruct n; reflexivity. }
    set (f1 := fill_beat B len addr first junk filled w).
    set (h := fun l => if nth l (w_strb w) false then (true, nth l (w_data w) 0)
                       else (false, junk (length filled + (l - lane0 n))%nat)).
    assert (Ef1 : f1 = filled ++ map h (seq (lane0 n) (N.to_nat B - lane0 n))).
    { unfold f1, fill_beat. rewrite Ei. f_equal. apply firstn_all2.
      rewrite map_length, seq_length, Hf, HL.
      pose proof (pos_mono (S n) (length ws) Hnl) as M. rewrite pos_S in M. lia. }
    assert (Lf1 : length f1 = pos (S n)).
    { rewrite Ef1, app_length, map_length, seq_length, Hf, pos_S. reflexivity. }
    destruct (IH (S n) f1) as [I1 I2].
    + rewrite <- E at 2. rewrite <- (firstn_skipn n ws) at 1.
      assert (Sk : skipn n ws = w :: rest).
      { rewrite <- E at 1. rewrite skipn_app, skipn_firstn_comm, Nat.sub_diag, firstn_length. cbn [firstn app].
        replace (n - Nat.min n (length ws))%nat with 0%nat by lia. reflexivity. }
      rewrite Sk. rewrite firstn_app, firstn_firstn, firstn_length.
      replace (Nat.min (S n) n) with n by lia.
      replace (S n - Nat.min n (length ws))%nat with 1%nat by lia. cbn [firstn].
      rewrite <- app_assoc. reflexivity.
    + lia.
    + exact Lf1.
    + split; [exact I1|]. rewrite I2, Ef1, tagged_app, <- app_assoc. f_equal.
      replace (N.of_nat (S n)) with (N.of_nat n + 1) by lia. f_equal.
      rewrite (lanes_writes B b (N.of_nat n) w (lane0 n)); try assumption.
      rewrite tagged_map, !flat_map_concat_map. f_equal. apply map_ext_in. intros l Hl. apply in_seq in Hl.
      unfold h. cbn [Nat.add]. destruct (nth l (w_strb w) false); cbn [fst snd]; [|reflexivity].
      rewrite Hf, P3 by lia. reflexivity.
Qed.

Lemma fill_all len ws : fill_plan len ws ->
  let f := fill_beats B len addr true junk [] ws in
  N.of_nat (length f) = len /\ tagged A 0 f = burst_writes B b ws.
Proof.
  intros P f. destruct (fill_ok len ws P 0%nat [] ws eq_refl (Nat.le_0_l _) eq_refl) as [H1 H2].
  split; [|exact H2]. destruct P as [P _]. fold f in H1. lia.
Qed.
End Fill.

(** ** Beat addresses *)
Lemma wrap_beat B b n : bus_width (b_bytes b) -> b_kind b = B_WRAP -> b_addr b mod b_bytes b = 0 -> 
  n < b_beats b -> 0 < B ->
  let base := b_addr b / span b * span b in
  let a := beat_addr b n in
  a = base + (b_addr b - base + n * b_bytes b) mod span b /\ a mod b_bytes b = 0 /\
  (wrap_lanes B b -> a mod B = (b_addr b + n * b_bytes b) mod B).
Proof.
  intros W Hk Hal Hn Bp base a. pose proof (bus_pos _ W) as Wp.
  assert (Hs : n * b_bytes b + b_bytes b <= span b).
  { unfold span. replace (n * b_bytes b + b_bytes b) with (b_bytes b * (n + 1)) by lia. apply N.mul_le_mono_l. lia. }
  assert (Ea : b_addr b / b_bytes b * b_bytes b = b_addr b)
    by (pose proof (N.div_mod (b_addr b) (b_bytes b)); lia).
  assert (Ds : exists p, span b = p * b_bytes b) by (exists (b_beats b); unfold span; lia).
  unfold a, base, beat_addr. rewrite Hk. fold (span b). rewrite Ea.
  pose proof (N.div_mod (b_addr b) (span b) ltac:(lia)) as D.
  pose proof (N.mod_lt (b_addr b) (span b) ltac:(lia)) as M.
  clear a base. remember (b_addr b) as x. remember (span b) as s. remember (b_bytes b) as nb.
  remember (x / s) as q eqn:Eq. remember (x mod s) as r eqn:Er.
  assert (Ebase : x = q * s + r) by lia. clear D.
  assert (EA : (if n =? 0 then x else if q * s + s <=? x + n * nb then x + n * nb - s else x + n * nb)
               = q * s + (r + n * nb) mod s).
  { destruct (N.eqb_spec n 0) as [->|Nz].
    - rewrite N.add_0_r, N.mod_small by exact M. exact Ebase.
    - destruct (N.leb_spec (q * s + s) (x + n * nb)).
      + replace (r + n * nb) with (r + n * nb - s + 1 * s) by lia.
        rewrite N.mod_add, N.mod_small by lia. lia.
      + rewrite N.mod_small by lia. lia. }
  rewrite EA. split; [replace (x - q * s) with r by (clear - Ebase; lia); reflexivity|].
  pose proof (N.div_mod (r + n * nb) s ltac:(lia)) as DK.
  remember ((r + n * nb) / s) as k. remember ((r + n * nb) mod s) as z.
  assert (Z : q * s + z + k * s = x + n * nb) by (clear - DK Ebase; lia).
  split.
  - destruct Ds as [p Ep]. rewrite <- (N.mod_add (q * s + z) (k * p) nb) by lia.
    replace (q * s + z + k * p * nb) with (x + n * nb) by (rewrite <- Z, Ep; lia).
    rewrite N.mod_add by lia. exact Hal.
  - unfold wrap_lanes. rewrite <- Heqs, <- Heqx. intros [[p Ep]|[Hd Hr]].
    + rewrite <- Z, Ep. replace (q * (p * B) + z + k * (p * B)) with (q * (p * B) + z + k * p * B) by lia.
      symmetry. apply N.mod_add. lia.
    + assert (r = 0) by (rewrite Er; exact Hr).
      assert (k = 0).
      { destruct (N.eq_dec k 0) as [|Nk]; [assumption|]. exfalso.
        assert (K1 : 1 * s <= k * s) by (apply N.mul_le_mono_r; clear - Nk; lia). clear - K1 DK H Hs Hn Wp. lia. }
      rewrite <- Z. replace (k * s) with 0 by (clear - H0; subst k; lia). rewrite N.add_0_r. reflexivity.
Qed.

Lemma legal_lane B b n w l : 0 < B -> 0 < b_bytes b -> (b_bytes b | B) -> strobes_legal B b n w ->
  nth l (w_strb w) false = true ->
  let a := beat_addr b n in a mod B <= N.of_nat l < a mod B + (b_bytes b - a mod b_bytes b).
Proof.
  intros Bp Wp D [_ [_ H]] E a. destruct (H l E) as [x [H1 H2]]. subst l.
  unfold beat_range in H1. fold a in H1. apply in_map_iff in H1. destruct H1 as [j [<- Hj]]. apply in_seq in Hj.
  pose proof (window_fits a (b_bytes b) B Wp Bp D) as F.
  unfold lane. rewrite lane_step; [lia|exact Bp|lia].
Qed.

(** ** The three kinds of write bursts *)
Lemma incr_fill B b junk ws : incr_burst B b -> b_bytes b = B -> N.of_nat (length ws) = b_beats b ->
  let f := fill_beats B (data_len B b) (tr_addr B b) true junk [] ws in
  N.of_nat (length f) = data_len B b /\
  enabled (accesses (mkGp C_WRITE (tr_addr B b) (map snd f) (entries_be f) (tr_sw B b) St_INCOMPLETE)) =
  burst_writes B b ws.
Proof.
  intros [HB [W [Hw [Hk Hend]]]] Hfull Hl f. pose proof (bus_pos _ HB) as Bp.
  pose proof (align_split (b_addr b) B Bp) as EA. pose proof (align_mod (b_addr b) B Bp) as EM.
  pose proof (N.mod_lt (b_addr b) B ltac:(lia)) as Mb.
  assert (EL : data_len B b = B - b_addr b mod B + (b_beats b - 1) * B).
  { unfold data_len. rewrite Hk, Hfull, EM. reflexivity. }
  assert (ET : tr_addr B b = b_addr b) by (unfold tr_addr; rewrite Hk; reflexivity).
  assert (ES : tr_sw B b = data_len B b) by (unfold tr_sw; rewrite Hk; reflexivity).
  assert (Hb1 : 1 <= b_beats b) by (unfold b_beats; lia).
  assert (Hu : b_addr b + data_len B b <= u64).
  { rewrite EL. unfold span in Hend. rewrite Hfull in Hend. fold (align (b_addr b) B) in Hend.
    rewrite N.mul_sub_distr_r. assert (1 * B <= b_beats b * B) by (apply N.mul_le_mono_r; exact Hb1). lia. }
  assert (P : fill_plan B b (b_addr b) (fun i => b_addr b + N.of_nat i) (data_len B b) ws).
  { split.
    - destruct ws as [|w0 ws]; [cbn [length] in Hl; lia|]. cbn [length]. rewrite EM.
      replace (N.of_nat (length (w0 :: ws))) with (N.of_nat (length ws) + 1) in Hl by (cbn [length]; lia).
      rewrite EL, <- Hl. replace (N.of_nat (length ws) + 1 - 1) with (N.of_nat (length ws)) by lia.
      remember (b_addr b mod B) as r. clear - Mb. lia.
    - intros n w Hn. rewrite Hfull. unfold beat_addr. rewrite Hk, Hfull. fold (align (b_addr b) B).
      destruct n as [|n]; cbn match.
      + cbn [N.of_nat N.eqb]. rewrite EM. split; [lia|]. split; [intros l Hl2 _; lia|].
        intros l Hl2. lia.
      + replace (N.of_nat (S n) =? 0) with false by lia.
        assert (Em : (align (b_addr b) B + N.of_nat (S n) * B) mod B = 0).
        { unfold align. rewrite N.mod_add, N.mod_mul by lia. reflexivity. }
        rewrite Em. split; [lia|]. split; [intros l Hl2 _; lia|].
        intros l Hl2. rewrite EM.
        assert (E2 : align (align (b_addr b) B + N.of_nat (S n) * B) B = align (b_addr b) B + N.of_nat (S n) * B).
        { pose proof (align_split (align (b_addr b) B + N.of_nat (S n) * B) B Bp) as X. rewrite Em in X. lia. }
        rewrite E2. remember (b_addr b mod B) as r. remember (align (b_addr b) B) as al. clear - EA Mb Hl2. lia. }
  assert (HW : bus_width (b_bytes b)) by exact W.
  destruct (fill_all B b (b_addr b) junk (fun i => b_addr b + N.of_nat i) HB W Hw (data_len B b) ws P) as [F1 F2].
  unfold f. rewrite ET in *. split; [exact F1|].
  remember (fill_beats B (data_len B b) (b_addr b) true junk [] ws) as f0.
  unfold accesses. cbn [g_data]. rewrite map_length.
  rewrite (entries_enabled _ (fun i => b_addr b + N.of_nat i)); [exact F2|].
  intros i Hi. unfold access_at, byte_addr, stream_off. cbn [g_addr g_sw g_be g_data]. rewrite ES.
  replace (data_len B b =? 0) with false by lia.
  rewrite (N.mod_small (N.of_nat i)) by lia. rewrite N.mod_small by lia. reflexivity.
Qed.

Lemma fixed_fill B b junk ws : fixed_burst B b -> N.of_nat (length ws) = b_beats b -> beats_legal B b ws ->
  let f := fill_beats B (data_len B b) (tr_addr B b) true junk [] ws in
  N.of_nat (length f) = data_len B b /\
  enabled (accesses (mkGp C_WRITE (tr_addr B b) (map snd f) (entries_be f) (tr_sw B b) St_INCOMPLETE)) =
  burst_writes B b ws.
Proof.
  intros [HB [W [Hw [Hk Hend]]]] Hl Hleg f. pose proof (bus_pos _ HB) as Bp. pose proof (bus_pos _ W) as Wp.
  assert (EL : data_len B b = b_beats b * B) by (unfold data_len; rewrite Hk; reflexivity).
  assert (ET : tr_addr B b = align (b_addr b) B) by (unfold tr_addr; rewrite Hk; reflexivity).
  assert (ES : tr_sw B b = B) by (unfold tr_sw; rewrite Hk; reflexivity).
  assert (E0 : align (b_addr b) B - align (align (b_addr b) B) B = 0).
  { rewrite align_mod by exact Bp. unfold align. apply N.mod_mul. lia. }
  set (A := fun i => align (b_addr b) B + N.of_nat i mod B).
  assert (P : fill_plan B b (align (b_addr b) B) A (data_len B b) ws).
  { split.
    - destruct ws as [|w0 ws]; [unfold b_beats in Hl; cbn [length] in Hl; lia|]. cbn [length]. rewrite E0.
      rewrite EL, <- Hl. cbn [length N.to_nat]. rewrite N2Nat.inj_mul, Nat2N.id. cbn [Nat.mul]. lia.
    - intros n w Hn. rewrite E0. cbn [N.to_nat].
      assert (Eb : beat_addr b (N.of_nat n) = b_addr b) by (unfold beat_addr; rewrite Hk; reflexivity).
      rewrite Eb. destruct n as [|n]; (split; [lia|]); (split; [|]).
      + intros l _ E. pose proof (legal_lane B b _ w l Bp Wp (bus_divide _ _ W HB Hw) (Hleg _ _ Hn) E) as X.
        rewrite Eb in X. exact X.
      + intros l Hl2. unfold A. cbn [Nat.add]. rewrite Nat.sub_0_r, N.mod_small by lia. reflexivity.
      + intros l _ E. pose proof (legal_lane B b _ w l Bp Wp (bus_divide _ _ W HB Hw) (Hleg _ _ Hn) E) as X.
        rewrite Eb in X. exact X.
      + intros l Hl2. unfold A.
        replace (N.of_nat (N.to_nat B - 0 + n * N.to_nat B + (l - 0))) with (N.of_nat l + N.of_nat (S n) * B) by lia.
        rewrite N.mod_add by lia. rewrite N.mod_small by lia. reflexivity. }
  destruct (fill_all B b (align (b_addr b) B) junk A HB W Hw (data_len B b) ws P) as [F1 F2].
  unfold f. rewrite ET in *. split; [exact F1|].
  remember (fill_beats B (data_len B b) (align (b_addr b) B) true junk [] ws) as f0.
  unfold accesses. cbn [g_data]. rewrite map_length.
  rewrite (entries_enabled _ A); [exact F2|].
  intros i Hi. unfold access_at, byte_addr, stream_off. cbn [g_addr g_sw g_be g_data]. rewrite ES.
  replace (B =? 0) with false by lia. unfold A.
  pose proof (N.mod_lt (N.of_nat i) B ltac:(lia)). unfold align in *.
  rewrite (N.mod_small (_ + _) u64) by lia. reflexivity.
Qed.

Lemma wrap_fill B b junk ws : wrap_burst B b -> b_bytes b = B -> N.of_nat (length ws) = b_beats b ->
  let f := fill_beats B (data_len B b) (tr_addr B b) true junk [] ws in
  N.of_nat (length f) = data_len B b /\
  enabled (wrap_accesses (mkGp C_WRITE (tr_addr B b) (map snd f) (entries_be f) (tr_sw B b) St_INCOMPLETE)) =
  burst_writes B b ws /\ tr_sw B b = data_len B b.
Proof.
  intros [HB [W [Hw [Hk [Hal Hend]]]]] Hfull Hl f. pose proof (bus_pos _ HB) as Bp.
  pose proof (align_mod (b_addr b) B Bp) as EM. rewrite Hfull in Hal. rewrite Hal in EM.
  assert (Hb1 : 1 <= b_beats b) by (unfold b_beats; lia).
  assert (EL : data_len B b = span b).
  { unfold data_len, span. rewrite Hk, Hfull, EM. rewrite N.mul_sub_distr_r.
    assert (1 * B <= b_beats b * B) by (apply N.mul_le_mono_r; exact Hb1). lia. }
  assert (ET : tr_addr B b = b_addr b) by (unfold tr_addr; rewrite Hk; reflexivity).
  assert (ES : tr_sw B b = span b) by (unfold tr_sw; rewrite Hk; reflexivity).
  set (base := b_addr b / span b * span b).
  assert (Hsp : 0 < span b) by (unfold span; rewrite Hfull; apply N.mul_pos_pos; lia).
  assert (Hbase : base <= b_addr b) by (unfold base; rewrite N.mul_comm; apply N.mul_div_le; lia).
  set (A := fun i => base + (b_addr b - base + N.of_nat i) mod span b).
  assert (P : fill_plan B b (b_addr b) A (data_len B b) ws).
  { split.
    - destruct ws as [|w0 ws]; [unfold b_beats in Hl; cbn [length] in Hl; lia|]. cbn [length]. rewrite EM.
      rewrite EL. unfold span. rewrite Hfull, <- Hl. cbn [length N.to_nat]. rewrite N2Nat.inj_mul, Nat2N.id. lia.
    - intros n w Hn. rewrite EM, Hfull. cbn [N.to_nat].
      assert (Hnb : N.of_nat n < b_beats b).
      { rewrite <- Hl. assert (n < length ws)%nat by (apply nth_error_Some; rewrite Hn; discriminate). lia. }
      destruct (wrap_beat B b (N.of_nat n) W Hk ltac:(rewrite Hfull; exact Hal) Hnb Bp) as [X1 [X2 _]].
      cbn zeta in X1, X2. fold base in X1. rewrite Hfull in X1, X2. rewrite X2.
      split; [destruct n; lia|]. split; [intros l Hl2 _; lia|].
      intros l Hl2.
      assert (Eal : align (beat_addr b (N.of_nat n)) B = beat_addr b (N.of_nat n)).
      { pose proof (align_split (beat_addr b (N.of_nat n)) B Bp) as X. rewrite X2 in X. lia. }
      rewrite Eal, X1. unfold A. rewrite <- N.add_assoc. f_equal.
      assert (Epos : N.of_nat ((match n with O => 0 | S n' => N.to_nat B - 0 + n' * N.to_nat B end) +
                     (l - match n with O => 0 | _ => 0 end)) = N.of_nat n * B + N.of_nat l).
      { destruct n; lia. }
      rewrite Epos, N.add_assoc. apply lane_step; [exact Hsp|].
      assert (Hl3 : N.of_nat l < B) by (destruct n; lia).
      assert (Dv : (B | span b)) by (exists (b_beats b); unfold span; rewrite Hfull; lia).
      pose proof (window_fits (b_addr b - base + N.of_nat n * B) B (span b) Bp Hsp Dv) as F.
      assert (Y : (b_addr b - base + N.of_nat n * B) mod B = 0).
      { rewrite N.mod_add by lia. unfold base. destruct Dv as [q Eq]. rewrite Eq at 2. rewrite N.mul_assoc.
        pose proof (N.div_mod (b_addr b) B ltac:(lia)) as D. rewrite Hal, N.add_0_r in D.
        rewrite D at 1. rewrite (N.mul_comm B), <- N.mul_sub_distr_r. apply N.mod_mul. lia. }
      rewrite Y in F. remember ((b_addr b - base + N.of_nat n * B) mod span b) as z. clear - F Hl3. lia. }
  destruct (fill_all B b (b_addr b) junk A HB W Hw (data_len B b) ws P) as [F1 F2].
  unfold f. rewrite ET in *. split; [exact F1|]. split; [|rewrite ES, EL; reflexivity].
  remember (fill_beats B (data_len B b) (b_addr b) true junk [] ws) as f0.
  unfold wrap_accesses. cbn [g_data]. rewrite map_length.
  rewrite (entries_enabled _ A); [exact F2|].
  intros i Hi. unfold wrap_access_at, wrap_base, g_len. cbn [g_addr g_sw g_be g_data].
  rewrite map_length, F1, EL. fold base. unfold A.
  pose proof (N.mod_lt (b_addr b - base + N.of_nat i) (span b) ltac:(lia)).
  rewrite (N.mod_small (_ + _) u64) by lia. reflexivity.
Qed.
