(** Lemmas about the tlm2axi model. *)
From Verif Require Import Base BaseFacts TlmModel TlmSpec TlmFacts AxiSpec WrapSpec Tlm2AxiSpec Tlm2AxiModel.
Open Scope N_scope.

(** ** Powers of two *)
Lemma width_valid_pow w : width_valid w = true <-> bus_width w.
Proof.
  unfold width_valid, bus_width. split.
  - intros H. apply existsb_exists in H. destruct H as [x [Hx E]]. apply N.eqb_eq in E. subst x.
    repeat (destruct Hx as [<-|Hx]; [(exists 0 + exists 1 + exists 2 + exists 3 + exists 4 + exists 5 + exists 6 + exists 7); split; [reflexivity|lia]|]).
    destruct Hx.
  - intros [k [-> Hk]].
    assert (H : k = 0 \/ k = 1 \/ k = 2 \/ k = 3 \/ k = 4 \/ k = 5 \/ k = 6 \/ k = 7) by lia.
    repeat destruct H as [->|H]; try reflexivity. subst k. reflexivity.
Qed.

Lemma bus_pos B : bus_width B -> 0 < B.
Proof. intros [k [-> _]]. apply N.neq_0_lt_0, N.pow_nonzero. discriminate. Qed.
Lemma bus_le B : bus_width B -> B <= 128.
Proof. intros [k [-> H]]. change 128 with (2 ^ 7). apply N.pow_le_mono_r; lia. Qed.

Lemma bus_divide w B : bus_width w -> bus_width B -> w <= B -> (w | B).
Proof.
  intros [j [-> Hj]] [k [-> Hk]] H.
  assert (j <= k) by (apply N.pow_le_mono_r_iff in H; lia).
  exists (2 ^ (k - j)). rewrite <- N.pow_add_r. f_equal. lia.
Qed.

Lemma land_mask a w : bus_width w -> N.land a (w - 1) = a mod w.
Proof.
  intros [j [-> _]]. rewrite <- N.land_ones. f_equal.
  rewrite N.ones_equiv. lia.
Qed.

Lemma axsize_bytes w s : axsize w = Ok s -> 2 ^ s = w.
Proof.
  unfold axsize. destruct (width_valid w) eqn:E; [|discriminate]. intros H. apply Ok_inj in H. subst s.
  apply width_valid_pow in E. destruct E as [k [-> _]]. rewrite N.log2_pow2 by lia. reflexivity.
Qed.

(** ** Residues *)
Lemma mod_mod_div a w B : 0 < w -> 0 < B -> (w | B) -> a mod B mod w = a mod w.
Proof.
  intros Hw HB [q ->]. assert (Hq : q <> 0) by (intros ->; lia).
  rewrite (N.mul_comm q w), N.mod_mul_r by lia.
  rewrite (N.mul_comm w), N.mod_add by lia. apply N.mod_mod. lia.
Qed.

(** A window that ends at a multiple of [w] does not leave the bus word. *)
Lemma window_fits a w B : 0 < w -> 0 < B -> (w | B) -> a mod B + (w - a mod w) <= B.
Proof.
  intros Hw HB D. rewrite <- (mod_mod_div a w B Hw HB D).
  assert (H1 : a mod B < B) by (apply N.mod_lt; lia).
  destruct D as [q ->]. set (r := a mod (q * w)) in *.
  pose proof (N.div_mod r w ltac:(lia)) as E. pose proof (N.mod_lt r w ltac:(lia)) as L.
  assert (r / w < q) by (apply N.div_lt_upper_bound; lia).
  assert (w * (r / w) + w <= q * w).
  { replace (w * (r / w) + w) with (w * (r / w + 1)) by lia. rewrite (N.mul_comm q w).
    apply N.mul_le_mono_l. lia. }
  lia.
Qed.

Lemma lane_step A B j : 0 < B -> A mod B + j < B -> (A + j) mod B = A mod B + j.
Proof.
  intros HB H. rewrite <- N.add_mod_idemp_l by lia. apply N.mod_small. exact H.
Qed.

(** ** One write beat *)
Lemma lrotate_length l k : length (lrotate l k) = length l.
Proof. unfold lrotate. rewrite map_length, seq_length. reflexivity. Qed.

Lemma nth_map_seq {A} (f : nat -> A) n i d : (i < n)%nat -> nth i (map f (seq 0 n)) d = f i.
Proof.
  intros H. rewrite (nth_indep _ d (f 0%nat)) by (rewrite map_length, seq_length; exact H).
  rewrite (map_nth f). rewrite seq_nth by exact H. reflexivity.
Qed.

Lemma nth_lrotate f n k l : (l < n)%nat -> (k < n)%nat ->
  (forall i, (n - k <= i)%nat -> f i = false) ->
  nth l (lrotate (map f (seq 0 n)) k) false = if (k <=? l)%nat then f (l - k)%nat else false.
Proof.
  intros Hl Hk Hf. unfold lrotate. rewrite map_length, seq_length.
  rewrite nth_map_seq by exact Hl.
  destruct (Nat.leb_spec k l).
  - replace (l + n - k)%nat with ((l - k) + 1 * n)%nat by lia.
    rewrite Nat.mod_add by lia. rewrite Nat.mod_small by lia. apply nth_map_seq. lia.
  - rewrite Nat.mod_small by lia. rewrite nth_map_seq by lia. apply Hf. lia.
Qed.

Section Beat.
Context (B : N) (t : ttrans) (first last : bool) (off pos : N).
Let g := tt_gp t.
Let a := (g_addr g + off mod g_sw g) mod u64.
Let w := wbeat_len B t first off pos.
Hypothesis HB : 0 < B.

Lemma wbeat_len_lane : w <= B - a mod B.
Proof.
  unfold w, wbeat_len. fold g. fold a. generalize (B - a mod B). intros x.
  destruct (match tt_kind t with B_FIXED => true | _ => first end).
  - etransitivity; [apply N.le_min_l|]. etransitivity; [apply N.le_min_l|].
    etransitivity; [apply N.le_min_r|]. apply N.le_min_l.
  - etransitivity; [apply N.le_min_l|]. etransitivity; [apply N.le_min_r|]. apply N.le_min_l.
Qed.

Lemma wbeat_strb l : (l < N.to_nat B)%nat ->
  nth l (w_strb (prepare_wbeat B t first last off pos)) false =
  (a mod B <=? N.of_nat l) && (N.of_nat l <? a mod B + w) && be_at (g_be g) (N.of_nat l - a mod B + off).
Proof.
  intros Hl. unfold prepare_wbeat. cbn [w_strb]. fold g. fold a. fold w.
  assert (Ha : a mod B < B) by (apply N.mod_lt; lia).
  pose proof wbeat_len_lane as Hw.
  rewrite (nth_lrotate _ (N.to_nat B)) by
    (first [lia | intros i Hi; cbn beta; replace (N.of_nat i <? w) with false by lia; reflexivity]).
  destruct (Nat.leb_spec (N.to_nat (a mod B)) l).
  - replace (a mod B <=? N.of_nat l) with true by lia. cbn [andb].
    replace (N.of_nat (l - N.to_nat (a mod B))) with (N.of_nat l - a mod B) by lia.
    f_equal. lia.
  - replace (a mod B <=? N.of_nat l) with false by lia. reflexivity.
Qed.

Lemma wbeat_data j : (N.of_nat j < w) -> (N.to_nat (a mod B) + j < N.to_nat B)%nat ->
  nth (N.to_nat (a mod B) + j) (w_data (prepare_wbeat B t first last off pos)) 0 =
  nth (N.to_nat pos + j) (g_data g) 0.
Proof.
  intros Hj Hl. unfold prepare_wbeat. cbn [w_data]. fold g. fold a. fold w.
  rewrite nth_map_seq by lia.
  replace ((a mod B <=? N.of_nat (N.to_nat (a mod B) + j)) &&
           (N.of_nat (N.to_nat (a mod B) + j) <? a mod B + w)) with true by lia.
  f_equal. lia.
Qed.
End Beat.

(** Decoding one beat gives back its bytes. *)
Lemma flat_map_seq_prefix {A} (f h : nat -> list A) n m : (n <= m)%nat ->
  (forall i, (i < n)%nat -> f i = h i) -> (forall i, (n <= i < m)%nat -> f i = []) ->
  flat_map f (seq 0 m) = flat_map h (seq 0 n).
Proof.
  intros Hn H1 H2. replace m with (n + (m - n))%nat by lia.
  rewrite seq_app, flat_map_app. cbn [Nat.add].
  replace (flat_map f (seq n (m - n))) with (@nil A).
  - rewrite app_nil_r.
    assert (G : forall l, (forall i, In i l -> (i < n)%nat) -> flat_map f l = flat_map h l).
    { induction l as [|x l IH]; intros Hl; [reflexivity|]. cbn [flat_map].
      rewrite H1 by (apply Hl; left; reflexivity). f_equal. apply IH. intros i Hi. apply Hl. right. exact Hi. }
    apply G. intros i Hi. apply in_seq in Hi. lia.
  - symmetry. assert (G : forall l, (forall i, In i l -> (n <= i < m)%nat) -> flat_map f l = []).
    { induction l as [|x l IH]; intros Hl; [reflexivity|]. cbn [flat_map].
      rewrite H2 by (apply Hl; left; reflexivity). apply IH. intros i Hi. apply Hl. right. exact Hi. }
    apply G. intros i Hi. apply in_seq in Hi. lia.
Qed.

Lemma beat_decodes B b n t first last off pos A :
  0 < B -> (b_bytes b | B) -> 0 < b_bytes b -> beat_addr b n = A ->
  let g := tt_gp t in
  let w := wbeat_len B t first off pos in
  A mod B = (g_addr g + off mod g_sw g) mod u64 mod B ->
  w <= b_bytes b - A mod b_bytes b ->
  let x := prepare_wbeat B t first last off pos in
  beat_writes B b n x =
    flat_map (fun j => if be_at (g_be g) (off + N.of_nat j)
                       then [(A + N.of_nat j, nth (N.to_nat pos + j) (g_data g) 0)] else [])
             (seq 0 (N.to_nat w)) /\
  strobes_legal B b n x /\ w_last x = last.
Proof.
  intros HB HD Hnb EA g w EM Hw x.
  remember (b_bytes b) as nb eqn:Enb.
  pose proof (window_fits A nb B Hnb HB HD) as HF.
  assert (HA : A mod B < B) by (apply N.mod_lt; clear - HB; lia).
  assert (HL0 : forall j, A mod B + j < B -> (A + j) mod B = A mod B + j)
    by (intros j; apply lane_step, HB).
  assert (HS : forall l, (l < N.to_nat B)%nat -> nth l (w_strb x) false =
     (A mod B <=? N.of_nat l) && (N.of_nat l <? A mod B + w) && be_at (g_be g) (N.of_nat l - A mod B + off)).
  { intros l Hl. unfold x. rewrite (wbeat_strb B t first last off pos HB l Hl).
    fold g. fold w. rewrite <- EM. reflexivity. }
  assert (HV : forall j, N.of_nat j < w -> (N.to_nat (A mod B) + j < N.to_nat B)%nat ->
     nth (N.to_nat (A mod B) + j) (w_data x) 0 = nth (N.to_nat pos + j) (g_data g) 0).
  { intros j Hj Hl. unfold x. rewrite EM. apply (wbeat_data B t first last off pos); [exact HB|exact Hj|].
    fold g. rewrite <- EM. exact Hl. }
  assert (HLs : length (w_strb x) = N.to_nat B /\ length (w_data x) = N.to_nat B).
  { unfold x, prepare_wbeat. cbn [w_strb w_data]. rewrite lrotate_length, !map_length, seq_length. split; reflexivity. }
  assert (Hlast : w_last x = last) by reflexivity.
  clear EM. clearbody x w g. unfold lane in *.
  unfold beat_writes, strobes_legal, beat_range, lane. rewrite EA, <- Enb. clear Enb EA HD.
  remember (A mod B) as lo eqn:Elo. remember (A mod nb) as am eqn:Eam. clear Eam.
  assert (HL : forall j, (j < N.to_nat (nb - am))%nat -> N.to_nat ((A + N.of_nat j) mod B) = (N.to_nat lo + j)%nat).
  { intros j Hj. rewrite HL0 by (clear - Hj HF HA; lia). clear; lia. }
  clear HL0 Elo.
  split; [|split; [|exact Hlast]].
  - rewrite flat_map_concat_map, map_map, <- flat_map_concat_map.
    apply flat_map_seq_prefix; [lia| |].
    + intros i Hi. rewrite HL by lia. rewrite HS by lia.
      replace (lo <=? N.of_nat (N.to_nat lo + i)) with true by lia.
      replace (N.of_nat (N.to_nat lo + i) <? lo + w) with true by lia. cbn [andb].
      replace (N.of_nat (N.to_nat lo + i) - lo + off) with (off + N.of_nat i) by lia.
      destruct (be_at (g_be g) (off + N.of_nat i)); [|reflexivity].
      rewrite HV by lia. reflexivity.
    + intros i Hi. rewrite HL by lia. rewrite HS by lia.
      replace (N.of_nat (N.to_nat lo + i) <? lo + w) with false by lia.
      rewrite andb_false_r. reflexivity.
  - split; [apply HLs|]. split; [apply HLs|].
    intros l Hl. destruct (Nat.lt_ge_cases l (N.to_nat B)) as [Lt|Ge].
    2:{ rewrite nth_overflow in Hl; [discriminate|]. rewrite (proj1 HLs). exact Ge. }
    rewrite HS in Hl by exact Lt.
    apply andb_true_iff in Hl. destruct Hl as [Hl _]. apply andb_true_iff in Hl. destruct Hl as [L1 L2].
    exists (A + N.of_nat (l - N.to_nat lo)). split.
    + apply in_map_iff. exists (l - N.to_nat lo)%nat. split; [reflexivity|]. apply in_seq. lia.
    + rewrite HL by lia. lia.
Qed.

(** ** The loop *)
Definition fixed_kind (t : ttrans) : bool := match tt_kind t with B_FIXED => true | _ => false end.
Definition ofs (t : ttrans) (pos : N) : N := if fixed_kind t then 0 else pos.

(** [I n pos]: beat [n] starts at data position [pos].  The beats then carry the
    accesses [acc] and end with the announced last beat. *)
Definition plan (B : N) (b : aburst) (t : ttrans) (acc : nat -> access) (I : N -> N -> Prop) : Prop :=
  let g := tt_gp t in
  forall n pos, I n pos -> pos < g_len g ->
  let w := wbeat_len B t (n =? 0) (ofs t pos) pos in
  let A := beat_addr b n in
  0 < w /\ pos + w <= g_len g /\
  A mod B = (g_addr g + ofs t pos mod g_sw g) mod u64 mod B /\
  w <= b_bytes b - A mod b_bytes b /\
  (forall j, (j < N.to_nat w)%nat ->
     acc (N.to_nat pos + j)%nat =
     mkAcc (A + N.of_nat j) (a_en (acc (N.to_nat pos + j)%nat)) (nth (N.to_nat pos + j) (g_data g) 0)) /\
  (pos + w = g_len g -> n + 1 = tt_beats t) /\
  (pos + w < g_len g -> I (n + 1) (pos + w) /\ n + 1 < tt_beats t /\ w = b_bytes b - A mod b_bytes b).

(** The write side takes byte enables at the address offset. *)
Definition plan_en (B : N) (t : ttrans) (acc : nat -> access) (I : N -> N -> Prop) : Prop :=
  forall n pos j, I n pos -> N.of_nat j < wbeat_len B t (n =? 0) (ofs t pos) pos -> pos < g_len (tt_gp t) ->
  a_en (acc (N.to_nat pos + j)%nat) = be_at (g_be (tt_gp t)) (ofs t pos + N.of_nat j).

Section Loop.
Context (B : N) (b : aburst) (t : ttrans) (acc : nat -> access) (I : N -> N -> Prop).
Let g := tt_gp t.
Hypothesis HB : 0 < B.
Hypothesis HD : (b_bytes b | B).
Hypothesis Hnb : 0 < b_bytes b.
Hypothesis HI : plan B b t acc I.
Hypothesis HE : plan_en B t acc I.

Lemma enabled_app l1 l2 : enabled (l1 ++ l2) = enabled l1 ++ enabled l2.
Proof. unfold enabled. rewrite filter_app, map_app. reflexivity. Qed.

Lemma enabled_flat (f : nat -> access) l :
  enabled (map f l) = flat_map (fun i => if a_en (f i) then [(a_addr (f i), a_byte (f i))] else []) l.
Proof.
  unfold enabled. induction l as [|x l IH]; [reflexivity|]. cbn [map filter flat_map].
  destruct (a_en (f x)); cbn [map app]; rewrite IH; reflexivity.
Qed.

Lemma write_loop_ok : forall fuel n pos,
  (N.to_nat (g_len g) - N.to_nat pos <= fuel)%nat -> I n pos -> pos < g_len g ->
  exists ws, write_beats fuel B t (n + 1) pos (ofs t pos) = Ok ws /\
    writes_from B b n ws = enabled (map acc (seq (N.to_nat pos) (N.to_nat (g_len g - pos)))) /\
    (forall i w, nth_error ws i = Some w -> strobes_legal B b (n + N.of_nat i) w) /\
    n + N.of_nat (length ws) = tt_beats t /\
    map w_last ws = repeat false (length ws - 1) ++ [true].
Proof.
  induction fuel as [|fuel IH]; intros n pos Hf Hi Hp; [lia|].
  cbn [write_beats]. fold g. replace (g_len g <=? pos) with false by lia.
  replace (n + 1 =? 1) with (n =? 0) by (destruct (N.eqb_spec n 0), (N.eqb_spec (n + 1) 1); lia).
  pose proof (HI n pos Hi Hp) as HP. cbn zeta in HP. fold g in HP. destruct HP as [W1 [W2 [W3 [W4 [W5 [W6 W7]]]]]].
  pose proof (fun j H => HE n pos j Hi H Hp) as W8. fold g in W8.
  pose proof (beat_decodes B b n t (n =? 0) (n + 1 =? tt_beats t) (ofs t pos) pos (beat_addr b n)
                HB HD Hnb eq_refl) as D. cbn zeta in D. fold g in D.
  specialize (D W3 W4). destruct D as [D1 [D2 D3]]. clear W3 W4.
  remember (wbeat_len B t (n =? 0) (ofs t pos) pos) as w eqn:Ew.
  remember (prepare_wbeat B t (n =? 0) (n + 1 =? tt_beats t) (ofs t pos) pos) as x eqn:Ex.
  assert (Eo : (match tt_kind t with B_FIXED => ofs t pos | _ => ofs t pos + w end) = ofs t (pos + w)).
  { unfold ofs, fixed_kind. destruct (tt_kind t); reflexivity. }
  rewrite Eo.
  assert (Hbeat : beat_writes B b n x = enabled (map acc (seq (N.to_nat pos) (N.to_nat w)))).
  { rewrite D1. rewrite enabled_flat.
    replace (seq (N.to_nat pos) (N.to_nat w)) with (map (fun j => (N.to_nat pos + j)%nat) (seq 0 (N.to_nat w))).
    2:{ replace (seq (N.to_nat pos) (N.to_nat w)) with (map (fun i => i) (seq (N.to_nat pos) (N.to_nat w)))
          by apply map_id. apply (map_seq_shift (fun j => (N.to_nat pos + j)%nat) (fun i => i)). reflexivity. }
    rewrite (flat_map_concat_map _ (map _ _)), map_map, <- flat_map_concat_map.
    apply flat_map_seq_prefix; [lia| |intros i Hi2; lia].
    intros i Hi2. rewrite W5 by exact Hi2. cbn [a_en a_addr a_byte]. rewrite W8 by (clear - Hi2; lia). reflexivity. }
  destruct (N.eq_dec (pos + w) (g_len g)) as [E|E].
  - assert (Hnil : write_beats fuel B t (n + 1 + 1) (pos + w) (ofs t (pos + w)) = Ok []).
    { destruct fuel; cbn [write_beats]; fold g; replace (g_len g <=? pos + w) with true by lia; reflexivity. }
    rewrite Hnil. cbn [rmap rbind]. exists [x]. split; [reflexivity|].
    split; [cbn [writes_from]; rewrite app_nil_r, Hbeat; do 3 f_equal; lia|].
    split; [|split].
    + intros [|i] y Hy; cbn in Hy; [|destruct i; discriminate]. injection Hy as <-.
      rewrite N.add_0_r. exact D2.
    + cbn [length]. specialize (W6 E). lia.
    + cbn. rewrite D3. specialize (W6 E). rewrite W6, N.eqb_refl. reflexivity.
  - assert (Hlt : pos + w < g_len g) by (clear - W2 E; lia). destruct (W7 Hlt) as [I' [L' _]]. clear W6 W7.
    destruct (IH (n + 1) (pos + w)) as [ws [E1 [E2 [E3 [E4 E5]]]]]; [lia|exact I'|lia|].
    rewrite E1. cbn [rmap rbind]. exists (x :: ws). split; [reflexivity|].
    split; [|split; [|split]].
    + cbn [writes_from]. rewrite Hbeat, E2, <- enabled_app, <- map_app. do 2 f_equal.
      replace (N.to_nat (pos + w)) with (N.to_nat pos + N.to_nat w)%nat by lia.
      rewrite <- seq_app. f_equal. lia.
    + intros [|i] y Hy; cbn in Hy.
      * injection Hy as <-. rewrite N.add_0_r. exact D2.
      * replace (n + N.of_nat (S i)) with (n + 1 + N.of_nat i) by lia. apply E3, Hy.
    + cbn [length]. lia.
    + cbn [map length]. rewrite D3, E5.
      replace (n + 1 =? tt_beats t) with false by lia.
      destruct ws as [|y ws]; [cbn in E4; lia|]. cbn [length]. rewrite !Nat.sub_succ, Nat.sub_0_r.
      reflexivity.
Qed.
End Loop.

(** ** The burst announced on the address channel *)
Lemma address_phase_ok t b : address_phase t = Ok b ->
  bus_width (tt_bw t) /\ b_bytes b = tt_bw t /\ b_kind b = tt_kind t /\
  b_addr b = g_addr (tt_gp t) /\ b_len b = tt_beats t - 1.
Proof.
  unfold address_phase. destruct (axsize (tt_bw t)) as [s| | |] eqn:E; try discriminate.
  cbn [rmap rbind]. intros H. apply Ok_inj in H. subst b. cbn [b_kind b_addr b_len].
  split.
  - unfold axsize in E. destruct (width_valid (tt_bw t)) eqn:W; [|discriminate].
    apply width_valid_pow, W.
  - split; [unfold b_bytes; cbn [b_size]; apply axsize_bytes, E|]. repeat split.
Qed.

Lemma tr_valid_elim mx t : tr_valid mx t = true ->
  0 < g_len (tt_gp t) /\ 0 < g_sw (tt_gp t) /\ bus_width (tt_bw t) /\ tt_beats t <= mx /\
  g_cmd (tt_gp t) <> C_IGNORE.
Proof.
  unfold tr_valid. intros H.
  apply andb_true_iff in H. destruct H as [H H5].
  apply andb_true_iff in H. destruct H as [H H4].
  apply andb_true_iff in H. destruct H as [H H3].
  apply andb_true_iff in H. destruct H as [H1 H2].
  apply negb_true_iff, N.eqb_neq in H1. apply negb_true_iff, N.eqb_neq in H2.
  apply width_valid_pow in H3. apply N.leb_le in H4.
  repeat split; try lia; [exact H3|]. intros E. rewrite E in H5. discriminate.
Qed.

Lemma valid_address mx t : tr_valid mx t = true -> exists b, address_phase t = Ok b.
Proof.
  intros H. apply tr_valid_elim in H. destruct H as [_ [_ [W _]]].
  unfold address_phase, axsize. rewrite (proj2 (width_valid_pow _) W). eexists. reflexivity.
Qed.

(** Number of beats: the last beat is the one that reaches the end. *)
Lemma ceil_last len al w n : 0 < w -> n * w < len + al -> len + al <= (n + 1) * w ->
  (len + al + w - 1) / w = n + 1.
Proof.
  intros Hw H1 H2. symmetry. apply (N.div_unique _ w (n + 1) (len + al - n * w - 1)).
  - lia.
  - lia.
Qed.
Lemma ceil_more len al w n : 0 < w -> (n + 1) * w < len + al -> n + 1 < (len + al + w - 1) / w.
Proof.
  intros Hw H. assert (n + 2 <= (len + al + w - 1) / w); [|lia].
  apply N.div_le_lower_bound; lia.
Qed.

(** A beat-sized chunk: the minimum of the code's limits. *)
Lemma min_drop x u v z r : r <= z -> r <= u -> x <= v ->
  N.min (N.min (N.min x (N.min u v)) z) r = N.min x r.
Proof.
  intros H1 H2 H3. rewrite <- !N.min_assoc. rewrite (N.min_r z r) by exact H1.
  rewrite (N.min_comm v r), (N.min_assoc u r v), (N.min_r u r), (N.min_comm r v), (N.min_assoc x v r) by exact H2.
  rewrite (N.min_l x v) by exact H3. reflexivity.
Qed.

(** ** INCR *)
Section Incr.
Context (B mx : N) (t : ttrans) (b : aburst).
Let g := tt_gp t.
Hypothesis HB : bus_width B.
Hypothesis Hbw : tt_bw t <= B.
Hypothesis Hk : tt_kind t = B_INCR.
Hypothesis Hsw : g_len g <= g_sw g.
Hypothesis Hend : g_addr g + g_len g <= u64.
Hypothesis Hlen : g_len g + 256 < u32.
Hypothesis Hn : tt_beats t = num_beats B_INCR (g_addr g) (g_len g) (tt_bw t).
Hypothesis Hv : tr_valid mx t = true.
Hypothesis Hb : address_phase t = Ok b.

Definition incr_at (n pos : N) : Prop :=
  if n =? 0 then pos = 0
  else g_addr g + pos = g_addr g / tt_bw t * tt_bw t + n * tt_bw t.

Lemma incr_addr n pos : incr_at n pos -> beat_addr b n = g_addr g + pos.
Proof.
  destruct (address_phase_ok _ _ Hb) as [W [E1 [E2 [E3 E4]]]].
  unfold incr_at, beat_addr. rewrite E1, E2, E3, Hk. destruct (n =? 0); [intros ->; symmetry; apply N.add_0_r|].
  intros H. symmetry. exact H.
Qed.

Lemma incr_beats : forall n, tt_bw t * n < g_len g + g_addr g mod tt_bw t ->
  (g_len g + g_addr g mod tt_bw t <= tt_bw t * (n + 1) -> n + 1 = tt_beats t) /\
  (tt_bw t * (n + 1) < g_len g + g_addr g mod tt_bw t -> n + 1 < tt_beats t).
Proof.
  destruct (tr_valid_elim _ _ Hv) as [L [_ [W _]]]. fold g in L.
  pose proof (bus_pos _ W) as Wp. pose proof (bus_le _ W) as Wl.
  intros n H. rewrite Hn. unfold num_beats.
  assert (Em : g_addr g - g_addr g / tt_bw t * tt_bw t = g_addr g mod tt_bw t).
  { pose proof (N.div_mod (g_addr g) (tt_bw t)). lia. }
  rewrite Em. pose proof (N.mod_lt (g_addr g) (tt_bw t) ltac:(lia)) as Lm.
  remember (g_addr g mod tt_bw t) as al. clear Em Heqal.
  rewrite N.mod_small by lia.
  split; intros H'; [symmetry; apply ceil_last | apply ceil_more]; lia.
Qed.

Lemma incr_step n pos : incr_at n pos -> pos < g_len g ->
  let w := wbeat_len B t (n =? 0) pos pos in
  w = N.min (g_len g - pos) (tt_bw t - (g_addr g + pos) mod tt_bw t) /\
  (pos + w = g_len g -> n + 1 = tt_beats t) /\
  (pos + w < g_len g -> incr_at (n + 1) (pos + w) /\ n + 1 < tt_beats t).
Proof.
  destruct (tr_valid_elim _ _ Hv) as [L [S0 [W _]]]. fold g in L, S0.
  pose proof (bus_pos _ W) as Wp. pose proof (bus_pos _ HB) as Bp.
  intros Hi Hp w.
  assert (Ew : w = N.min (g_len g - pos) (tt_bw t - (g_addr g + pos) mod tt_bw t)).
  { unfold w, wbeat_len. fold g. rewrite Hk, (N.mod_small pos) by lia.
    rewrite (N.mod_small (g_addr g + pos)) by lia.
    rewrite (land_mask _ _ W).
    pose proof (window_fits (g_addr g + pos) (tt_bw t) B Wp Bp (bus_divide _ _ W HB Hbw)) as F.
    pose proof (N.mod_lt (g_addr g + pos) (tt_bw t) ltac:(lia)) as M.
    unfold incr_at in Hi. destruct (n =? 0).
    - apply min_drop; clear - F M Hsw; lia.
    - assert (Z : (g_addr g + pos) mod tt_bw t = 0).
      { rewrite Hi. rewrite <- N.mul_add_distr_r. apply N.mod_mul. lia. }
      rewrite Z in *. rewrite N.sub_0_r in *.
      rewrite <- (N.min_id (tt_bw t)) at 1. rewrite N.min_assoc.
      apply min_drop; clear - F M Hsw; lia. }
  clearbody w. split; [exact Ew|].
  assert (Q : g_addr g / tt_bw t * tt_bw t + g_addr g mod tt_bw t = g_addr g).
  { pose proof (N.div_mod (g_addr g) (tt_bw t)). lia. }
  pose proof (N.mod_lt (g_addr g) (tt_bw t) ltac:(lia)) as M.
  assert (Hpos : tt_bw t * n < g_len g + g_addr g mod tt_bw t /\
                 pos + (tt_bw t - (g_addr g + pos) mod tt_bw t) + g_addr g mod tt_bw t = tt_bw t * (n + 1)).
  { unfold incr_at in Hi. destruct (N.eqb_spec n 0) as [->|Nz].
    - subst pos. rewrite N.add_0_r. lia.
    - assert (Z : (g_addr g + pos) mod tt_bw t = 0).
      { rewrite Hi. rewrite <- N.mul_add_distr_r. apply N.mod_mul. lia. }
      rewrite Z. remember (g_addr g / tt_bw t * tt_bw t) as al. clear - Hi Q Hp Wp. lia. }
  destruct Hpos as [P1 P2]. destruct (incr_beats n P1) as [C1 C2].
  split.
  - intros E. apply C1. lia.
  - intros E. assert (Ew' : w = tt_bw t - (g_addr g + pos) mod tt_bw t) by lia.
    split; [|apply C2; lia].
    unfold incr_at. replace (n + 1 =? 0) with false by lia.
    rewrite Ew'. remember (g_addr g / tt_bw t * tt_bw t) as al. clear - Q P2. lia.
Qed.

Lemma incr_plan : plan B b t (access_at g) incr_at.
Proof.
  destruct (address_phase_ok _ _ Hb) as [W [E1 [E2 [E3 E4]]]].
  destruct (tr_valid_elim _ _ Hv) as [L [S0 _]]. fold g in L, S0.
  pose proof (bus_pos _ W) as Wp. pose proof (bus_pos _ HB) as Bp.
  unfold plan. fold g.
  intros n pos Hi Hp. fold g in Hp |- *. cbn zeta. unfold ofs, fixed_kind; rewrite Hk; cbn match.
  destruct (incr_step n pos Hi Hp) as [S1 [S2 S3]]. cbn zeta in S1, S2, S3.
  rewrite (incr_addr n pos Hi), E1.
  pose proof (N.mod_lt (g_addr g + pos) (tt_bw t) ltac:(lia)) as M.
  remember (wbeat_len B t (n =? 0) pos pos) as w. clear Heqw.
  split; [lia|]. split; [lia|]. split; [|split; [lia|split; [|split; [assumption|]]]].
  3:{ intros E. destruct (S3 E). split; [assumption|]. split; [assumption|]. clear - S1 E. lia. }
  + rewrite (N.mod_small pos) by lia. rewrite (N.mod_small (g_addr g + pos) u64) by lia. reflexivity.
  + intros j Hj. unfold access_at, byte_addr, stream_off.
    replace (g_sw g =? 0) with false by lia.
    assert (Hj' : pos + N.of_nat j < g_len g) by lia.
    replace (N.of_nat (N.to_nat pos + j)) with (pos + N.of_nat j) by lia.
    rewrite (N.mod_small (pos + N.of_nat j)) by lia.
    rewrite N.mod_small by lia. cbn [a_en]. f_equal. lia.
Qed.

Lemma incr_en : plan_en B t (access_at g) incr_at.
Proof.
  intros n pos j _ _ _. unfold ofs, fixed_kind; rewrite Hk. cbn [access_at a_en]. f_equal. lia.
Qed.

Lemma incr_write : exists ws, write_beats (length (g_data g)) B t 1 0 0 = Ok ws /\
  burst_writes B b ws = enabled (accesses g) /\ beats_legal B b ws /\ last_legal b ws.
Proof.
  destruct (address_phase_ok _ _ Hb) as [W [E1 [E2 [E3 E4]]]].
  destruct (tr_valid_elim _ _ Hv) as [L [S0 _]]. fold g in L, S0.
  pose proof (bus_pos _ W) as Wp. pose proof (bus_pos _ HB) as Bp.
  destruct (write_loop_ok B b t (access_at g) incr_at Bp) with (fuel := length (g_data g)) (n := 0) (pos := 0)
    as [ws [F1 [F2 [F3 [F4 F5]]]]].
  - rewrite E1. apply bus_divide; assumption.
  - rewrite E1. exact Wp.
  - exact incr_plan.
  - exact incr_en.
  - fold g. unfold g_len. lia.
  - reflexivity.
  - exact L.
  - unfold ofs in F1. assert (F0 : write_beats (length (g_data g)) B t 1 0 0 = Ok ws) by (destruct (fixed_kind t); exact F1).
    exists ws. split; [exact F0|]. split; [|split; [|split]].
    + unfold burst_writes. rewrite F2. fold g. unfold accesses. do 3 f_equal. unfold g_len. lia.
    + intros n w Hw. apply (F3 n w) in Hw. exact Hw.
    + unfold b_beats. rewrite E4. destruct ws; [discriminate F5|]. cbn [length] in *. clear - F4. lia.
    + exact F5.
Qed.
End Incr.

(** ** FIXED *)
Section Fixed.
Context (B mx : N) (t : ttrans) (b : aburst).
Let g := tt_gp t.
Hypothesis HB : bus_width B.
Hypothesis Hbw : tt_bw t <= B.
Hypothesis Hk : tt_kind t = B_FIXED.
Hypothesis Hsw : g_sw g = tt_bw t - g_addr g mod tt_bw t.
Hypothesis Hend : g_addr g + g_sw g <= u64.
Hypothesis Hlen : g_len g + 256 < u32.
Hypothesis Hn : tt_beats t = num_beats B_FIXED (g_addr g) (g_len g) (tt_bw t).
Hypothesis Hv : tr_valid mx t = true.
Hypothesis Hb : address_phase t = Ok b.

Definition fixed_at (n pos : N) : Prop := pos = n * g_sw g.

Lemma fixed_beats : forall n, n * g_sw g < g_len g ->
  (g_len g <= (n + 1) * g_sw g -> n + 1 = tt_beats t) /\
  ((n + 1) * g_sw g < g_len g -> n + 1 < tt_beats t).
Proof.
  destruct (tr_valid_elim _ _ Hv) as [L [S0 [W _]]]. fold g in L, S0.
  pose proof (bus_pos _ W) as Wp. pose proof (bus_le _ W) as Wl.
  intros n H. rewrite Hn. unfold num_beats.
  assert (Em : g_addr g - g_addr g / tt_bw t * tt_bw t = g_addr g mod tt_bw t).
  { pose proof (N.div_mod (g_addr g) (tt_bw t)). lia. }
  rewrite Em, <- Hsw. assert (Ls : g_sw g <= 128) by lia. clear Em Hsw.
  replace (g_len g + g_sw g - 1) with (g_len g + 0 + g_sw g - 1) by lia.
  rewrite N.mod_small by lia.
  split; intros H'; [symmetry; apply ceil_last | apply ceil_more]; lia.
Qed.

Lemma fixed_len n pos : fixed_at n pos -> pos < g_len g ->
  wbeat_len B t (n =? 0) 0 pos = N.min (g_len g - pos) (g_sw g).
Proof.
  destruct (tr_valid_elim _ _ Hv) as [L [S0 [W _]]]. fold g in L, S0.
  pose proof (bus_pos _ W) as Wp. pose proof (bus_pos _ HB) as Bp.
  intros Hi Hp. unfold wbeat_len. fold g. rewrite Hk, N.mod_0_l by lia. cbn match.
  rewrite N.add_0_r, N.sub_0_r. rewrite (N.mod_small (g_addr g) u64) by lia.
  rewrite (land_mask _ _ W), <- Hsw.
  pose proof (window_fits (g_addr g) (tt_bw t) B Wp Bp (bus_divide _ _ W HB Hbw)) as F.
  rewrite <- Hsw in F.
  assert (Hz : g_sw g <= tt_bw t) by lia.
  assert (Hu : g_sw g <= B - g_addr g mod B) by lia.
  rewrite (N.min_r (B - g_addr g mod B)) by exact Hu.
  rewrite <- N.min_assoc, (N.min_comm (tt_bw t)), N.min_assoc.
  rewrite <- (N.min_assoc (g_len g - pos)), N.min_id.
  apply N.min_l. etransitivity; [apply N.le_min_r|exact Hz].
Qed.

Lemma fixed_plan : plan B b t (access_at g) fixed_at.
Proof.
  destruct (address_phase_ok _ _ Hb) as [W [E1 [E2 [E3 E4]]]].
  destruct (tr_valid_elim _ _ Hv) as [L [S0 _]]. fold g in L, S0.
  pose proof (bus_pos _ W) as Wp. pose proof (bus_pos _ HB) as Bp.
  unfold plan. fold g.
  intros n pos Hi Hp. fold g in Hp |- *. cbn zeta. unfold ofs, fixed_kind; rewrite Hk; cbn match.
  rewrite (fixed_len n pos Hi Hp).
  assert (EA : beat_addr b n = g_addr g) by (unfold beat_addr; rewrite E2, Hk, E3; reflexivity).
  rewrite EA, E1. unfold fixed_at in *.
  destruct (fixed_beats n ltac:(lia)) as [C1 C2].
  assert (S1 : pos + g_sw g = (n + 1) * g_sw g) by lia.
  remember (N.min (g_len g - pos) (g_sw g)) as w eqn:Ew.
  split; [lia|]. split; [lia|]. split; [|split; [lia|split; [|split]]].
  + rewrite N.mod_0_l, N.add_0_r by lia. rewrite (N.mod_small (g_addr g) u64) by lia. reflexivity.
  + intros j Hj. unfold access_at, byte_addr, stream_off.
    replace (g_sw g =? 0) with false by lia.
    assert (Hj' : N.of_nat j < g_sw g) by lia.
    replace (N.of_nat (N.to_nat pos + j)) with (N.of_nat j + n * g_sw g) by lia.
    rewrite N.mod_add by lia. rewrite (N.mod_small (N.of_nat j)) by lia.
    rewrite N.mod_small by lia. reflexivity.
  + intros E. apply C1. lia.
  + intros E. split; [lia|]. split; [apply C2; lia|]. rewrite <- Hsw. clear - Ew E. lia.
Qed.

Hypothesis Hbe : forall i, be_at (g_be g) i = be_at (g_be g) (i mod g_sw g).

Lemma fixed_en : plan_en B t (access_at g) fixed_at.
Proof.
  destruct (tr_valid_elim _ _ Hv) as [L [S0 _]]. fold g in L, S0.
  intros n pos j Hi Hj Hp. unfold ofs, fixed_kind in *; rewrite Hk in *. fold g in Hp |- *.
  rewrite (fixed_len n pos Hi Hp) in Hj. unfold fixed_at in Hi. cbn [access_at a_en].
  replace (N.of_nat (N.to_nat pos + j)) with (N.of_nat j + n * g_sw g) by (clear - Hi; lia).
  rewrite (Hbe (N.of_nat j + n * g_sw g)). rewrite N.mod_add by (clear - S0; lia).
  rewrite N.mod_small by (clear - Hj; lia). reflexivity.
Qed.

Lemma fixed_write : exists ws, write_beats (length (g_data g)) B t 1 0 0 = Ok ws /\
  burst_writes B b ws = enabled (accesses g) /\ beats_legal B b ws /\ last_legal b ws.
Proof.
  destruct (address_phase_ok _ _ Hb) as [W [E1 [E2 [E3 E4]]]].
  destruct (tr_valid_elim _ _ Hv) as [L [S0 _]]. fold g in L, S0.
  pose proof (bus_pos _ W) as Wp. pose proof (bus_pos _ HB) as Bp.
  destruct (write_loop_ok B b t (access_at g) fixed_at Bp) with (fuel := length (g_data g)) (n := 0) (pos := 0)
    as [ws [F1 [F2 [F3 [F4 F5]]]]].
  - rewrite E1. apply bus_divide; assumption.
  - rewrite E1. exact Wp.
  - exact fixed_plan.
  - exact fixed_en.
  - fold g. unfold g_len. lia.
  - reflexivity.
  - exact L.
  - unfold ofs in F1. assert (F0 : write_beats (length (g_data g)) B t 1 0 0 = Ok ws) by (destruct (fixed_kind t); exact F1).
    exists ws. split; [exact F0|]. split; [|split; [|split]].
    + unfold burst_writes. rewrite F2. fold g. unfold accesses. do 3 f_equal. unfold g_len. lia.
    + intros n w Hw. apply (F3 n w) in Hw. exact Hw.
    + unfold b_beats. rewrite E4. destruct ws; [discriminate F5|]. cbn [length] in *. clear - F4. lia.
    + exact F5.
Qed.
End Fixed.

(** ** WRAP *)
Section Wrap.
Context (B mx : N) (t : ttrans) (b : aburst).
Let g := tt_gp t.
Hypothesis HB : bus_width B.
Hypothesis Hbw : tt_bw t <= B.
Hypothesis Hk : tt_kind t = B_WRAP.
Hypothesis Hsw : g_sw g = g_len g.
Hypothesis Hal : g_addr g mod tt_bw t = 0.
Hypothesis Hmul : (B | g_len g) \/ (g_len g | B) /\ g_addr g mod g_len g = 0.
Hypothesis Hdiv : (tt_bw t | g_len g).
Hypothesis Hend : g_addr g + g_len g <= u64.
Hypothesis Hlen : g_len g + 256 < u32.
Hypothesis Hn : tt_beats t = num_beats B_WRAP (g_addr g) (g_len g) (tt_bw t).
Hypothesis Hv : tr_valid mx t = true.
Hypothesis Hb : address_phase t = Ok b.

Definition wrap_at (n pos : N) : Prop := pos = n * tt_bw t.

Lemma wrap_count : tt_bw t * tt_beats t = g_len g.
Proof.
  destruct (tr_valid_elim _ _ Hv) as [L [S0 [W _]]]. fold g in L, S0.
  pose proof (bus_pos _ W) as Wp. pose proof (bus_le _ W) as Wl.
  rewrite Hn. unfold num_beats.
  assert (Em : g_addr g - g_addr g / tt_bw t * tt_bw t = 0).
  { pose proof (N.div_mod (g_addr g) (tt_bw t)). lia. }
  rewrite Em. destruct Hdiv as [q Eq]. rewrite Eq in *.
  rewrite N.mod_small by lia.
  assert (q <> 0) by (intros ->; lia).
  replace ((q * tt_bw t + 0 + tt_bw t - 1) / tt_bw t) with q; [lia|].
  apply (N.div_unique _ _ q (tt_bw t - 1)); lia.
Qed.

(** The AXI wrap address is the TLM one. *)
Lemma wrap_addr n : n * tt_bw t < g_len g ->
  beat_addr b n = wrap_base g + (g_addr g - wrap_base g + n * tt_bw t) mod g_len g /\
  beat_addr b n mod tt_bw t = 0 /\
  beat_addr b n mod B = (g_addr g + n * tt_bw t) mod B.
Proof.
  destruct (address_phase_ok _ _ Hb) as [W [E1 [E2 [E3 E4]]]].
  destruct (tr_valid_elim _ _ Hv) as [L [S0 [_ _]]]. fold g in L, S0.
  pose proof (bus_pos _ W) as Wp. pose proof (bus_pos _ HB) as Bp. pose proof wrap_count as C.
  intros H. unfold wrap_base.
  assert (Hspan : b_bytes b * b_beats b = g_len g).
  { unfold b_beats. rewrite E1, E4. assert (tt_beats t <> 0) by (intros Z; rewrite Z in C; lia).
    replace (tt_beats t - 1 + 1) with (tt_beats t) by lia. exact C. }
  assert (Ea : g_addr g / tt_bw t * tt_bw t = g_addr g)
    by (pose proof (N.div_mod (g_addr g) (tt_bw t)); lia).
  pose proof (N.div_mod (g_addr g) (g_len g) ltac:(lia)) as D.
  pose proof (N.mod_lt (g_addr g) (g_len g) ltac:(lia)) as M.
  remember (g_addr g / g_len g) as q eqn:Eq. remember (g_addr g mod g_len g) as r eqn:Er.
  assert (Ebase : g_addr g = q * g_len g + r) by lia.
  assert (EA : beat_addr b n = q * g_len g + (r + n * tt_bw t) mod g_len g).
  { unfold beat_addr. rewrite E2, Hk, E3, Hspan, E1. fold g. rewrite <- Eq.
    rewrite Ea. destruct (N.eqb_spec n 0) as [->|Nz].
    - rewrite N.add_0_r, N.mod_small by exact M. exact Ebase.
    - destruct (N.leb_spec (q * g_len g + g_len g) (g_addr g + n * tt_bw t)).
      + replace (r + n * tt_bw t) with (r + n * tt_bw t - g_len g + 1 * g_len g) by lia.
        rewrite N.mod_add, N.mod_small by lia. lia.
      + rewrite N.mod_small by lia. lia. }
  split; [rewrite EA; replace (g_addr g - q * g_len g) with r by lia; reflexivity|].
  assert (MB : exists k, r + n * tt_bw t = (r + n * tt_bw t) mod g_len g + k * g_len g).
  { exists ((r + n * tt_bw t) / g_len g).
    pose proof (N.div_mod (r + n * tt_bw t) (g_len g)). lia. }
  destruct MB as [k Ek].
  assert (Z : beat_addr b n + k * g_len g = g_addr g + n * tt_bw t) by lia.
  split.
  - destruct Hdiv as [p Ep].
    rewrite <- (N.mod_add (beat_addr b n) (k * p) (tt_bw t)) by lia.
    replace (beat_addr b n + k * p * tt_bw t) with (g_addr g + n * tt_bw t) by (rewrite <- Z, Ep; lia).
    rewrite N.mod_add by lia. exact Hal.
  - destruct Hmul as [[p Ep]|[Hd Hr]].
    + rewrite <- Z, Ep, N.mul_assoc. symmetry. apply N.mod_add. lia.
    + assert (r = 0) by exact Hr.
      assert (k = 0).
      { destruct (N.eq_dec k 0) as [|Nk]; [assumption|]. exfalso.
        assert (1 * g_len g <= k * g_len g) by (apply N.mul_le_mono_r; lia). lia. }
      rewrite <- Z. replace (k * g_len g) with 0 by lia. rewrite N.add_0_r. reflexivity.
Qed.

Lemma wrap_len n pos : wrap_at n pos -> pos < g_len g -> wbeat_len B t (n =? 0) pos pos = tt_bw t.
Proof.
  destruct (tr_valid_elim _ _ Hv) as [L [S0 [W _]]]. fold g in L, S0.
  pose proof (bus_pos _ W) as Wp. pose proof (bus_pos _ HB) as Bp.
  intros Hi Hp. unfold wrap_at in Hi. unfold wbeat_len. fold g. rewrite Hk, (N.mod_small pos) by lia.
  rewrite (N.mod_small (g_addr g + pos) u64) by lia.
  rewrite (land_mask _ _ W).
  pose proof (window_fits (g_addr g + pos) (tt_bw t) B Wp Bp (bus_divide _ _ W HB Hbw)) as F.
  assert (Z : (g_addr g + pos) mod tt_bw t = 0) by (rewrite Hi, N.mod_add by lia; exact Hal).
  rewrite Z in *. rewrite N.sub_0_r in *.
  assert (P : tt_bw t <= g_len g - pos).
  { destruct Hdiv as [q Eq]. rewrite Hi, Eq in *. rewrite <- N.mul_sub_distr_r.
    assert (n < q) by (apply (N.mul_lt_mono_pos_r (tt_bw t)); assumption).
    replace (tt_bw t) with (1 * tt_bw t) at 1 by lia. apply N.mul_le_mono_r. lia. }
  rewrite Hsw.
  assert (R : N.min (N.min (g_len g - pos) (N.min (B - (g_addr g + pos) mod B) (g_len g - pos))) (tt_bw t) = tt_bw t).
  { apply N.min_r. repeat apply N.min_glb; [exact P| |exact P].
    clear - F. remember ((g_addr g + pos) mod B) as z. lia. }
  rewrite R. destruct (n =? 0); [apply N.min_id|reflexivity].
Qed.

Lemma wrap_plan : plan B b t (wrap_access_at g) wrap_at.
Proof.
  destruct (address_phase_ok _ _ Hb) as [W [E1 [E2 [E3 E4]]]].
  destruct (tr_valid_elim _ _ Hv) as [L [S0 _]]. fold g in L, S0.
  pose proof (bus_pos _ W) as Wp. pose proof (bus_pos _ HB) as Bp. pose proof wrap_count as C.
  unfold plan. fold g.
  intros n pos Hi Hp. fold g in Hp |- *. cbn zeta. unfold ofs, fixed_kind; rewrite Hk; cbn match.
  rewrite (wrap_len n pos Hi Hp). unfold wrap_at in *.
  assert (Hm : pos + tt_bw t = (n + 1) * tt_bw t) by (clear - Hi; lia).
  assert (Hc : (n + 1) * tt_bw t <= g_len g).
  { rewrite <- C, (N.mul_comm (tt_bw t)) in *. apply N.mul_le_mono_r.
    rewrite Hi in Hp. assert (n < tt_beats t) by (apply (N.mul_lt_mono_pos_r (tt_bw t)); assumption).
    clear - H. lia. }
  destruct (wrap_addr n ltac:(clear - Hm Hc Wp; lia)) as [A1 [A2 A3]]. rewrite E1, A2, A3. clear A2 A3.
  split; [exact Wp|]. split; [clear - Hm Hc; lia|]. split; [|split; [clear; lia|split; [|split]]].
  + rewrite (N.mod_small pos) by (clear - Hp Hsw; lia).
    rewrite (N.mod_small (g_addr g + pos) u64) by (clear - Hp Hend; lia).
    rewrite Hi. reflexivity.
  + intros j Hj. unfold wrap_access_at. cbn [a_en]. f_equal.
    replace (N.of_nat (N.to_nat pos + j)) with (n * tt_bw t + N.of_nat j) by (clear - Hi; lia).
    rewrite A1. remember (g_addr g - wrap_base g) as r.
    assert (X : (r + n * tt_bw t) mod g_len g + N.of_nat j < g_len g).
    { pose proof (window_fits (r + n * tt_bw t) (tt_bw t) (g_len g) Wp L Hdiv) as F.
      assert (Y : (r + n * tt_bw t) mod tt_bw t = 0).
      { rewrite N.mod_add by (clear - Wp; lia).
        rewrite Heqr. unfold wrap_base. destruct Hdiv as [q Eq]. rewrite Eq at 2. rewrite N.mul_assoc.
        pose proof (N.div_mod (g_addr g) (tt_bw t) ltac:(clear - Wp; lia)) as D. rewrite Hal, N.add_0_r in D.
        rewrite D at 1. rewrite (N.mul_comm (tt_bw t)), <- N.mul_sub_distr_r. apply N.mod_mul. clear - Wp; lia. }
      rewrite Y in F. remember ((r + n * tt_bw t) mod g_len g) as z. clear - F Hj. lia. }
    rewrite N.add_assoc.
    rewrite (lane_step (r + n * tt_bw t) (g_len g) (N.of_nat j) L X).
    assert (Z : wrap_base g <= g_addr g).
    { unfold wrap_base. rewrite N.mul_comm. apply N.mul_div_le. clear - L; lia. }
    remember ((r + n * tt_bw t) mod g_len g) as z.
    rewrite N.mod_small; [clear; lia|]. clear - Z X Hend. lia.
  + intros E. apply (N.mul_cancel_r _ _ (tt_bw t)); [lia|]. lia.
  + intros E. split; [lia|]. split; [|clear; lia]. apply (N.mul_lt_mono_pos_r (tt_bw t)); [exact Wp|]. lia.
Qed.

Lemma wrap_en : plan_en B t (wrap_access_at g) wrap_at.
Proof.
  intros n pos j _ _ _. unfold ofs, fixed_kind; rewrite Hk. cbn [wrap_access_at a_en]. f_equal. lia.
Qed.

Lemma wrap_write : exists ws, write_beats (length (g_data g)) B t 1 0 0 = Ok ws /\
  burst_writes B b ws = enabled (wrap_accesses g) /\ beats_legal B b ws /\ last_legal b ws.
Proof.
  destruct (address_phase_ok _ _ Hb) as [W [E1 [E2 [E3 E4]]]].
  destruct (tr_valid_elim _ _ Hv) as [L [S0 _]]. fold g in L, S0.
  pose proof (bus_pos _ W) as Wp. pose proof (bus_pos _ HB) as Bp. pose proof wrap_count as C.
  destruct (write_loop_ok B b t (wrap_access_at g) wrap_at Bp) with (fuel := length (g_data g)) (n := 0) (pos := 0)
    as [ws [F1 [F2 [F3 [F4 F5]]]]].
  - rewrite E1. apply bus_divide; assumption.
  - rewrite E1. exact Wp.
  - exact wrap_plan.
  - exact wrap_en.
  - fold g. unfold g_len. lia.
  - reflexivity.
  - exact L.
  - unfold ofs in F1. assert (F0 : write_beats (length (g_data g)) B t 1 0 0 = Ok ws) by (destruct (fixed_kind t); exact F1).
    exists ws. split; [exact F0|]. split; [|split; [|split]].
    + unfold burst_writes. rewrite F2. fold g. unfold wrap_accesses. do 3 f_equal. unfold g_len. lia.
    + intros n w Hw. apply (F3 n w) in Hw. exact Hw.
    + unfold b_beats. rewrite E4. destruct ws; [discriminate F5|]. cbn [length] in *. clear - F4. lia.
    + exact F5.
Qed.
End Wrap.
