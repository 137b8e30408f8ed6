(** Lemmas about the read side of the tlm2axi model. *)
From Verif Require Import Base BaseFacts TlmModel TlmSpec TlmFacts AxiSpec WrapSpec Tlm2AxiSpec Tlm2AxiModel Tlm2AxiProofs.
Open Scope N_scope.

(** The read side takes as many bytes from a beat as the write side gives it. *)
Definition same_len (B : N) (t : ttrans) (I : N -> N -> Prop) : Prop :=
  forall n pos, I n pos -> pos < g_len (tt_gp t) ->
  rbeat_len B t (ofs t pos) (g_len (tt_gp t) - pos) = wbeat_len B t (n =? 0) (ofs t pos) pos.

Lemma min_drop3 x u z r : r <= z -> r <= u -> N.min (N.min (N.min u x) z) r = N.min x r.
Proof.
  intros H1 H2. rewrite <- (N.min_assoc (N.min u x) z r), (N.min_r z r) by exact H1.
  rewrite (N.min_comm u x), <- N.min_assoc, (N.min_r u r) by exact H2. reflexivity.
Qed.

Lemma rbeat_len_min B t apos left : bus_width B -> bus_width (tt_bw t) -> tt_bw t <= B ->
  let a := (g_addr (tt_gp t) + apos mod g_sw (tt_gp t)) mod u64 in
  rbeat_len B t apos left = N.min left (tt_bw t - a mod tt_bw t).
Proof.
  intros HB W H a. unfold rbeat_len. fold a. rewrite (land_mask _ _ W).
  pose proof (window_fits a (tt_bw t) B (bus_pos _ W) (bus_pos _ HB) (bus_divide _ _ W HB H)) as F.
  apply min_drop3; [apply N.le_sub_l|]. remember (a mod B) as x. remember (tt_bw t - a mod tt_bw t) as y.
  clear - F. lia.
Qed.

(** ** One beat *)
Lemma take_lanes_app B t apos pos n lanes p : n <= g_len (tt_gp t) - pos ->
  length p = N.to_nat pos -> pos <= g_len (tt_gp t) ->
  let g := tt_gp t in
  let lo := (g_addr g + apos mod g_sw g) mod u64 mod B in
  take_lanes B t apos pos n lanes (p ++ skipn (N.to_nat pos) (g_data g)) =
  (p ++ map (fun j => if be_at (g_be g) (pos + N.of_nat j)
                      then nth (N.to_nat lo + j) lanes 0 else nth (N.to_nat pos + j) (g_data g) 0)
            (seq 0 (N.to_nat n))) ++ skipn (N.to_nat (pos + n)) (g_data g).
Proof.
  intros Hn Hp Hl g lo. unfold take_lanes. fold g. fold lo.
  assert (Hlen : length (p ++ skipn (N.to_nat pos) (g_data g)) = length (g_data g)).
  { rewrite app_length, skipn_length, Hp. unfold g_len in *. fold g in Hl. lia. }
  rewrite Hlen. fold g in Hn, Hl. unfold g_len in *. clearbody lo g.
  apply (nth_ext _ _ 0 0).
  - rewrite !app_length, !map_length, !seq_length, skipn_length. lia.
  - intros i Hi. rewrite map_length, seq_length in Hi. rewrite nth_map_seq by exact Hi.
    destruct (Nat.lt_ge_cases i (N.to_nat pos)) as [H1|H1].
    { replace (pos <=? N.of_nat i) with false by lia. cbn [andb].
      rewrite <- !app_assoc. rewrite !app_nth1 by lia. reflexivity. }
    replace (pos <=? N.of_nat i) with true by lia. cbn [andb].
    rewrite <- app_assoc. rewrite (app_nth2 p) by lia. rewrite (app_nth2 p) by lia. rewrite !Hp.
    assert (Hsk : nth (i - N.to_nat pos) (skipn (N.to_nat pos) (g_data g)) 0 = nth i (g_data g) 0).
    { pose proof (nth_slice (N.to_nat pos) (S (i - N.to_nat pos)) (g_data g) (i - N.to_nat pos) ltac:(lia)) as N1.
      unfold slice in N1.
      replace (N.to_nat pos + (i - N.to_nat pos))%nat with i in N1 by lia. rewrite <- N1.
      symmetry. rewrite <- (firstn_skipn (S (i - N.to_nat pos)) (skipn (N.to_nat pos) (g_data g))) at 2.
      rewrite app_nth1; [reflexivity|]. rewrite firstn_length, skipn_length. lia. }
    destruct (Nat.lt_ge_cases (i - N.to_nat pos) (N.to_nat n)) as [H2|H2].
    + rewrite app_nth1 by (rewrite map_length, seq_length; exact H2).
      rewrite nth_map_seq by exact H2.
      replace (N.of_nat i <? pos + n) with true by lia. cbn [andb].
      replace (pos + N.of_nat (i - N.to_nat pos)) with (N.of_nat i) by lia.
      replace (N.to_nat pos + (i - N.to_nat pos))%nat with i by lia.
      rewrite Hsk. destruct (be_at (g_be g) (N.of_nat i)); [|reflexivity]. f_equal. lia.
    + replace (N.of_nat i <? pos + n) with false by lia. cbn [andb].
      rewrite Hsk. rewrite app_nth2; rewrite map_length, seq_length; [|exact H2].
      pose proof (nth_slice (N.to_nat (pos + n)) (S (i - N.to_nat pos - N.to_nat n)) (g_data g)
                   (i - N.to_nat pos - N.to_nat n) ltac:(lia)) as N1. unfold slice in N1.
      replace (N.to_nat (pos + n) + (i - N.to_nat pos - N.to_nat n))%nat with i in N1 by lia.
      rewrite <- N1.
      rewrite <- (firstn_skipn (S (i - N.to_nat pos - N.to_nat n)) (skipn (N.to_nat (pos + n)) (g_data g))) at 2.
      rewrite app_nth1; [reflexivity|]. rewrite firstn_length, skipn_length. lia.
Qed.

Lemma combine_app_eq {A C} (l1 l2 : list A) (r1 r2 : list C) : length l1 = length r1 ->
  combine (l1 ++ l2) (r1 ++ r2) = combine l1 r1 ++ combine l2 r2.
Proof.
  revert r1. induction l1 as [|x l IH]; intros [|y r] H; cbn in *; try discriminate; [reflexivity|].
  f_equal. apply IH. lia.
Qed.
Lemma combine_app_short {A C} (l : list A) (r1 r2 : list C) : length l = length r1 ->
  combine l (r1 ++ r2) = combine l r1.
Proof.
  revert r1. induction l as [|x l IH]; intros [|y r] H; cbn in *; try discriminate; [reflexivity|].
  f_equal. apply IH. lia.
Qed.

Lemma read_result_app l1 l2 s1 s2 : length l1 = length s1 ->
  read_result (l1 ++ l2) (s1 ++ s2) = read_result l1 s1 ++ read_result l2 s2.
Proof. intros H. unfold read_result. rewrite combine_app_eq by exact H. apply map_app. Qed.
Lemma read_result_short l s1 s2 : length l = length s1 ->
  read_result l (s1 ++ s2) = read_result l s1.
Proof. intros H. unfold read_result. rewrite combine_app_short by exact H. reflexivity. Qed.

Lemma combine_map_seq {A C} (f : nat -> A) (h : nat -> C) l : combine (map f l) (map h l) = map (fun i => (f i, h i)) l.
Proof. induction l as [|x l IH]; [reflexivity|]. cbn. f_equal. exact IH. Qed.

(** Bytes of one beat as supplied by the slave. *)
Lemma beat_reads_split B b n lanes w A : 0 < B -> (b_bytes b | B) -> 0 < b_bytes b ->
  beat_addr b n = A -> w <= b_bytes b - A mod b_bytes b ->
  exists extra,
    beat_reads B b n lanes =
      map (fun j => (A + N.of_nat j, nth (N.to_nat (A mod B) + j) lanes 0)) (seq 0 (N.to_nat w)) ++ extra /\
    (w = b_bytes b - A mod b_bytes b -> extra = []).
Proof.
  intros HB HD Hnb EA Hw.
  pose proof (window_fits A (b_bytes b) B Hnb HB HD) as F.
  assert (HL : forall j, (j < N.to_nat (b_bytes b - A mod b_bytes b))%nat ->
      lane B (A + N.of_nat j) = (N.to_nat (A mod B) + j)%nat).
  { intros j Hj. unfold lane. rewrite lane_step; [clear; lia|exact HB|].
    remember (A mod B) as x. remember (b_bytes b - A mod b_bytes b) as y. clear - Hj F. lia. }
  unfold beat_reads, beat_range. rewrite EA. remember (b_bytes b - A mod b_bytes b) as k eqn:Ek. clear Ek.
  exists (map (fun j => (A + N.of_nat j, nth (N.to_nat (A mod B) + j) lanes 0))
              (seq (N.to_nat w) (N.to_nat k - N.to_nat w))).
  split.
  - rewrite map_map, <- map_app, <- seq_app.
    replace (N.to_nat w + (N.to_nat k - N.to_nat w))%nat with (N.to_nat k) by (clear - Hw; lia).
    apply map_ext_in. intros j Hj. apply in_seq in Hj. rewrite HL by lia. reflexivity.
  - intros ->. rewrite Nat.sub_diag. reflexivity.
Qed.

(** ** The loop *)
Section RLoop.
Context (B : N) (b : aburst) (t : ttrans) (acc : nat -> access) (I : N -> N -> Prop).
Let g := tt_gp t.
Hypothesis HB : 0 < B.
Hypothesis HD : (b_bytes b | B).
Hypothesis Hnb : 0 < b_bytes b.
Hypothesis HI : plan B b t acc I.
Hypothesis HS : same_len B t I.
(** The bytes the loop reads are enabled as the accesses say. *)
Hypothesis HE : forall i, (i < length (g_data g))%nat -> a_en (acc i) = be_at (g_be g) (N.of_nat i).
Hypothesis Hkind : b_beats b = tt_beats t.

Lemma read_loop_ok : forall rs n pos p rest dn r0,
  I n pos -> pos < g_len g -> length p = N.to_nat pos ->
  n + N.of_nat (length rs) = tt_beats t ->
  map r_last rs = repeat false (length rs - 1) ++ [true] ->
  let accs := map acc (seq (N.to_nat pos) (N.to_nat (g_len g - pos))) in
  let sup := reads_from B b n (map r_lanes rs) in
  read_beats B (mkRp rest (Some (t, p ++ skipn (N.to_nat pos) (g_data g), pos, ofs t pos)) dn) rs =
    Ok (mkRp rest None (dn ++ [(t, (p ++ read_result accs sup,
          fst (set_axi_resp (N.land (r_resp (last rs r0)) 3) None)))])) /\
  map a_addr accs = map fst (firstn (length accs) sup).
Proof.
  induction rs as [|r rs IH]; intros n pos p rest dn r0 Hi Hp Lp Hc Hlast accs sup.
  { cbn in Hlast. discriminate. }
  pose proof (HI n pos Hi Hp) as HP. cbn zeta in HP. fold g in HP.
  destruct HP as [W1 [W2 [W3 [W4 [W5 [W6 W7]]]]]].
  pose proof (HS n pos Hi Hp) as ES. fold g in ES.
  cbn [read_beats]. unfold read_beat. cbn [rp_cur rp_wait rp_done]. fold g. rewrite ES.
  remember (wbeat_len B t (n =? 0) (ofs t pos) pos) as w eqn:Ew. clear Ew ES.
  assert (Ht := take_lanes_app B t (ofs t pos) pos w (r_lanes r) p). cbn zeta in Ht. fold g in Ht.
  rewrite Ht by (exact Lp || (clear - W2 Hp; lia)). clear Ht. rewrite <- W3.
  destruct (beat_reads_split B b n (r_lanes r) w (beat_addr b n) HB HD Hnb eq_refl W4) as [extra [R1 R2]].
  remember (beat_addr b n) as A eqn:EA. clear EA W3 W4.
  set (new := map (fun j => if be_at (g_be g) (pos + N.of_nat j)
                            then nth (N.to_nat (A mod B) + j) (r_lanes r) 0
                            else nth (N.to_nat pos + j) (g_data g) 0) (seq 0 (N.to_nat w))).
  set (sup0 := map (fun j => (A + N.of_nat j, nth (N.to_nat (A mod B) + j) (r_lanes r) 0)) (seq 0 (N.to_nat w))).
  fold sup0 in R1.
  set (acc0 := map acc (seq (N.to_nat pos) (N.to_nat w))).
  assert (Eacc0 : acc0 = map (fun j => acc (N.to_nat pos + j)%nat) (seq 0 (N.to_nat w))).
  { unfold acc0. symmetry. apply map_seq_shift. reflexivity. }
  assert (L0 : length acc0 = length sup0) by (unfold acc0, sup0; rewrite !map_length, !seq_length; reflexivity).
  assert (N0 : read_result acc0 sup0 = new).
  { rewrite Eacc0. unfold read_result, sup0, new. rewrite combine_map_seq, map_map.
    apply map_ext_in. intros j Hj. apply in_seq in Hj.
    rewrite HE by (unfold g_len in W2; clear - W2 Hj; lia).
    replace (N.of_nat (N.to_nat pos + j)) with (pos + N.of_nat j) by (clear; lia).
    rewrite W5 by (clear - Hj; lia). cbn [a_byte]. reflexivity. }
  assert (A0 : map a_addr acc0 = map fst sup0).
  { rewrite Eacc0. unfold sup0. rewrite !map_map. apply map_ext_in. intros j Hj. apply in_seq in Hj.
    rewrite W5 by (clear - Hj; lia). reflexivity. }
  assert (Ln : length (p ++ new) = N.to_nat (pos + w)).
  { unfold new. rewrite app_length, map_length, seq_length, Lp. clear; lia. }
  assert (Esplit : accs = acc0 ++ map acc (seq (N.to_nat (pos + w)) (N.to_nat (g_len g - (pos + w))))).
  { unfold accs, acc0. rewrite <- map_app.
    replace (N.to_nat (pos + w)) with (N.to_nat pos + N.to_nat w)%nat by (clear; lia).
    rewrite <- seq_app. do 2 f_equal. clear - W2; lia. }
  destruct (N.eq_dec (pos + w) (g_len g)) as [E|E].
  - clear W7. specialize (W6 E).
    assert (rs = []).
    { destruct rs; [reflexivity|]. cbn [length] in Hc. clear - Hc W6. lia. }
    subst rs. rewrite E, N.sub_diag, N.eqb_refl. cbn [negb]. rewrite andb_false_r.
    cbn [rbind read_beats last]. cbn [length map] in *. cbn [Nat.sub repeat app] in Hlast.
    assert (Ea : accs = acc0) by (rewrite Esplit, E, N.sub_diag; apply app_nil_r).
    assert (Es : sup = sup0 ++ extra) by (unfold sup; cbn [map reads_from]; rewrite app_nil_r; exact R1).
    rewrite Ea, Es, (read_result_short _ _ _ L0), N0. split.
    + do 2 f_equal. f_equal. f_equal. f_equal. f_equal.
      rewrite skipn_all2; [apply app_nil_r|]. unfold g_len. clear; lia.
    + rewrite firstn_app, L0, Nat.sub_diag. cbn [firstn]. rewrite app_nil_r.
      rewrite <- L0, L0, firstn_all. exact A0.
  - assert (Hlt : pos + w < g_len g) by (clear - W2 E; lia). destruct (W7 Hlt) as [I' [L' Ew]].
    specialize (R2 Ew). subst extra. rewrite app_nil_r in R1. clear W6 W7.
    replace (g_len g - (pos + w) =? 0) with false by (clear - Hlt; lia). cbn [negb].
    destruct rs as [|r1 rs]; [cbn [length] in Hc; clear - Hc L'; lia|].
    cbn [map length] in Hlast. rewrite Nat.sub_succ, Nat.sub_0_r in Hlast. cbn [repeat app] in Hlast.
    injection Hlast as Hr Hlast. rewrite Hr. cbn [andb rbind].
    assert (Eo : (match tt_kind t with B_FIXED => ofs t pos | _ => ofs t pos + w end) = ofs t (pos + w)).
    { unfold ofs, fixed_kind. destruct (tt_kind t); reflexivity. }
    rewrite Eo. fold new.
    destruct (IH (n + 1) (pos + w) (p ++ new) rest dn r0 I' Hlt Ln) as [J1 J2].
    { cbn [length] in *. clear - Hc. lia. }
    { cbn [map length]. rewrite Nat.sub_succ, Nat.sub_0_r. exact Hlast. }
    rewrite J1. clear J1.
    assert (Es : sup = sup0 ++ reads_from B b (n + 1) (map r_lanes (r1 :: rs))).
    { unfold sup. cbn [map reads_from]. rewrite R1. reflexivity. }
    rewrite Es, Esplit, (read_result_app _ _ _ _ L0), N0. split.
    + rewrite app_assoc. reflexivity.
    + rewrite map_app, app_length, J2, firstn_app, map_app. f_equal.
      * rewrite L0, firstn_all2 by (clear; lia). exact A0.
      * do 2 f_equal. clear - L0; lia.
Qed.

Lemma read_burst rs wait rest dn r0 : I 0 0 -> 0 < g_len g ->
  lookup_id wait (r_id (hd r0 rs)) = Some (t, rest) ->
  rlast_legal b (map r_last rs) ->
  let accs := map acc (seq 0 (length (g_data g))) in
  let sup := reads_from B b 0 (map r_lanes rs) in
  read_beats B (mkRp wait None dn) rs =
    Ok (mkRp rest None (dn ++ [(t, (read_result accs sup,
          fst (set_axi_resp (N.land (r_resp (last rs r0)) 3) None)))])) /\
  map a_addr accs = map fst (firstn (length accs) sup).
Proof.
  intros H0 L Hid [Hc Hl] accs sup. rewrite map_length in Hc, Hl. rewrite Hkind in Hc.
  assert (E : read_beats B (mkRp wait None dn) rs =
    read_beats B (mkRp rest (Some (t, [] ++ skipn (N.to_nat 0) (g_data g), 0, ofs t 0)) dn) rs).
  { destruct rs as [|r rs]; [discriminate Hl|]. cbn [hd] in Hid. cbn [read_beats]. unfold read_beat.
    cbn [rp_cur rp_wait rp_done]. rewrite Hid. fold g. cbn [app N.to_nat skipn].
    assert (Eo : ofs t 0 = 0) by (unfold ofs; destruct (fixed_kind t); reflexivity). rewrite Eo. reflexivity. }
  rewrite E. clear E.
  destruct (read_loop_ok rs 0 0 [] rest dn r0 H0 L eq_refl Hc Hl) as [E1 E2]. rewrite E1.
  rewrite N.sub_0_r in E1, E2 |- *. unfold g_len in E2 |- *. rewrite Nat2N.id in E2 |- *. split; [reflexivity|exact E2].
Qed.
End RLoop.

(** ** A slave that is a memory *)
Lemma reads_memory B b m rs : forall n,
  (forall k r a, nth_error rs k = Some r -> In a (beat_range b (n + N.of_nat k)) -> nth (lane B a) r 0 = m a) ->
  Forall (fun e => snd e = m (fst e)) (reads_from B b n rs).
Proof.
  induction rs as [|r rs IH]; intros n H; cbn [reads_from]; [constructor|].
  apply Forall_app. split.
  - unfold beat_reads. apply Forall_forall. intros e He. apply in_map_iff in He.
    destruct He as [a [<- Ha]]. cbn [fst snd]. apply (H 0%nat); [reflexivity|]. cbn. rewrite N.add_0_r. exact Ha.
  - apply IH. intros k x a Hk Ha. apply (H (S k)); [exact Hk|].
    replace (n + N.of_nat (S k)) with (n + 1 + N.of_nat k) by lia. exact Ha.
Qed.

Lemma read_result_memory m accs : forall sup,
  Forall (fun e => snd e = m (fst e)) sup -> map a_addr accs = map fst (firstn (length accs) sup) ->
  read_result accs sup = map (get m) accs.
Proof.
  induction accs as [|a accs IH]; intros [|e sup] F H; cbn in H; try discriminate; [reflexivity|reflexivity|].
  injection H as H1 H2. inversion F as [|? ? F1 F2]; subst.
  unfold read_result in *. cbn [combine map]. rewrite IH by assumption.
  destruct e as [x v]. cbn [fst snd] in *. unfold get. rewrite F1, H1. reflexivity.
Qed.

(** ** The three kinds *)
Lemma incr_same B mx t : bus_width B -> tt_bw t <= B -> tt_kind t = B_INCR ->
  g_len (tt_gp t) <= g_sw (tt_gp t) -> g_addr (tt_gp t) + g_len (tt_gp t) <= u64 ->
  g_len (tt_gp t) + 256 < u32 ->
  tt_beats t = num_beats B_INCR (g_addr (tt_gp t)) (g_len (tt_gp t)) (tt_bw t) ->
  tr_valid mx t = true -> same_len B t (incr_at t).
Proof.
  intros HB Hbw Hk Hsw Hend Hlen Hn Hv n pos Hi Hp.
  destruct (tr_valid_elim _ _ Hv) as [L [S0 [W _]]].
  unfold ofs, fixed_kind. rewrite Hk.
  rewrite rbeat_len_min by assumption.
  destruct (incr_step B mx t HB Hbw Hk Hsw Hend Hlen Hn Hv n pos Hi Hp) as [-> _].
  rewrite (N.mod_small pos) by lia. rewrite (N.mod_small (g_addr (tt_gp t) + pos) u64) by lia. reflexivity.
Qed.

Lemma fixed_same B mx t : bus_width B -> tt_bw t <= B -> tt_kind t = B_FIXED ->
  g_sw (tt_gp t) = tt_bw t - g_addr (tt_gp t) mod tt_bw t ->
  g_addr (tt_gp t) + g_sw (tt_gp t) <= u64 -> g_len (tt_gp t) + 256 < u32 ->
  tt_beats t = num_beats B_FIXED (g_addr (tt_gp t)) (g_len (tt_gp t)) (tt_bw t) ->
  tr_valid mx t = true -> same_len B t (fixed_at t).
Proof.
  intros HB Hbw Hk Hsw Hend Hlen Hn Hv n pos Hi Hp.
  destruct (tr_valid_elim _ _ Hv) as [L [S0 [W _]]].
  unfold ofs, fixed_kind. rewrite Hk.
  rewrite rbeat_len_min by assumption.
  rewrite (fixed_len B mx t HB Hbw Hk Hsw Hend Hlen Hn Hv n pos Hi Hp).
  rewrite N.mod_0_l, N.add_0_r by lia. rewrite (N.mod_small (g_addr (tt_gp t)) u64) by lia.
  rewrite <- Hsw. reflexivity.
Qed.

Lemma wrap_same B mx t : bus_width B -> tt_bw t <= B -> tt_kind t = B_WRAP ->
  g_sw (tt_gp t) = g_len (tt_gp t) -> g_addr (tt_gp t) mod tt_bw t = 0 ->
  (B | g_len (tt_gp t)) \/ (g_len (tt_gp t) | B) /\ g_addr (tt_gp t) mod g_len (tt_gp t) = 0 ->
  (tt_bw t | g_len (tt_gp t)) -> g_addr (tt_gp t) + g_len (tt_gp t) <= u64 ->
  g_len (tt_gp t) + 256 < u32 ->
  tt_beats t = num_beats B_WRAP (g_addr (tt_gp t)) (g_len (tt_gp t)) (tt_bw t) ->
  tr_valid mx t = true -> same_len B t (wrap_at t).
Proof.
  intros HB Hbw Hk Hsw Hal Hmul Hdiv Hend Hlen Hn Hv n pos Hi Hp.
  destruct (tr_valid_elim _ _ Hv) as [L [S0 [W _]]]. pose proof (bus_pos _ W) as Wp.
  unfold ofs, fixed_kind. rewrite Hk.
  rewrite rbeat_len_min by assumption.
  rewrite (wrap_len B mx t HB Hbw Hk Hsw Hal Hmul Hdiv Hend Hlen Hn Hv n pos Hi Hp).
  rewrite (N.mod_small pos) by lia. rewrite (N.mod_small (g_addr (tt_gp t) + pos) u64) by lia.
  unfold wrap_at in Hi. rewrite Hi at 2. rewrite N.mod_add, Hal, N.sub_0_r by lia.
  apply N.min_r. destruct Hdiv as [q Eq]. rewrite Hi, Eq in *. rewrite <- N.mul_sub_distr_r.
  assert (n < q) by (apply (N.mul_lt_mono_pos_r (tt_bw t)); assumption).
  replace (tt_bw t) with (1 * tt_bw t) at 1 by lia. apply N.mul_le_mono_r. lia.
Qed.

(** ** From payloads to transactions *)
Lemma al_mod a w : 0 < w -> a - a / w * w = a mod w.
Proof. intros H. rewrite (N.mul_comm (a / w)). symmetry. apply N.mod_eq. lia. Qed.

Lemma tr_valid_beats mx t : 0 < g_len (tt_gp t) -> 0 < g_sw (tt_gp t) -> bus_width (tt_bw t) ->
  g_cmd (tt_gp t) <> C_IGNORE -> tr_valid mx t = (tt_beats t <=? mx).
Proof.
  intros H1 H2 H3 H4. unfold tr_valid. apply width_valid_pow in H3. rewrite H3.
  replace (g_len (tt_gp t) =? 0) with false by lia. replace (g_sw (tt_gp t) =? 0) with false by lia.
  destruct (g_cmd (tt_gp t)); [| |contradiction]; destruct (tt_beats t <=? mx); reflexivity.
Qed.

Lemma linear_num k g w : k <> B_FIXED -> bus_width w -> g_len g + 256 < u32 ->
  num_beats k (g_addr g) (g_len g) w = linear_beats g w.
Proof.
  intros Hk W L. pose proof (bus_pos _ W). pose proof (bus_le _ W).
  pose proof (N.mod_lt (g_addr g) w ltac:(lia)).
  unfold num_beats, linear_beats. rewrite al_mod by assumption.
  destruct k; [contradiction| |]; rewrite N.mod_small; try reflexivity; lia.
Qed.

Lemma incr_transaction B g a : incr_case B g (t_bw a) (t_wrap a) ->
  transaction B g a = Ok (mkTT g B_INCR (beat_width B (t_bw a)) (linear_beats g (beat_width B (t_bw a))) (t_id a)).
Proof.
  intros [HB [W [Hw [L [S [Hwr [E U]]]]]]]. unfold transaction, setup_burst_type.
  replace ((g_sw g =? g_len g) && t_wrap a) with false.
  2:{ destruct Hwr as [->|Hwr]; [rewrite andb_false_r; reflexivity|]. apply N.eqb_neq in Hwr. rewrite Hwr. reflexivity. }
  replace (g_len g <=? g_sw g) with true by lia. cbn [rbind]. unfold burst_width. fold (beat_width B (t_bw a)).
  rewrite linear_num; [reflexivity|discriminate|assumption|assumption].
Qed.

Lemma wrap_transaction B g a : wrap_case B g (t_bw a) (t_wrap a) ->
  transaction B g a = Ok (mkTT g B_WRAP (beat_width B (t_bw a)) (linear_beats g (beat_width B (t_bw a))) (t_id a)).
Proof.
  intros [HB [W [Hw [Hwr [L [S [D [A [M [E U]]]]]]]]]]. unfold transaction, setup_burst_type.
  rewrite Hwr, S, N.eqb_refl. cbn [rbind andb]. unfold burst_width. fold (beat_width B (t_bw a)).
  rewrite linear_num; [reflexivity|discriminate|assumption|assumption].
Qed.

Lemma pow_even w : bus_width w -> (if 1 <? w then w - w mod 2 else w) = w.
Proof.
  intros [k [-> Hk]]. destruct (N.eq_dec k 0) as [->|H]; [reflexivity|].
  replace k with (N.succ (N.pred k)) by lia. rewrite N.pow_succ_r'.
  rewrite (N.mul_comm 2), N.mod_mul, N.sub_0_r by lia.
  destruct (1 <? _); reflexivity.
Qed.

Lemma fixed_transaction B g a : fixed_case B g (t_bw a) ->
  transaction B g a = Ok (mkTT g B_FIXED (fixed_width g (t_bw a)) (stream_beats g) (t_id a)) /\
  num_beats B_FIXED (g_addr g) (g_len g) (fixed_width g (t_bw a)) = stream_beats g /\ 0 < g_sw g.
Proof.
  intros [HB [W [Hw [L [S [E U]]]]]]. remember (fixed_width g (t_bw a)) as w eqn:Ew.
  pose proof (bus_pos _ W). pose proof (bus_le _ W). pose proof (N.mod_lt (g_addr g) w ltac:(lia)).
  assert (X : num_beats B_FIXED (g_addr g) (g_len g) w = stream_beats g).
  { unfold num_beats, stream_beats. rewrite al_mod by assumption. rewrite <- S.
    rewrite N.mod_small by lia. reflexivity. }
  split; [|split; [exact X|lia]].
  unfold transaction, setup_burst_type.
  replace (g_sw g =? g_len g) with false by lia. cbn [andb].
  replace (g_len g <=? g_sw g) with false by lia.
  assert (G : forall bw', bw' = (if t_bw a =? 0 then 0 else t_bw a) ->
     burst_width B bw' = (if t_bw a =? 0 then B else w)).
  { intros bw' ->. unfold burst_width, fixed_width in *. destruct (N.eqb_spec (t_bw a) 0); [reflexivity|].
    apply N.eqb_neq in n. rewrite n. symmetry; exact Ew. }
  unfold fixed_width in Ew. destruct (N.eqb_spec (t_bw a) 0) as [Z|Z].
  - rewrite Z. destruct (N.eqb_spec (g_sw g) B) as [SB|SB].
    + cbn [rbind]. unfold burst_width. cbn [N.eqb]. rewrite <- SB, <- Ew, X. reflexivity.
    + replace (g_sw g <? B) with true by lia. cbn [andb].
      replace (g_sw g <=? 0) with false by lia. cbn [N.eqb].
      rewrite <- Ew, (pow_even w W). cbn [rbind]. unfold burst_width.
      replace (w =? 0) with false by lia. rewrite X. reflexivity.
  - rewrite <- Ew. destruct (N.eqb_spec (g_sw g) B) as [SB|SB].
    + cbn [rbind]. unfold burst_width. replace (w =? 0) with false by lia. rewrite X. reflexivity.
    + replace (g_sw g <? B) with true by lia. replace (g_sw g <=? w) with true by lia. cbn [andb rbind].
      unfold burst_width. replace (w =? 0) with false by lia. rewrite X. reflexivity.
Qed.

(** ** Whole transfers *)
Lemma accepted mx t : 0 < g_len (tt_gp t) -> 0 < g_sw (tt_gp t) -> bus_width (tt_bw t) ->
  g_cmd (tt_gp t) <> C_IGNORE ->
  (mx < tt_beats t /\ tr_valid mx t = false) \/
  (tt_beats t <= mx /\ tr_valid mx t = true /\ exists b, address_phase t = Ok b).
Proof.
  intros H1 H2 H3 H4. pose proof (tr_valid_beats mx t H1 H2 H3 H4) as V.
  destruct (N.leb_spec (tt_beats t) mx); [right|left]; (split; [assumption|]); [|exact V].
  split; [exact V|]. exact (valid_address _ _ V).
Qed.

Lemma write_whole B mx g a k w beats want :
  let t := mkTT g k w beats (t_id a) in
  transaction B g a = Ok t -> 0 < g_len g -> 0 < g_sw g -> bus_width w -> g_cmd g <> C_IGNORE -> 0 < beats ->
  (forall b, tr_valid mx t = true -> address_phase t = Ok b ->
     exists ws, write_beats (length (g_data g)) B t 1 0 0 = Ok ws /\
       burst_writes B b ws = enabled want /\ beats_legal B b ws /\ last_legal b ws) ->
  exists r, axi_write B mx g a = Ok r /\ write_good B mx k g w beats want r.
Proof.
  intros t T L S W C P H. unfold axi_write. rewrite T. cbn [rbind].
  destruct (accepted mx t L S W C) as [[V1 V2]|[V1 [V2 [b V3]]]]; rewrite V2.
  - exists None. split; [reflexivity|exact V1].
  - destruct (H b V2 V3) as [ws [F1 [F2 [F3 F4]]]]. rewrite V3. cbn [rbind]. rewrite F1. cbn [rmap rbind].
    exists (Some (b, ws)). split; [reflexivity|].
    destruct (address_phase_ok _ _ V3) as [_ [E1 [E2 [E3 E4]]]]. cbn [tt_bw tt_kind tt_gp tt_beats t] in *.
    cbn [write_good]. assert (E5 : b_beats b = beats) by (unfold b_beats; rewrite E4; lia).
    rewrite E5. repeat (split; [assumption || reflexivity|]). exact F4.
Qed.

Lemma linear_pos g w : 0 < w -> 0 < g_len g -> 0 < linear_beats g w.
Proof.
  intros W L. unfold linear_beats. apply N.div_str_pos. pose proof (N.mod_lt (g_addr g) w ltac:(lia)). lia.
Qed.
Lemma stream_pos g : 0 < g_sw g -> g_sw g < g_len g -> 0 < stream_beats g.
Proof. intros W L. unfold stream_beats. apply N.div_str_pos. lia. Qed.

Lemma incr_whole B mx g a : incr_case B g (t_bw a) (t_wrap a) -> g_cmd g <> C_IGNORE ->
  exists r, axi_write B mx g a = Ok r /\
    write_good B mx B_INCR g (beat_width B (t_bw a)) (linear_beats g (beat_width B (t_bw a))) (accesses g) r.
Proof.
  intros H C. pose proof (incr_transaction _ _ _ H) as T. destruct H as [HB [W [Hw [L [S [Hwr [E U]]]]]]].
  apply (write_whole _ _ _ a); try assumption; [lia|apply linear_pos; [apply bus_pos, W|exact L]|].
  intros b V A. apply (incr_write B mx (mkTT g B_INCR (beat_width B (t_bw a)) _ (t_id a)) b); try assumption; try reflexivity.
  cbn [tt_gp tt_beats tt_bw]. symmetry. apply linear_num; [discriminate|assumption|assumption].
Qed.

Lemma wrap_whole B mx g a : wrap_case B g (t_bw a) (t_wrap a) -> g_cmd g <> C_IGNORE ->
  exists r, axi_write B mx g a = Ok r /\
    write_good B mx B_WRAP g (beat_width B (t_bw a)) (linear_beats g (beat_width B (t_bw a))) (wrap_accesses g) r.
Proof.
  intros H C. pose proof (wrap_transaction _ _ _ H) as T. destruct H as [HB [W [Hw [Hwr [L [S [D [A [M [E U]]]]]]]]]].
  apply (write_whole _ _ _ a); try assumption; [lia|apply linear_pos; [apply bus_pos, W|exact L]|].
  intros b V Ab. apply (wrap_write B mx (mkTT g B_WRAP (beat_width B (t_bw a)) _ (t_id a)) b); try assumption; try reflexivity.
  cbn [tt_gp tt_beats tt_bw]. symmetry. apply linear_num; [discriminate|assumption|assumption].
Qed.

Lemma fixed_whole B mx g a : fixed_case B g (t_bw a) -> enables_stream g -> g_cmd g <> C_IGNORE ->
  exists r, axi_write B mx g a = Ok r /\
    write_good B mx B_FIXED g (fixed_width g (t_bw a)) (stream_beats g) (accesses g) r.
Proof.
  intros H En C. destruct (fixed_transaction _ _ _ H) as [T [X P]]. destruct H as [HB [W [Hw [L [S [E U]]]]]].
  apply (write_whole _ _ _ a); try assumption; [lia|apply stream_pos; assumption|].
  intros b V Ab. apply (fixed_write B mx (mkTT g B_FIXED (fixed_width g (t_bw a)) _ (t_id a)) b); try assumption; try reflexivity.
  cbn [tt_gp tt_beats tt_bw]. symmetry. exact X.
Qed.

(** ** Whole reads *)
Definition read_good (B mx : N) (k : bkind) (g : gp) (w beats : N) (want : list access)
    (r : option (aburst * ttrans)) : Prop :=
  match r with
  | None => mx < beats
  | Some (b, t) =>
    tt_gp t = g /\
    b_kind b = k /\ b_addr b = g_addr g /\ b_bytes b = w /\ b_beats b = beats /\ b_beats b <= mx /\
    forall rs wait rest dn r0, lookup_id wait (r_id (hd r0 rs)) = Some (t, rest) ->
      rlast_legal b (map r_last rs) ->
      let sup := reads_from B b 0 (map r_lanes rs) in
      read_beats B (mkRp wait None dn) rs =
        Ok (mkRp rest None (dn ++ [(t, (read_result want sup,
              fst (set_axi_resp (N.land (r_resp (last rs r0)) 3) None)))])) /\
      map a_addr want = map fst (firstn (length want) sup)
  end.

Lemma read_whole B mx g a k w beats acc (I : N -> N -> Prop) :
  let t := mkTT g k w beats (t_id a) in
  transaction B g a = Ok t -> 0 < g_len g -> 0 < g_sw g -> bus_width B -> bus_width w -> w <= B ->
  g_cmd g <> C_IGNORE -> 0 < beats -> I 0 0 ->
  (forall b, tr_valid mx t = true -> address_phase t = Ok b -> plan B b t acc I) ->
  (tr_valid mx t = true -> same_len B t I) ->
  (forall i, (i < length (g_data g))%nat -> a_en (acc i) = be_at (g_be g) (N.of_nat i)) ->
  exists r, axi_read B mx g a = Ok r /\
    read_good B mx k g w beats (map acc (seq 0 (length (g_data g)))) r.
Proof.
  intros t T L S HB W Hw C P I0 H1 H2 H3. unfold axi_read. rewrite T. cbn [rbind].
  destruct (accepted mx t L S W C) as [[V1 V2]|[V1 [V2 [b V3]]]]; rewrite V2.
  - exists None. split; [reflexivity|exact V1].
  - rewrite V3. cbn [rmap rbind]. exists (Some (b, t)). split; [reflexivity|].
    destruct (address_phase_ok _ _ V3) as [_ [E1 [E2 [E3 E4]]]]. cbn [tt_bw tt_kind tt_gp tt_beats t] in *.
    assert (E5 : b_beats b = beats) by (unfold b_beats; rewrite E4; lia).
    cbn [read_good]. split; [reflexivity|]. rewrite E5. repeat (split; [assumption || reflexivity|]).
    intros rs wait rest dn r0 Hid Hl.
    apply (read_burst B b t acc I (bus_pos _ HB)); try assumption.
    + rewrite E1. apply bus_divide; assumption.
    + rewrite E1. apply bus_pos, W.
    + apply H1; assumption.
    + apply H2; assumption.
Qed.

Lemma incr_read B mx g a : incr_case B g (t_bw a) (t_wrap a) -> g_cmd g <> C_IGNORE ->
  exists r, axi_read B mx g a = Ok r /\
    read_good B mx B_INCR g (beat_width B (t_bw a)) (linear_beats g (beat_width B (t_bw a))) (accesses g) r.
Proof.
  intros H C. pose proof (incr_transaction _ _ _ H) as T. destruct H as [HB [W [Hw [L [S [Hwr [E U]]]]]]].
  set (t := mkTT g B_INCR (beat_width B (t_bw a)) (linear_beats g (beat_width B (t_bw a))) (t_id a)) in *.
  assert (Nb : tt_beats t = num_beats B_INCR (g_addr g) (g_len g) (tt_bw t)).
  { symmetry. apply linear_num; [discriminate|assumption|assumption]. }
  apply (read_whole _ _ _ a B_INCR _ _ (access_at g) (incr_at t)); try assumption;
    [lia|apply linear_pos; [apply bus_pos, W|exact L]|reflexivity| | |reflexivity].
  - intros b V Ab. apply (incr_plan B mx t b); try assumption; try reflexivity.
  - intros V. apply (incr_same B mx t); try assumption; try reflexivity.
Qed.

Lemma fixed_read B mx g a : fixed_case B g (t_bw a) -> g_cmd g <> C_IGNORE ->
  exists r, axi_read B mx g a = Ok r /\
    read_good B mx B_FIXED g (fixed_width g (t_bw a)) (stream_beats g) (accesses g) r.
Proof.
  intros H C. destruct (fixed_transaction _ _ _ H) as [T [X P]]. destruct H as [HB [W [Hw [L [S [E U]]]]]].
  set (t := mkTT g B_FIXED (fixed_width g (t_bw a)) (stream_beats g) (t_id a)) in *.
  assert (Nb : tt_beats t = num_beats B_FIXED (g_addr g) (g_len g) (tt_bw t)) by (symmetry; exact X).
  apply (read_whole _ _ _ a B_FIXED _ _ (access_at g) (fixed_at t)); try assumption;
    [lia|apply stream_pos; assumption|reflexivity| | |reflexivity].
  - intros b V Ab. apply (fixed_plan B mx t b); try assumption; try reflexivity.
  - intros V. apply (fixed_same B mx t); try assumption; try reflexivity.
Qed.

Lemma wrap_read B mx g a : wrap_case B g (t_bw a) (t_wrap a) -> g_cmd g <> C_IGNORE ->
  exists r, axi_read B mx g a = Ok r /\
    read_good B mx B_WRAP g (beat_width B (t_bw a)) (linear_beats g (beat_width B (t_bw a))) (wrap_accesses g) r.
Proof.
  intros H C. pose proof (wrap_transaction _ _ _ H) as T. destruct H as [HB [W [Hw [Hwr [L [S [D [A [M [E U]]]]]]]]]].
  set (t := mkTT g B_WRAP (beat_width B (t_bw a)) (linear_beats g (beat_width B (t_bw a))) (t_id a)) in *.
  assert (Nb : tt_beats t = num_beats B_WRAP (g_addr g) (g_len g) (tt_bw t)).
  { symmetry. apply linear_num; [discriminate|assumption|assumption]. }
  apply (read_whole _ _ _ a B_WRAP _ _ (wrap_access_at g) (wrap_at t)); try assumption;
    [lia|apply linear_pos; [apply bus_pos, W|exact L]|reflexivity| | |reflexivity].
  - intros b V Ab. apply (wrap_plan B mx t b); try assumption; try reflexivity.
  - intros V. apply (wrap_same B mx t); try assumption; try reflexivity.
Qed.

(** ** Lookup by id *)
Lemma lookup_first l id : match lookup_id l id with
  | Some (t, rest) => exists p q, l = p ++ t :: q /\ rest = p ++ q /\ tt_id t = id /\
      Forall (fun x => tt_id x <> id) p
  | None => Forall (fun x => tt_id x <> id) l
  end.
Proof.
  induction l as [|x l IH]; cbn [lookup_id]; [constructor|].
  destruct (N.eqb_spec (tt_id x) id) as [E|E].
  - exists [], l. repeat split; [exact E|constructor].
  - destruct (lookup_id l id) as [[t rest]|].
    + destruct IH as [p [q [-> [-> [E1 F]]]]]. exists (x :: p), q. repeat split; [exact E1|]. constructor; assumption.
    + constructor; assumption.
Qed.

Definition with_id (id : N) (l : list ttrans) : list ttrans := filter (fun t => tt_id t =? id) l.

Lemma lookup_order l id t rest i : lookup_id l id = Some (t, rest) ->
  with_id i l = with_id i [t] ++ with_id i rest.
Proof.
  intros H. pose proof (lookup_first l id) as F. rewrite H in F.
  destruct F as [p [q [-> [-> [E F]]]]]. unfold with_id. rewrite !filter_app. cbn [filter].
  destruct (N.eqb_spec (tt_id t) i) as [E2|E2]; [|reflexivity].
  assert (Z : filter (fun t => tt_id t =? i) p = []).
  { clear H. induction p as [|x p IH]; [reflexivity|]. inversion F as [|? ? F1 F2]; subst. cbn.
    destruct (N.eqb_spec (tt_id x) (tt_id t)); [contradiction|]. apply IH, F2. }
  rewrite Z. reflexivity.
Qed.

Lemma write_resps_order bs : forall wait rest dn, write_resps wait bs = Ok (rest, dn) ->
  (forall i, with_id i wait = with_id i (map fst dn) ++ with_id i rest) /\
  map (fun d => tt_id (fst d)) dn = map fst bs /\
  map snd dn = map (fun x => fst (set_axi_resp (snd x) None)) bs.
Proof.
  induction bs as [|[id r] bs IH]; intros wait rest dn H; cbn [write_resps] in H.
  - apply Ok_inj in H. injection H as <- <-. repeat split.
  - destruct (lookup_id wait id) as [[t w]|] eqn:E; [|discriminate].
    destruct (write_resps w bs) as [[w' d]| | |] eqn:E2; cbn [rmap rbind] in H; try discriminate.
    apply Ok_inj in H. injection H as <- <-.
    destruct (IH _ _ _ E2) as [I1 [I2 I3]]. pose proof (lookup_first wait id) as F. rewrite E in F.
    destruct F as [p [q [_ [_ [F _]]]]].
    split; [|split].
    + intros i. rewrite (lookup_order _ _ _ _ i E), I1. cbn [map fst].
      change (t :: map fst d) with ([t] ++ map fst d). unfold with_id. rewrite !filter_app, app_assoc. reflexivity.
    + cbn. rewrite F, I2. reflexivity.
    + cbn. rewrite I3. reflexivity.
Qed.

Definition rp_all (s : rphase) : list ttrans :=
  map fst (rp_done s) ++ match rp_cur s with Some (t, _, _, _) => [t] | None => [] end ++ rp_wait s.

Lemma read_beats_order B rs : forall s s' i, read_beats B s rs = Ok s' -> with_id i (rp_all s') = with_id i (rp_all s).
Proof.
  induction rs as [|r rs IH]; intros s s' i H; cbn [read_beats] in H.
  - apply Ok_inj in H. subst. reflexivity.
  - destruct (read_beat B s r) as [s1| | |] eqn:E; cbn [rbind] in H; try discriminate.
    rewrite (IH _ _ i H). clear H IH. unfold read_beat in E. unfold rp_all.
    destruct (rp_cur s) as [[[[t data] pos] apos]|].
    + destruct (_ && _); [discriminate|]. destruct (_ =? 0); apply Ok_inj in E; subst s1; cbn [rp_done rp_cur rp_wait].
      * rewrite map_app. cbn [map fst app]. rewrite <- app_assoc. reflexivity.
      * reflexivity.
    + destruct (lookup_id (rp_wait s) (r_id r)) as [[t rest]|] eqn:L; [|discriminate].
      destruct (_ && _); [discriminate|].
      assert (X : with_id i (map fst (rp_done s) ++ [t] ++ rest) = with_id i (map fst (rp_done s) ++ [] ++ rp_wait s)).
      { unfold with_id. rewrite !filter_app. f_equal. cbn [filter app]. symmetry. apply (lookup_order _ _ _ _ i L). }
      destruct (_ =? 0); apply Ok_inj in E; subst s1; cbn [rp_done rp_cur rp_wait].
      * rewrite map_app. cbn [map fst app] in *. rewrite <- app_assoc. exact X.
      * exact X.
Qed.
