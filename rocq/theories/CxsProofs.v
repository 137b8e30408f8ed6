(** Proofs about the CXS link. *)
From Verif Require Import Base CxsModel CxsSpec.
Open Scope N_scope.

(** ** Control word *)
Lemma digits_bound w l : Forall (fun p => p < 2 ^ w) l -> digits w l < 2 ^ (w * N.of_nat (length l)).
Proof.
  induction 1 as [|p l Hp _ IH]; [cbn; lia|].
  cbn [digits length]. rewrite Nat2N.inj_succ, N.mul_succ_r, N.add_comm, N.pow_add_r.
  remember (2 ^ (w * N.of_nat (length l))) as X. remember (2 ^ w) as W. nia.
Qed.

Lemma pow_pos n : 0 < 2 ^ n.
Proof. apply N.neq_0_lt_0, N.pow_nonzero; lia. Qed.

Lemma digit_at w l : Forall (fun p => p < 2 ^ w) l -> forall i Z, (i < length l)%nat ->
  (digits w l + 2 ^ (w * N.of_nat (length l)) * Z) / 2 ^ (w * N.of_nat i) mod 2 ^ w = nth i l 0.
Proof.
  induction 1 as [|p l Hp Hl IH]; intros i Z Hi; [cbn in Hi; lia|].
  cbn [digits length]. pose proof (pow_pos w) as Hw.
  rewrite Nat2N.inj_succ, N.mul_succ_r.
  replace (p + 2 ^ w * digits w l + 2 ^ (w * N.of_nat (length l) + w) * Z)
    with (p + 2 ^ w * (digits w l + 2 ^ (w * N.of_nat (length l)) * Z))
    by (rewrite N.pow_add_r; lia).
  destruct i as [|i]; cbn [nth].
  - cbn [N.of_nat]. rewrite N.mul_0_r, N.pow_0_r, N.div_1_r, N.mul_comm, N.mod_add by lia.
    apply N.mod_small; exact Hp.
  - rewrite Nat2N.inj_succ, N.mul_succ_r, (N.add_comm (w * _) w), N.pow_add_r, <- N.div_div
      by (apply N.pow_nonzero; lia).
    rewrite (N.mul_comm (2 ^ w)) at 1. rewrite N.div_add by lia.
    rewrite (N.div_small p) by exact Hp. rewrite N.add_0_l.
    apply IH. cbn [length] in Hi; lia.
Qed.

Lemma ones_lt l n : N.of_nat (length l) <= n -> ones l < 2 ^ n.
Proof.
  intros H. unfold ones. pose proof (N.pow_le_mono_r 2 _ _ ltac:(lia) H).
  pose proof (pow_pos (N.of_nat (length l))). lia.
Qed.

Lemma ones_testbit l i : N.testbit (ones l) i = (i <? N.of_nat (length l)).
Proof.
  unfold ones. rewrite <- N.pred_sub. change (N.pred (2 ^ ?n)) with (N.pred (2 ^ n)).
  rewrite <- N.ones_equiv. destruct (i <? N.of_nat (length l)) eqn:E.
  - apply N.ones_spec_low. lia.
  - apply N.ones_spec_high. lia.
Qed.

Lemma pick l p : (length l <= p)%nat ->
  flat_map (fun k => if N.of_nat k <? N.of_nat (length l) then [nth k l 0] else []) (seq 0 p) = l.
Proof.
  intros H. replace p with (length l + (p - length l))%nat by lia.
  rewrite seq_app, flat_map_app.
  assert (E2 : forall a n, (length l <= a)%nat ->
    flat_map (fun k => if N.of_nat k <? N.of_nat (length l) then [nth k l 0] else []) (seq a n) = []).
  { intros a n; revert a. induction n; intros a Ha; [reflexivity|]. cbn [seq flat_map].
    replace (N.of_nat a <? N.of_nat (length l)) with false by lia. apply IHn. lia. }
  rewrite (E2 (0 + length l)%nat), app_nil_r by lia.
  assert (E1 : forall a b, flat_map (fun k => if N.of_nat k <? N.of_nat (length (a ++ b)) then [nth k (a ++ b) 0] else [])
    (seq (length a) (length b)) = b).
  { intros a b; revert a. induction b as [|x b IH]; intros a; [reflexivity|].
    cbn [seq length flat_map].
    replace (N.of_nat (length a) <? N.of_nat (length (a ++ x :: b))) with true by (rewrite app_length; cbn; lia).
    rewrite app_nth2, Nat.sub_diag by lia. cbn [nth app]. f_equal.
    specialize (IH (a ++ [x])). rewrite <- app_assoc in IH. cbn [app] in IH.
    replace (length (a ++ [x])) with (S (length a)) in IH by (rewrite app_length; cbn; lia). exact IH. }
  apply (E1 [] l).
Qed.

(** a group of bits and pointers inside a control word *)
Lemma get_ptrs_group c v bit0 ptr0 w l L Y Z G :
  Forall (fun p => p < 2 ^ w) l -> (length l <= c_pkts c)%nat ->
  v = L + 2 ^ bit0 * (ones l + 2 ^ N.of_nat (c_pkts c) * Y) -> L < 2 ^ bit0 ->
  v = G + 2 ^ ptr0 * (digits w l + 2 ^ (w * N.of_nat (c_pkts c)) * Z) -> G < 2 ^ ptr0 ->
  get_ptrs c bit0 ptr0 w v = l.
Proof.
  intros Hl Hn Hv HL Hv' HG. unfold get_ptrs. rewrite <- (pick l (c_pkts c) Hn) at 1.
  rewrite !flat_map_concat_map. f_equal. apply map_ext_in. intros k Hk. apply in_seq in Hk.
  replace (N.testbit v (bit0 + N.of_nat k)) with (N.of_nat k <? N.of_nat (length l)).
  2:{ rewrite N.add_comm, <- N.shiftr_spec', N.shiftr_div_pow2, Hv, (N.mul_comm (2 ^ bit0)), N.div_add by lia.
      rewrite (N.div_small L) by exact HL. rewrite N.add_0_l.
      rewrite <- (N.mod_pow2_bits_low _ (N.of_nat (c_pkts c))) by lia.
      rewrite N.mul_comm, N.mod_add by (apply N.pow_nonzero; lia).
      rewrite N.mod_small by (apply ones_lt; lia). symmetry; apply ones_testbit. }
  destruct (N.of_nat k <? N.of_nat (length l)) eqn:E; [|reflexivity]. f_equal.
  rewrite N.shiftr_div_pow2, N.pow_add_r, <- N.div_div by (apply N.pow_nonzero; lia).
  rewrite Hv', (N.mul_comm (2 ^ ptr0)), N.div_add by lia.
  rewrite (N.div_small G) by exact HG. rewrite N.add_0_l.
  replace (w * N.of_nat (c_pkts c)) with (w * N.of_nat (length l) + w * N.of_nat (c_pkts c - length l))
    by (rewrite <- N.mul_add_distr_l; f_equal; lia).
  rewrite N.pow_add_r, <- N.mul_assoc, (N.mul_comm (N.of_nat k) w). apply digit_at; [exact Hl|lia].
Qed.

Lemma cntl_dec_spec c ss ee :
  Forall (fun p => p < 2 ^ c_sw c) ss -> Forall (fun p => p < 2 ^ c_ew c) ee ->
  (length ss <= c_pkts c)%nat -> (length ee <= c_pkts c)%nat ->
  cntl_dec c (cxs_cntl c ss ee) = (ss, ee).
Proof.
  intros Hs He Ls Le. unfold cntl_dec. set (p := N.of_nat (c_pkts c)).
  assert (S1 : digits (c_sw c) ss < 2 ^ (p * c_sw c)).
  { eapply N.lt_le_trans; [apply digits_bound, Hs|]. apply N.pow_le_mono_r; [lia|]. unfold p. nia. }
  pose proof (ones_lt ss p ltac:(unfold p; lia)) as S2.
  pose proof (ones_lt ee p ltac:(unfold p; lia)) as S3.
  set (v := cxs_cntl c ss ee).
  set (X := digits (c_sw c) ss + 2 ^ (p * c_sw c) * (ones ee + 2 ^ (2 * p) * digits (c_ew c) ee)).
  set (Y := ones ee + 2 ^ (2 * p) * digits (c_ew c) ee).
  assert (V1 : v = ones ss + 2 ^ p * X) by reflexivity.
  f_equal.
  - apply (get_ptrs_group c v 0 (P c) (c_sw c) ss 0 X Y (ones ss) Hs Ls).
    + rewrite N.add_0_l, N.pow_0_r, N.mul_1_l. exact V1.
    + cbn; lia.
    + rewrite (N.mul_comm (c_sw c)). exact V1.
    + exact S2.
  - apply (get_ptrs_group c v (end_bits c) (end_ptrs c) (c_ew c) ee
             (ones ss + 2 ^ p * digits (c_sw c) ss) (2 ^ p * digits (c_ew c) ee) 0
             (ones ss + 2 ^ p * digits (c_sw c) ss + 2 ^ end_bits c * ones ee) He Le).
    + unfold end_bits, P. fold p. rewrite V1. unfold X.
      replace (2 * p) with (p + p) by lia. rewrite !N.pow_add_r. lia.
    + unfold end_bits, P. fold p. rewrite N.pow_add_r.
      remember (2 ^ p) as A. remember (2 ^ (p * c_sw c)) as B. nia.
    + unfold end_ptrs, end_bits, P. fold p. rewrite V1. unfold X.
      replace (2 * p) with (p + p) by lia. rewrite !N.pow_add_r. lia.
    + unfold end_ptrs, end_bits, P. fold p. rewrite !N.pow_add_r.
      remember (2 ^ p) as A. remember (2 ^ (p * c_sw c)) as B.
      remember (digits (c_sw c) ss) as D. remember (ones ss) as O. remember (ones ee) as O2.
      assert (O + A * D < A * B) by nia. assert (O2 * 1 < A * A) by nia.
      assert (A * B * O2 + A * B <= A * B * (A * A)) by nia. nia.
Qed.

Lemma cxs_cntl_bound c ss ee :
  Forall (fun p => p < 2 ^ c_sw c) ss -> Forall (fun p => p < 2 ^ c_ew c) ee ->
  (length ss <= c_pkts c)%nat -> (length ee <= c_pkts c)%nat ->
  cxs_cntl c ss ee < 2 ^ cntl_width c.
Proof.
  intros Hs He Ls Le. unfold cxs_cntl, cntl_width, P. set (p := N.of_nat (c_pkts c)).
  assert (S1 : digits (c_sw c) ss < 2 ^ (p * c_sw c)).
  { eapply N.lt_le_trans; [apply digits_bound, Hs|]. apply N.pow_le_mono_r; [lia|]. unfold p. nia. }
  assert (S4 : digits (c_ew c) ee < 2 ^ (p * c_ew c)).
  { eapply N.lt_le_trans; [apply digits_bound, He|]. apply N.pow_le_mono_r; [lia|]. unfold p. nia. }
  pose proof (ones_lt ss p ltac:(unfold p; lia)) as S2.
  pose proof (ones_lt ee (2 * p) ltac:(unfold p; lia)) as S3.
  replace (3 * p + p * c_sw c + p * c_ew c) with (p + (p * c_sw c + (2 * p + p * c_ew c))) by lia.
  rewrite (N.pow_add_r 2 p), (N.pow_add_r 2 (p * c_sw c)), (N.pow_add_r 2 (2 * p)).
  remember (2 ^ p) as A. remember (2 ^ (p * c_sw c)) as B. remember (2 ^ (2 * p)) as C.
  remember (2 ^ (p * c_ew c)) as D.
  remember (digits (c_sw c) ss) as x. remember (digits (c_ew c) ee) as y.
  remember (ones ss) as u. remember (ones ee) as v.
  assert (v + C * y < C * D) by nia. remember (v + C * y) as Y. remember (C * D) as CD.
  assert (x + B * Y < B * CD) by nia. remember (x + B * Y) as Z. remember (B * CD) as BCD. nia.
Qed.

Lemma lor_add v k x : v < 2 ^ k -> N.lor v (x * 2 ^ k) = v + x * 2 ^ k.
Proof.
  intros H. rewrite N.add_nocarry_lxor, N.lxor_lor.
  - reflexivity.
  - apply N.bits_inj_0; intros n. rewrite N.land_spec.
    destruct (N.lt_ge_cases n k) as [Hn|Hn].
    + rewrite N.mul_pow2_bits_low by lia. apply andb_false_r.
    + rewrite <- (N.mod_small v (2 ^ k)) by lia. rewrite N.mod_pow2_bits_high by lia. reflexivity.
  - apply N.bits_inj_0; intros n. rewrite N.land_spec.
    destruct (N.lt_ge_cases n k) as [Hn|Hn].
    + rewrite N.mul_pow2_bits_low by lia. apply andb_false_r.
    + rewrite <- (N.mod_small v (2 ^ k)) by lia. rewrite N.mod_pow2_bits_high by lia. reflexivity.
Qed.

(** what the transmitter writes *)
Lemma cntl_enc_spec c (s : bool) (e : option N) : cfg_ok c ->
  (forall x, e = Some x -> x < 2 ^ c_ew c) ->
  let ss := if s then [0] else [] in
  let ee := match e with Some x => [x] | None => [] end in
  cntl_enc c ss ee = Ok (cxs_cntl c ss ee).
Proof.
  intros (HB & HS & HP & HW) He. unfold cntl_enc, cxs_cntl. set (p := N.of_nat (c_pkts c)).
  assert (Hp : 1 <= p) by (unfold p; lia). fold p in HW.
  assert (Hew : 1 <= c_ew c).
  { destruct (c_ew c); [|lia]. pose proof (pow_pos (c_sw c)). cbn in HB. lia. }
  assert (E1 : put_ptrs 0 (P c) (c_sw c) 0 (if s then [0] else []) 0 = Ok (b1 s)).
  { destruct s; [|reflexivity]. cbn [put_ptrs]. rewrite !N.add_0_l, N.mul_0_l, N.add_0_r.
    replace (31 <=? 0) with false by reflexivity.
    unfold P. fold p. replace (32 <=? p) with false by nia.
    rewrite (N.mod_0_l (2 ^ c_sw c)) by (apply N.pow_nonzero; lia). rewrite N.shiftl_0_l. reflexivity. }
  assert (E2 : ones (if s then [0] else []) = b1 s) by (destruct s; reflexivity).
  assert (E3 : digits (c_sw c) (if s then [0] else []) = 0) by (destruct s; cbn [digits]; lia).
  rewrite E1, E2, E3. cbn [rbind]. pose proof (pow_pos p). pose proof (pow_pos (p * c_sw c)).
  assert (A2 : 2 <= 2 ^ p) by (change 2 with (2 ^ 1) at 1; apply N.pow_le_mono_r; lia).
  destruct e as [x|].
  2:{ cbn [put_ptrs]. change (ones []) with 0. cbn [digits]. f_equal. lia. }
  specialize (He x eq_refl). cbn [put_ptrs].
  unfold end_ptrs, end_bits, P. fold p. rewrite !N.mul_0_l, !N.add_0_r.
  replace (31 <=? p + p * c_sw c) with false by nia.
  replace (32 <=? p + p * c_sw c + p + p) with false by nia.
  cbn [orb]. f_equal. rewrite (N.mod_small x) by exact He.
  rewrite !N.shiftl_mul_pow2. rewrite N.mod_small.
  2:{ change u32 with (2 ^ 32). apply N.lt_le_trans with (2 ^ c_ew c * 2 ^ (p + p * c_sw c + p + p)).
      - pose proof (pow_pos (p + p * c_sw c + p + p)). nia.
      - rewrite <- N.pow_add_r. apply N.pow_le_mono_r; [lia|]. nia. }
  pose proof (pow_pos (p * c_sw c)).
  assert (b1 s < 2 ^ (p + p * c_sw c)) by (rewrite N.pow_add_r; destruct s; cbn [b1]; nia).
  rewrite (lor_add (b1 s)) by assumption.
  rewrite lor_add.
  2:{ rewrite <- N.add_assoc, (N.pow_add_r 2 (p + p * c_sw c)), (N.pow_add_r 2 p p).
      remember (2 ^ (p + p * c_sw c)) as X. remember (2 ^ p) as Y.
      assert (4 <= Y * Y) by nia. remember (Y * Y) as YY. nia. }
  change (ones [x]) with 1. cbn [digits]. rewrite N.mul_0_r, N.add_0_r.
  replace (2 * p) with (p + p) by lia. rewrite !N.pow_add_r. lia.
Qed.

(** ** Receiving *)
Lemma skipn_skipn {A} x y (l : list A) : skipn x (skipn y l) = skipn (x + y) l.
Proof.
  revert l; induction y; intros l; [rewrite Nat.add_0_r; reflexivity|].
  destruct l; [rewrite !skipn_nil; reflexivity|]. rewrite Nat.add_succ_r. cbn [skipn]. apply IHy.
Qed.
Lemma slice_add {k m n} l : slice k m l ++ slice (k + m) n l = slice k (m + n) l.
Proof.
  unfold slice. rewrite (Nat.add_comm k m), <- skipn_skipn. generalize (skipn k l); clear l k.
  induction m; intros l; [reflexivity|]. destruct l; [rewrite skipn_nil, !firstn_nil; reflexivity|].
  cbn [firstn skipn Nat.add app]. f_equal. apply IHm.
Qed.

Lemma rx_skip m : forall n k flit a l out, 32 * N.of_nat (k + m) <= s_start a ->
  rx_words (m + n) k flit (a :: l) out = rx_words n (k + m) flit (a :: l) out.
Proof.
  induction m; intros n k flit a l out H; [rewrite Nat.add_0_r; reflexivity|].
  cbn [Nat.add rx_words]. replace (s_start a <=? 32 * N.of_nat k) with false by lia.
  rewrite IHm by lia. f_equal; lia.
Qed.

Lemma rx_none n : forall k flit out, rx_words n k flit [] out = ([], out).
Proof. induction n; intros; cbn; auto. Qed.

Lemma rx_open n : forall k flit a out, s_start a <= 32 * N.of_nat k -> s_end a = None ->
  rx_words n k flit [a] out = ([mkAsm (s_start a) None (s_data a ++ slice (4 * k) (4 * n) flit)], out).
Proof.
  induction n; intros k flit a out H E.
  - cbn [rx_words]. rewrite Nat.mul_0_r. unfold slice. rewrite app_nil_r. destruct a; cbn in *; subst; reflexivity.
  - cbn [rx_words]. replace (s_start a <=? 32 * N.of_nat k) with true by lia.
    rewrite E. rewrite IHn; cbn [s_start s_data s_end]; [|lia|reflexivity].
    rewrite <- app_assoc. replace (4 * (k + 1))%nat with (4 * k + 4)%nat by lia.
    rewrite slice_add. do 4 f_equal. f_equal. lia.
Qed.

Lemma rx_close m : forall n k flit a l out, s_start a <= 32 * N.of_nat k ->
  s_end a = Some (32 * N.of_nat (k + m)) ->
  rx_words (S m + n) k flit (a :: l) out =
  rx_words n (k + S m) flit l (out ++ [s_data a ++ slice (4 * k) (4 * S m) flit]).
Proof.
  induction m; intros n k flit a l out H E.
  - cbn [Nat.add rx_words]. replace (s_start a <=? 32 * N.of_nat k) with true by lia.
    rewrite E, Nat.add_0_r, N.eqb_refl. f_equal.
  - change (S (S m) + n)%nat with (S (S m + n)). cbn [rx_words].
    replace (s_start a <=? 32 * N.of_nat k) with true by lia.
    rewrite E. replace (32 * N.of_nat (k + S m) =? 32 * N.of_nat k) with false by lia.
    rewrite IHm; cbn [s_start s_end s_data]; [|lia|f_equal; lia]. rewrite <- app_assoc. replace (4 * (k + 1))%nat with (4 * k + 4)%nat by lia.
    rewrite slice_add. f_equal; [lia|]. do 4 f_equal. lia.
Qed.

Definition asms_of (o : option (list N)) : list asm :=
  match o with Some d => [mkAsm 0 None d] | None => [] end.
Definition asm_for (start : N) (d : list N) (s : seg) : asm :=
  mkAsm start (if g_last s then Some (32 * N.of_nat (g_next s - 1)) else None) d.
Definition new_asm (s : seg) : asm := asm_for (32 * N.of_nat (g_at s)) [] s.


Definition flits_words (c : cfg) := (c_bytes c / 4)%nat.
Lemma words4 n : (n mod 4 = 0)%nat -> (4 * (n / 4) = n)%nat.
Proof. intros H. pose proof (Nat.div_mod n 4). lia. Qed.

(** one part, whose assembler is at the front *)
Lemma rx_seg c flit s start d l out k :
  (c_bytes c mod 4 = 0)%nat -> (k <= g_at s)%nat ->
  (0 < length (g_bytes s) /\ length (g_bytes s) mod 4 = 0 /\ 4 * g_next s <= c_bytes c)%nat ->
  slice (4 * g_at s) (length (g_bytes s)) flit = g_bytes s ->
  (g_last s = false -> l = [] /\ 4 * g_next s = c_bytes c)%nat ->
  start = 32 * N.of_nat (g_at s) \/ start = 0 /\ k = g_at s ->
  rx_words (flits_words c - k) k flit (asm_for start d s :: l) out =
  if g_last s then rx_words (flits_words c - g_next s) (g_next s) flit l (out ++ [d ++ g_bytes s])
  else ([mkAsm start None (d ++ g_bytes s)], out).
Proof.
  intros HB Hk (H0 & H4 & Hn) Hs Hl Hst.
  pose proof (words4 _ H4) as W. pose proof (words4 _ HB) as WB. unfold flits_words, g_next in *.
  set (m := (length (g_bytes s) / 4)%nat) in *.
  replace (c_bytes c / 4 - k)%nat with ((g_at s - k) + (c_bytes c / 4 - g_at s))%nat by lia.
  assert (E : rx_words ((g_at s - k) + (c_bytes c / 4 - g_at s)) k flit (asm_for start d s :: l) out =
              rx_words (c_bytes c / 4 - g_at s) (g_at s) flit (asm_for start d s :: l) out).
  { destruct Hst as [->|[-> ->]].
    - rewrite rx_skip by (cbn [asm_for s_start]; lia). f_equal; lia.
    - rewrite Nat.sub_diag. reflexivity. }
  rewrite E. clear E.
  assert (Hle : start <= 32 * N.of_nat (g_at s)) by lia.
  destruct (g_last s) eqn:L.
  - replace (c_bytes c / 4 - g_at s)%nat with (S (m - 1) + (c_bytes c / 4 - (g_at s + m)))%nat by lia.
    rewrite rx_close.
    + cbn [asm_for s_data]. replace (S (m - 1)) with m by lia. rewrite W, Hs. reflexivity.
    + exact Hle.
    + unfold asm_for. cbn [s_end]. rewrite L. unfold g_next. fold m. do 3 f_equal. lia.
  - destruct (Hl eq_refl) as [-> Hf]. rewrite rx_open.
    + unfold asm_for. cbn [s_start s_data]. do 3 f_equal. f_equal.
      rewrite <- Hs. f_equal; lia.
    + exact Hle.
    + unfold asm_for. cbn [s_end]. rewrite L. reflexivity.
Qed.

Lemma rx_segs c flit : forall segs k out, (c_bytes c mod 4 = 0)%nat ->
  placed c k false segs flit ->
  exists st, rx_words (flits_words c - k) k flit (map new_asm segs) out =
    (match fst (join None segs) with Some d => [mkAsm st None d] | None => [] end,
     out ++ snd (join None segs)).
Proof.
  induction segs as [|s r IH]; intros k out HB Hp.
  - exists 0. cbn. rewrite rx_none, app_nil_r. reflexivity.
  - cbn [placed] in Hp. destruct Hp as ((Hk & _) & Hlen & Hs & Hr & Hf & Hp).
    cbn [map]. unfold new_asm at 1.
    rewrite (rx_seg c); [|exact HB|exact Hk|exact Hlen|exact Hs| |left; reflexivity].
    2:{ intros L; split; [|auto]. destruct r; [reflexivity|rewrite Hr in L by discriminate; discriminate]. }
    cbn [join app]. destruct (g_last s) eqn:L.
    + destruct (IH (g_next s) (out ++ [g_bytes s]) HB Hp) as (st & E).
      exists st. cbn [app]. rewrite E. destruct (join None r) as [o res]. cbn [fst snd].
      rewrite <- app_assoc. reflexivity.
    + destruct r as [|s' r']; [|discriminate (Hr ltac:(discriminate))].
      eexists. cbn [app join fst snd]. rewrite app_nil_r. reflexivity.
Qed.

(** assigning the end pointers *)
Definition raw_asm (s : seg) : asm := mkAsm (32 * N.of_nat (g_at s)) None [].
Definition end_of (s : seg) : N := N.of_nat (g_next s - 1).
Lemma set_ends_new c flit : forall segs k, placed c k false segs flit ->
  set_ends (map raw_asm segs) (ends segs) = Ok (map new_asm segs).
Proof.
  induction segs as [|s r IH]; intros k Hp; [reflexivity|].
  cbn [placed] in Hp. destruct Hp as (_ & _ & _ & Hr & _ & Hp).
  unfold ends. cbn [filter map]. destruct (g_last s) eqn:L.
  - cbn [map set_ends]. change (map _ (filter g_last r)) with (ends r). rewrite (IH _ Hp). cbn [rmap rbind].
    unfold new_asm at 2, asm_for. rewrite L. cbn [raw_asm s_start s_data]. do 4 f_equal. lia.
  - destruct r as [|s' r']; [|discriminate (Hr ltac:(discriminate))].
    cbn. unfold new_asm, asm_for, raw_asm. rewrite L. reflexivity.
Qed.

Lemma starts_raw segs c flit : forall k, placed c k false segs flit ->
  map (fun s => mkAsm (s * 128) None []) (map (fun s => N.of_nat (g_at s / 4)) segs) = map raw_asm segs.
Proof.
  induction segs as [|s r IH]; intros k Hp; [reflexivity|].
  cbn [placed] in Hp. destruct Hp as ((_ & H4) & _ & _ & _ & _ & Hp).
  cbn [map]. rewrite (IH _ Hp). unfold raw_asm at 2. do 2 f_equal.
  pose proof (words4 _ H4). lia.
Qed.

Lemma cfg_words c : cfg_ok c -> (c_bytes c mod 4 = 0)%nat /\ N.of_nat (flits_words c) = 2 ^ c_ew c /\ (4 <= c_bytes c)%nat.
Proof.
  intros (H & _ & _ & _). assert (E : (c_bytes c = N.to_nat (2 ^ c_ew c) * 4)%nat) by lia.
  pose proof (pow_pos (c_ew c)). rewrite E at 1. rewrite Nat.mod_mul by lia. split; [reflexivity|].
  unfold flits_words. rewrite E at 1. rewrite Nat.div_mul by lia. lia.
Qed.

Lemma ends_bound c flit : cfg_ok c -> forall segs k b, placed c k b segs flit ->
  Forall (fun p => p < 2 ^ c_ew c) (ends segs).
Proof.
  intros Hc. destruct (cfg_words _ Hc) as (H4 & HW & _). pose proof (words4 _ H4).
  induction segs as [|s r IH]; intros k b Hp; [constructor|].
  cbn [placed] in Hp. destruct Hp as (_ & (H0 & _ & Hn) & _ & _ & _ & Hp).
  unfold ends. cbn [filter]. destruct (g_last s); cbn [map].
  - constructor; [|apply (IH _ _ Hp)]. unfold flits_words in *. pose proof (pow_pos (c_ew c)). lia.
  - apply (IH _ _ Hp).
Qed.

(** pointers to 16-byte blocks *)
Lemma starts_bound c flit : cfg_ok c -> forall segs k, placed c k false segs flit ->
  Forall (fun p => p < 2 ^ c_sw c) (map (fun s => N.of_nat (g_at s / 4)) segs).
Proof.
  intros Hc. assert (Hsw : 2 ^ c_ew c <= 4 * 2 ^ c_sw c) by (destruct Hc; lia). destruct (cfg_words _ Hc) as (H4 & HW & _). pose proof (words4 _ H4).
  induction segs as [|s r IH]; intros k Hp; [constructor|].
  cbn [placed] in Hp. destruct Hp as ((_ & Ha) & (H0 & Hm & Hn) & _ & _ & _ & Hp).
  cbn [map]. constructor; [|apply (IH _ Hp)].
  pose proof (words4 _ Ha). pose proof (words4 _ Hm). unfold g_next, flits_words in *. lia.
Qed.

Lemma rx_flit_spec c open segs flit cntl : cfg_ok c ->
  flit_of c (is_open open) segs flit cntl ->
  rx_flit c (asms_of open) flit cntl =
  Ok (asms_of (fst (join open segs)), snd (join open segs)).
Proof.
  intros Hc (Hlen & Hp & (Ls & Le) & ->).
  destruct (cfg_words _ Hc) as (H4 & HW & HB4).
  unfold rx_flit.
  assert (Fs : Forall (fun p => p < 2 ^ c_sw c) (starts (is_open open) segs)).
  { unfold starts. destruct open; cbn [is_open] in *.
    - destruct segs as [|s r]; [constructor|]. cbn [tl]. cbn [placed] in Hp.
      apply (starts_bound c flit Hc r (g_next s)), Hp.
    - apply (starts_bound c flit Hc segs 0%nat), Hp. }
  rewrite cntl_dec_spec; [|exact Fs|apply (ends_bound c flit Hc _ _ _ Hp)|exact Ls|exact Le].
  change (c_bytes c / 4)%nat with (flits_words c).
  destruct open as [d|]; cbn [is_open asms_of] in *.
  - destruct segs as [|s r]; [discriminate Hp|].
    cbn [placed] in Hp. destruct Hp as (Ha & Hl & Hs & Hr & Hf & Hp).
    unfold starts. cbn [tl]. rewrite (starts_raw _ _ _ _ Hp). cbn [app].
    assert (E : set_ends (mkAsm 0 None d :: map raw_asm r) (ends (s :: r)) =
                Ok (asm_for 0 d s :: map new_asm r)).
    { unfold ends. cbn [filter]. destruct (g_last s) eqn:L.
      - cbn [map set_ends]. change (map _ (filter g_last r)) with (ends r).
        rewrite (set_ends_new _ _ _ _ Hp). cbn [rmap rbind]. unfold asm_for. rewrite L. cbn [s_start s_data].
        do 4 f_equal. lia.
      - destruct r; [|discriminate (Hr ltac:(discriminate))]. cbn. unfold asm_for. rewrite L. reflexivity. }
    rewrite E. cbn [rbind]. rewrite <- (Nat.sub_0_r (flits_words c)) at 1.
    rewrite (rx_seg c); [|exact H4|lia|exact Hl|exact Hs| |right; lia].
    2:{ intros L; split; [|auto]. destruct r; [reflexivity|rewrite Hr in L by discriminate; discriminate]. }
    cbn [join]. destruct (g_last s) eqn:L.
    + destruct (rx_segs c flit r (g_next s) ([] ++ [d ++ g_bytes s]) H4 Hp) as (st & ->).
      destruct (join None r) as [[o|] res]; reflexivity.
    + destruct r; [|discriminate (Hr ltac:(discriminate))]. reflexivity.
  - unfold starts. rewrite (starts_raw _ _ _ _ Hp). cbn [app].
    rewrite (set_ends_new _ _ _ _ Hp). cbn [rbind].
    rewrite <- (Nat.sub_0_r (flits_words c)) at 1.
    destruct (rx_segs c flit segs 0%nat [] H4 Hp) as (st & ->).
    destruct (join None segs) as [[o|] res]; reflexivity.
Qed.

(** ** Sending *)
Lemma slice_1 k (l : list N) : (k < length l)%nat -> slice k 1 l = [nth k l 0].
Proof.
  intros H. unfold slice. destruct (skipn k l) as [|x r] eqn:E.
  - apply (f_equal (@length N)) in E. rewrite skipn_length in E. cbn in E. lia.
  - cbn. f_equal. rewrite <- (firstn_skipn k l), E, app_nth2; rewrite firstn_length; [|lia].
    replace (k - Nat.min k (length l))%nat with 0%nat by lia. reflexivity.
Qed.

Definition endp (i pos n len : nat) : list N :=
  if ((pos + 4 <=? len) && (len <? pos + n + 4))%nat then [8 * N.of_nat (i + (len - 4 - pos)) / 32] else [].

Lemma fill_spec b : forall n i pos flit ss ee,
  (i + n = length flit)%nat -> (pos <= length b)%nat ->
  let m := Nat.min n (length b - pos) in
  fill n i b pos flit ss ee =
  (firstn i flit ++ slice pos m b ++ skipn (i + m) flit,
   ss ++ (if Nat.eqb pos 0 && Nat.ltb 0 m then [8 * N.of_nat i / 128] else []),
   ee ++ endp i pos m (length b), (pos + m)%nat).
Proof.
  induction n; intros i pos flit ss ee Hi Hp; cbn zeta.
  - cbn [fill Nat.min]. rewrite Nat.ltb_irrefl, andb_false_r, app_nil_r, !Nat.add_0_r.
    unfold slice. cbn [firstn app]. rewrite firstn_skipn. unfold endp.
    replace ((pos + 4 <=? length b) && (length b <? pos + 0 + 4))%nat with false by lia.
    rewrite app_nil_r. reflexivity.
  - cbn [fill]. destruct (Nat.eqb pos (length b)) eqn:E.
    + replace (Nat.min (S n) (length b - pos)) with 0%nat by lia.
      rewrite Nat.ltb_irrefl, andb_false_r, app_nil_r, !Nat.add_0_r.
      unfold slice. cbn [firstn app]. rewrite firstn_skipn. unfold endp.
      replace ((pos + 4 <=? length b) && (length b <? pos + 0 + 4))%nat with false by lia.
      rewrite app_nil_r. reflexivity.
    + set (flit' := overlay i [nth pos b 0] flit).
      assert (Hf : flit' = firstn i flit ++ nth pos b 0 :: skipn (i + 1) flit) by reflexivity.
      assert (Hl : length flit' = length flit).
      { rewrite Hf, app_length, firstn_length. cbn [length]. rewrite skipn_length. lia. }
      rewrite IHn by lia.
      replace (Nat.min (S n) (length b - pos)) with (S (Nat.min n (length b - (pos + 1)))) by lia.
      set (m := Nat.min n (length b - (pos + 1))).
      assert (Hm : (m <= n)%nat) by (unfold m; lia).
      assert (E1 : firstn (i + 1) flit' = firstn i flit ++ [nth pos b 0]).
      { rewrite Hf, firstn_app, firstn_firstn, firstn_length. f_equal; [f_equal; lia|].
        replace (i + 1 - Nat.min i (length flit))%nat with 1%nat by lia. reflexivity. }
      assert (E2 : skipn (i + 1 + m) flit' = skipn (i + S m) flit).
      { rewrite Hf, skipn_app, firstn_length.
        rewrite (skipn_all2 (firstn i flit)) by (rewrite firstn_length; lia). cbn [app].
        replace (i + 1 + m - Nat.min i (length flit))%nat with (S m) by lia. cbn [skipn].
        rewrite skipn_skipn. f_equal. lia. }
      assert (E3 : slice pos (S m) b = nth pos b 0 :: slice (pos + 1) m b).
      { change (nth pos b 0 :: slice (pos + 1) m b) with ([nth pos b 0] ++ slice (pos + 1) m b).
        rewrite <- (slice_1 pos b) by lia. rewrite slice_add. reflexivity. }
      rewrite E1, E2, E3, <- app_assoc. cbn [app].
      replace (Nat.eqb (pos + 1) 0) with false by lia. cbn [andb]. rewrite app_nil_r.
      f_equal; [f_equal; [f_equal|]|lia].
      * destruct (Nat.eqb pos 0); cbn [andb]; [|rewrite app_nil_r; reflexivity].
        reflexivity.
      * unfold endp. destruct (Nat.eqb (pos + 4) (length b)) eqn:E4.
        -- replace ((pos + 1 + 4 <=? length b) && (length b <? pos + 1 + m + 4))%nat with false by lia.
           replace ((pos + 4 <=? length b) && (length b <? pos + S m + 4))%nat with true by lia.
           rewrite app_nil_r. replace (i + (length b - 4 - pos))%nat with i by lia. reflexivity.
        -- replace ((pos + 1 + 4 <=? length b) && (length b <? pos + 1 + m + 4))%nat
             with ((pos + 4 <=? length b) && (length b <? pos + S m + 4))%nat by lia.
           destruct ((pos + 4 <=? length b) && (length b <? pos + S m + 4))%nat eqn:E5; [|reflexivity].
           replace (i + 1 + (length b - 4 - (pos + 1)))%nat with (i + (length b - 4 - pos))%nat by lia.
           reflexivity.
Qed.

Definition sent_part (c : cfg) (b : list N) (pos : nat) : nat := Nat.min (c_bytes c) (length b - pos).
Definition tx_seg (c : cfg) (b : list N) (pos : nat) : seg :=
  mkSeg 0 (slice pos (sent_part c b pos) b) (Nat.eqb (pos + sent_part c b pos) (length b)).

Lemma slice_len k m (l : list N) : (k + m <= length l)%nat -> length (slice k m l) = m.
Proof. intros H. unfold slice. rewrite firstn_length, skipn_length. lia. Qed.

Lemma mod4_sub a b : (a mod 4 = 0 -> b mod 4 = 0 -> (a - b) mod 4 = 0)%nat.
Proof.
  intros Ha Hb. pose proof (words4 _ Ha). pose proof (words4 _ Hb).
  replace (a - b)%nat with ((a / 4 - b / 4) * 4)%nat by lia. apply Nat.mod_mul. lia.
Qed.

Lemma lt_words c m : cfg_ok c -> (m <= c_bytes c)%nat -> N.of_nat (m / 4 - 1) < 2 ^ c_ew c.
Proof.
  intros Hc Hm. destruct (cfg_words _ Hc) as (_ & HW & _). pose proof (pow_pos (c_ew c)) as H0.
  rewrite <- HW in *. unfold flits_words in *. pose proof (Nat.div_le_mono _ _ 4 ltac:(lia) Hm).
  generalize dependent (m / 4)%nat. generalize dependent (c_bytes c / 4)%nat. lia.
Qed.

Lemma create_flit_spec c old b pos : cfg_ok c -> length old = c_bytes c ->
  tlp_ok b -> (pos < length b)%nat -> (pos mod 4 = 0)%nat ->
  exists flit cntl, create_flit c old b pos = Ok (flit, cntl, (pos + sent_part c b pos)%nat) /\
    flit_of c (Nat.ltb 0 pos) [tx_seg c b pos] flit cntl.
Proof.
  intros Hc Ho (Hb4 & Hbm) Hpos Hpm. destruct (cfg_words _ Hc) as (HB & HW & HB4).
  pose proof (words4 _ HB) as WB. pose proof (words4 _ Hbm) as Wb. pose proof (words4 _ Hpm) as Wp.
  unfold create_flit. rewrite fill_spec by lia. fold (sent_part c b pos).
  set (m := sent_part c b pos). assert (Hm : m = Nat.min (c_bytes c) (length b - pos)) by reflexivity.
  assert (Hm4 : (m mod 4 = 0)%nat).
  { destruct (Nat.min_spec (c_bytes c) (length b - pos)) as [[_ E]|[_ E]]; rewrite Hm, E;
    [exact HB|apply mod4_sub; assumption]. }
  pose proof (words4 _ Hm4) as Wm.
  assert (H0m : (0 < m)%nat) by lia.
  cbn [firstn app Nat.add].
  set (flit := slice pos m b ++ skipn m old).
  set (e := if Nat.eqb (pos + m) (length b) then Some (N.of_nat (m / 4 - 1)) else None).
  assert (Es : (if Nat.eqb pos 0 && Nat.ltb 0 m then [8 * N.of_nat 0 / 128] else [])
               = if negb (Nat.ltb 0 pos) then [0] else []).
  { replace (Nat.ltb 0 m) with true by lia. rewrite andb_true_r.
    destruct pos; reflexivity. }
  assert (Ee : endp 0 pos m (length b) = match e with Some x => [x] | None => [] end).
  { unfold endp, e. cbn [Nat.add]. destruct (Nat.eqb (pos + m) (length b)) eqn:E.
    - replace ((pos + 4 <=? length b) && (length b <? pos + m + 4))%nat with true by lia.
      f_equal. replace (length b - 4 - pos)%nat with (4 * (m / 4 - 1))%nat by lia.
      replace (8 * N.of_nat (4 * (m / 4 - 1))) with (N.of_nat (m / 4 - 1) * 32) by lia.
      apply N.div_mul. lia.
    - replace ((pos + 4 <=? length b) && (length b <? pos + m + 4))%nat with false; [reflexivity|].
      assert (pos + m + 4 <= length b)%nat by lia. lia. }
  rewrite Es, Ee, cntl_enc_spec; [|exact Hc|].
  2:{ intros x. unfold e. destruct (Nat.eqb (pos + m) (length b)); [|discriminate].
      intros Hx; inversion Hx; subst x. apply lt_words; [exact Hc|lia]. }
  cbn [rmap rbind]. eexists _, _. split; [reflexivity|].
  assert (Hl : length (slice pos m b) = m) by (apply slice_len; lia).
  unfold flit_of. split; [|split; [|split]].
  - unfold flit. rewrite app_length, skipn_length, Hl. lia.
  - cbn [placed]. unfold g_next. cbn [tx_seg g_at g_bytes g_last]. fold m. rewrite Hl.
    split; [|split; [|split; [|split; [|split]]]].
    + destruct (Nat.ltb 0 pos); [reflexivity|]. split; [lia|reflexivity].
    + split; [lia|split; [exact Hm4|lia]].
    + unfold flit, slice at 1. rewrite Nat.mul_0_r. cbn [skipn]. rewrite firstn_app, Hl, Nat.sub_diag.
      cbn [firstn]. rewrite app_nil_r, firstn_all2 by lia. reflexivity.
    + intros H; contradiction H; reflexivity.
    + intros E. lia.
    + reflexivity.
  - split.
    + unfold starts. destruct Hc as (_ & _ & H1 & _). destruct (Nat.ltb 0 pos); cbn; lia.
    + unfold ends. destruct Hc as (_ & _ & H1 & _). cbn [filter]. destruct (g_last _); cbn; lia.
  - assert (E1 : starts (Nat.ltb 0 pos) [tx_seg c b pos] = if negb (Nat.ltb 0 pos) then [0] else []).
    { unfold starts. destruct (Nat.ltb 0 pos); reflexivity. }
    assert (E2 : ends [tx_seg c b pos] = match e with Some x => [x] | None => [] end).
    { unfold ends, e. cbn [filter tx_seg g_last]. fold m. destruct (Nat.eqb (pos + m) (length b)); [|reflexivity].
      cbn [map]. unfold g_next. cbn [tx_seg g_at g_bytes]. fold m. rewrite Hl. reflexivity. }
    rewrite E1, E2. unfold cntl_wire. apply N.mod_small, cxs_cntl_bound.
    + destruct (negb _); repeat constructor. apply pow_pos.
    + unfold e. destruct (Nat.eqb (pos + m) (length b)); repeat constructor.
      apply lt_words; [exact Hc|lia].
    + destruct Hc as (_ & _ & H1 & _). destruct (negb _); cbn; lia.
    + destruct Hc as (_ & _ & H1 & _). destruct e; cbn; lia.
Qed.

(** ** The invariant of the link *)
Definition opened (q : list (list N * nat)) : option (list N) :=
  match q with
  | (b, pos) :: _ => if (Nat.ltb 0 pos && Nat.ltb pos (length b))%bool then Some (firstn pos b) else None
  | [] => None
  end.
Definition finished (q : list (list N * nat)) : list (list N) :=
  match q with (b, pos) :: _ => if Nat.eqb pos (length b) then [b] else [] | [] => [] end.
(** the receiver once it has read the wires *)
Definition rx_after (c : cfg) (l : link) : res (list asm * list (list N)) :=
  if l_valid l then rmap (fun r => (fst r, l_recv l ++ snd r)) (rx_flit c (l_asms l) (l_flit l) (l_cntl l))
  else Ok (l_asms l, l_recv l).
Definition inuse (l : link) : N := b1 (l_valid l) + b1 (l_rtn l).
Definition is_stop (l : link) : bool := negb (l_req l) && negb (l_ack l).

Record inv (c : cfg) (subs : list (list N)) (l : link) : Prop := mkInv {
  i_len : length (l_flit l) = c_bytes c;
  i_sum : l_txc l + l_rxc l + b1 (l_gnt l) + inuse l = 15;
  i_use : inuse l <= 1;
  i_stop : is_stop l = true -> l_rxc l = 15;
  i_subs : subs = l_okd l ++ map fst (l_queue l);
  i_ok : Forall tlp_ok subs;
  i_front : match l_queue l with
            | (b, pos) :: q => (pos <= length b)%nat /\ (pos mod 4 = 0)%nat /\ Forall (fun p => snd p = 0%nat) q
            | [] => l_valid l = false
            end;
  i_rx : rx_after c l = Ok (asms_of (opened (l_queue l)), l_okd l ++ finished (l_queue l));
  i_recv : l_valid l = true -> l_recv l = l_okd l }.

Lemma inv0 c flit : length flit = c_bytes c -> inv c [] (link0 flit).
Proof. intros H. constructor; try reflexivity; try exact H; try constructor. cbn; lia. Qed.

(** the transmitter *)
Definition tx_good (c : cfg) (l : link) (t : txout) : Prop :=
  length (o_flit t) = c_bytes c /\
  o_txc t + b1 (o_valid t) + b1 (o_rtn t) = l_txc l + b1 (l_gnt l) /\
  b1 (o_valid t) + b1 (o_rtn t) <= 1 /\
  l_okd l ++ map fst (l_queue l) = o_okd t ++ map fst (o_queue t) /\
  match o_queue t with
  | (b, pos) :: q => (pos <= length b)%nat /\ (pos mod 4 = 0)%nat /\ Forall (fun p => snd p = 0%nat) q
  | [] => o_valid t = false
  end /\
  (if o_valid t then
     exists r, rx_flit c (asms_of (opened (l_queue l))) (o_flit t) (o_cntl t) = Ok r /\
       fst r = asms_of (opened (o_queue t)) /\
       (l_okd l ++ finished (l_queue l)) ++ snd r = o_okd t ++ finished (o_queue t) /\
       o_okd t = l_okd l ++ finished (l_queue l)
   else opened (o_queue t) = opened (l_queue l) /\
        o_okd t ++ finished (o_queue t) = l_okd l ++ finished (l_queue l)).

Lemma tx_send c l okd b pos q txc : cfg_ok c -> length (l_flit l) = c_bytes c ->
  tlp_ok b -> (pos < length b)%nat -> (pos mod 4 = 0)%nat -> Forall (fun p => snd p = 0%nat) q ->
  0 < txc -> txc = l_txc l + b1 (l_gnt l) ->
  l_okd l ++ map fst (l_queue l) = okd ++ map fst ((b, pos) :: q) ->
  opened (l_queue l) = opened ((b, pos) :: q) ->
  l_okd l ++ finished (l_queue l) = okd ->
  exists t, rmap (fun f => let '(flit, cntl, pos') := f in
                  mkTx true false flit cntl (txc - 1) ((b, pos') :: q) okd)
            (create_flit c (l_flit l) b pos) = Ok t /\ tx_good c l t /\
    o_valid t = true /\ o_queue t = (b, (pos + sent_part c b pos)%nat) :: q.
Proof.
  intros Hc Hl Hb Hp Hm Hq Htx Etx Hsub Hop Hok.
  destruct (create_flit_spec c (l_flit l) b pos Hc Hl Hb Hp Hm) as (flit & cntl & E & Hf).
  rewrite E. cbn [rmap rbind]. eexists. split; [reflexivity|]. split; [|split; reflexivity].
  set (m := sent_part c b pos) in *.
  assert (Hm' : (pos + m <= length b)%nat) by (unfold m, sent_part; lia).
  destruct (cfg_words _ Hc) as (HB & HW & HB4).
  assert (H0m : (0 < m)%nat) by (unfold m, sent_part; lia).
  unfold tx_good. cbn [o_flit o_txc o_valid o_rtn o_okd o_queue o_cntl b1].
  split; [exact (proj1 Hf)|]. split; [lia|]. split; [lia|]. split; [exact Hsub|].
  split.
  { split; [exact Hm'|]. split; [|exact Hq].
    pose proof (words4 _ Hm). destruct Hb as (_ & Hbm).
    assert (m mod 4 = 0)%nat.
    { unfold m, sent_part. destruct (Nat.min_spec (c_bytes c) (length b - pos)) as [[_ E']|[_ E']]; rewrite E';
      [exact HB|apply mod4_sub; assumption]. }
    pose proof (words4 m H0). replace (pos + m)%nat with ((pos / 4 + m / 4) * 4)%nat by lia.
    apply Nat.mod_mul. lia. }
  assert (Eo : is_open (opened (l_queue l)) = Nat.ltb 0 pos).
  { rewrite Hop. cbn [opened]. replace (Nat.ltb pos (length b)) with true by lia. rewrite andb_true_r.
    destruct (Nat.ltb 0 pos); reflexivity. }
  rewrite <- Eo in Hf. rewrite (rx_flit_spec c _ _ _ _ Hc Hf). eexists. split; [reflexivity|].
  cbn [fst snd]. rewrite Hop. cbn [opened].
  replace (Nat.ltb pos (length b)) with true by lia. rewrite andb_true_r.
  assert (D : match (if Nat.ltb 0 pos then Some (firstn pos b) else None) with Some d => d | None => [] end
              = firstn pos b).
  { destruct pos; reflexivity. }
  cbn [join tx_seg g_bytes g_last]. fold m. rewrite D.
  assert (D2 : firstn pos b ++ slice pos m b = firstn (pos + m) b).
  { change (firstn pos b) with (slice 0 pos b). apply (@slice_add 0 pos m b). }
  rewrite D2, Hok. cbn [finished]. destruct (Nat.eqb (pos + m) (length b)) eqn:El; cbn [fst snd].
  - replace (Nat.ltb 0 (pos + m) && Nat.ltb (pos + m) (length b))%bool with false by lia.
    split; [reflexivity|]. split; [rewrite firstn_all2 by lia; reflexivity|reflexivity].
  - replace (Nat.ltb 0 (pos + m) && Nat.ltb (pos + m) (length b))%bool with true by lia.
    split; [reflexivity|]. split; [reflexivity|reflexivity].
Qed.

Lemma tx_edge_good c subs l : cfg_ok c -> inv c subs l ->
  exists t, tx_edge c l = Ok t /\
    match link_state (l_req l) (l_ack l) with
    | Stop => t = mkTx (l_valid l) (l_rtn l) (l_flit l) (l_cntl l) (l_txc l) (l_queue l) (l_okd l)
    | _ => tx_good c l t
    end.
Proof.
  intros Hc [Hlen Hsum Huse Hstop Hsub Hok Hfr Hrx Hrc].
  unfold tx_edge.
  assert (Etx : (if l_gnt l then l_txc l + 1 else l_txc l) = l_txc l + b1 (l_gnt l)).
  { destruct (l_gnt l); cbn [b1]; lia. }
  rewrite Etx. set (txc := l_txc l + b1 (l_gnt l)) in *.
  (* the queue after removing a finished TLP *)
  set (q := if front_done (l_queue l) then tl (l_queue l) else l_queue l).
  set (okd := match l_queue l with
              | (b, _) :: _ => if front_done (l_queue l) then l_okd l ++ [b] else l_okd l
              | [] => l_okd l end).
  assert (Hq : l_okd l ++ map fst (l_queue l) = okd ++ map fst q /\ opened (l_queue l) = opened q /\
    l_okd l ++ finished (l_queue l) = okd /\ finished q = [] /\
    match q with (b, pos) :: q' => tlp_ok b /\ (pos < length b)%nat /\ (pos mod 4 = 0)%nat /\
                 Forall (fun p => snd p = 0%nat) q' | [] => True end).
  { unfold q, okd. clear q okd. rewrite Hsub in Hok. apply Forall_app in Hok. destruct Hok as [_ Hok].
    destruct (l_queue l) as [|[b pos] q0] eqn:Q; [cbn; rewrite !app_nil_r; auto|].
    cbn [front_done finished tl]. destruct Hfr as (Hp1 & Hp2 & Hp3).
    cbn [map fst] in Hok. inversion Hok as [|? ? Hb Hq0]; subst.
    destruct (Nat.eqb pos (length b)) eqn:E.
    - split; [cbn [map fst]; rewrite <- app_assoc; reflexivity|].
      assert (Hz : opened q0 = None /\ finished q0 = [] /\ match q0 with (b0, p0) :: q' => p0 = 0%nat /\
                   Forall (fun p => snd p = 0%nat) q' | [] => True end).
      { destruct q0 as [|[b0 p0] q1]; [repeat split|]. inversion Hp3; subst. cbn [snd] in *. subst p0.
        cbn [map fst] in Hq0. inversion Hq0 as [|? ? [Hb0 _] _]; subst.
        cbn [opened finished Nat.ltb Nat.leb andb]. replace (Nat.eqb 0 (length b0)) with false by lia.
        repeat split; assumption. }
      destruct Hz as (Z1 & Z2 & Z3). split; [|split; [reflexivity|split; [exact Z2|]]].
      + rewrite Z1. cbn [opened]. replace (Nat.ltb pos (length b)) with false by lia. rewrite andb_false_r. reflexivity.
      + destruct q0 as [|[b0 p0] q1]; [exact I|]. destruct Z3 as [-> Z3].
        cbn [map fst] in Hq0. inversion Hq0 as [|? ? Hb0 _]; subst.
        split; [exact Hb0|]. split; [destruct Hb0; lia|]. split; [reflexivity|exact Z3].
    - rewrite app_nil_r. split; [reflexivity|]. split; [reflexivity|]. split; [reflexivity|].
      split; [cbn [finished]; rewrite E; reflexivity|].
      split; [exact Hb|]. split; [lia|]. split; assumption. }
  destruct Hq as (H1 & H2 & H3 & H4 & H5).
  assert (Base : forall v, v = l_flit l -> tx_good c l (mkTx false false v (l_cntl l) txc q okd)).
  { intros v ->. unfold tx_good. cbn [o_flit o_txc o_valid o_rtn o_okd o_queue o_cntl b1].
    split; [exact Hlen|]. split; [unfold txc; lia|]. split; [lia|]. split; [exact H1|].
    split; [|split; [symmetry; exact H2|rewrite H4, H3, app_nil_r; reflexivity]].
    destruct q as [|[b pos] q']; [reflexivity|]. destruct H5 as (_ & X1 & X2 & X3). repeat split; try assumption; lia. }
  fold q. fold okd.
  assert (Act : tx_good c l (mkTx false false (l_flit l) (l_cntl l) txc (l_queue l) (l_okd l))).
  { unfold tx_good. cbn [o_flit o_txc o_valid o_rtn o_okd o_queue o_cntl b1].
    split; [exact Hlen|]. split; [unfold txc; lia|]. split; [lia|]. split; [reflexivity|].
    split; [|split; reflexivity]. destruct (l_queue l) as [|[b pos] q']; [reflexivity|exact Hfr]. }
  destruct (link_state (l_req l) (l_ack l)) eqn:St.
  - eexists; split; reflexivity.
  - eexists; split; [reflexivity|exact Act].
  - destruct q as [|[b pos] q'].
    + rewrite andb_false_r. eexists; split; [reflexivity|]. apply Base; reflexivity.
    + destruct H5 as (X0 & X1 & X2 & X3). destruct (0 <? txc) eqn:T.
      * destruct (tx_send c l okd b pos q' txc) as (t & E & G & _); try assumption; try lia.
        rewrite E. eexists; split; [reflexivity|exact G].
      * eexists; split; [reflexivity|]. apply Base; reflexivity.
  - destruct q as [|[b pos] q'].
    + rewrite andb_true_r. destruct (0 <? txc) eqn:T; [|eexists; split; [reflexivity|]; apply Base; reflexivity].
      eexists; split; [reflexivity|]. specialize (Base _ eq_refl). unfold tx_good in *.
      cbn [o_flit o_txc o_valid o_rtn o_okd o_queue o_cntl b1] in *.
      destruct Base as (B1 & B2 & B3 & B4 & B5 & B6). repeat split; try assumption; try lia; apply B6.
    + destruct H5 as (X0 & X1 & X2 & X3). destruct (0 <? txc) eqn:T.
      * destruct (tx_send c l okd b pos q' txc) as (t & E & G & _); try assumption; try lia.
        rewrite E. eexists; split; [reflexivity|exact G].
      * eexists; split; [reflexivity|]. apply Base; reflexivity.
Qed.

(** the receiver *)
Lemma rx_edge_good c subs l : cfg_ok c -> inv c subs l ->
  exists gnt rxc, rx_edge c l =
    Ok (gnt, rxc, asms_of (opened (l_queue l)), l_okd l ++ finished (l_queue l)) /\
    rxc + b1 gnt = l_rxc l + inuse l /\
    (gnt = true <-> 0 < l_rxc l + inuse l /\ l_req l = true) /\
    match link_state (l_req l) (l_ack l) with
    | Stop => gnt = false /\ rxc = l_rxc l
    | Deactivate => gnt = false
    | _ => True
    end.
Proof.
  intros Hc [Hlen Hsum Huse Hstop Hsub Hok Hfr Hrx Hrc].
  unfold rx_edge. unfold rx_after in Hrx. unfold inuse, is_stop in *.
  destruct (l_req l) eqn:Rq, (l_ack l) eqn:Ak; cbn [link_state negb andb] in *.
  all: try specialize (Hstop eq_refl).
  4:{ assert (l_valid l = false) by (destruct (l_valid l); [cbn [b1] in *; lia|reflexivity]).
      assert (l_rtn l = false) by (destruct (l_rtn l); [cbn [b1] in *; lia|reflexivity]).
      rewrite H in Hrx. inversion Hrx. rewrite H, H0. cbn [b1].
      exists false, (l_rxc l). split; [reflexivity|]. split; [cbn; lia|]. split; [|split; reflexivity].
      split; [discriminate|intros [_ X]; discriminate X]. }
  all: assert (E : (if l_valid l
           then rmap (fun r => (fst r, l_recv l ++ snd r, l_rxc l + 1)) (rx_flit c (l_asms l) (l_flit l) (l_cntl l))
           else Ok (l_asms l, l_recv l, if l_rtn l then l_rxc l + 1 else l_rxc l)) =
        Ok (asms_of (opened (l_queue l)), l_okd l ++ finished (l_queue l), l_rxc l + (b1 (l_valid l) + b1 (l_rtn l)))).
  1,3,5: (destruct (l_valid l); [
      destruct (rx_flit c (l_asms l) (l_flit l) (l_cntl l)) as [[x y]| | |]; cbn [rmap rbind] in *; try discriminate;
      inversion Hrx; cbn [fst snd] in *; subst; do 2 f_equal; destruct (l_rtn l); cbn [b1] in *; lia
    | inversion Hrx; do 2 f_equal; destruct (l_rtn l); cbn [b1]; lia]).
  all: rewrite E; cbn [rbind]; set (rxc := l_rxc l + (b1 (l_valid l) + b1 (l_rtn l))) in *.
  1,2: (destruct (0 <? rxc) eqn:T;
    [ exists true, (rxc - 1); (split; [reflexivity|]); cbn [b1]; (split; [lia|]); (split; [|exact I]);
      split; [intros _; split; [lia|reflexivity]|reflexivity]
    | exists false, rxc; (split; [reflexivity|]); cbn [b1]; (split; [lia|]); (split; [|exact I]);
      split; [discriminate|intros [X _]; lia] ]).
  exists false, rxc. split; [reflexivity|]. cbn [b1]. split; [lia|]. split; [|reflexivity].
  split; [discriminate|intros [_ X]; discriminate X].
Qed.

Lemma edge_good c subs l raise drop late : cfg_ok c -> inv c subs l ->
  exists t l', tx_edge c l = Ok t /\ edge c raise drop late l = Ok l' /\ inv c subs l' /\
    l_txc l' = o_txc t /\ l_valid l' = o_valid t /\ l_rtn l' = o_rtn t /\ l_queue l' = o_queue t /\
    l_txc l' + inuse l' = l_txc l + b1 (l_gnt l) /\
    l_rxc l' + b1 (l_gnt l') = l_rxc l + inuse l /\
    (l_gnt l' = true <-> 0 < l_rxc l + inuse l /\ l_req l = true) /\
    l_req l' = match link_state (l_req l) (l_ack l) with Stop => raise | Run => negb drop | _ => l_req l end /\
    l_ack l' = match link_state (l_req l) (l_ack l) with
               | Activate => true
               | Deactivate => negb ((if late then l_rxc l' else l_rxc l) =? MAX_CREDITS)
               | _ => l_ack l end.
Proof.
  intros Hc I. destruct (tx_edge_good c subs l Hc I) as (t & Et & Ht).
  destruct (rx_edge_good c subs l Hc I) as (gnt & rxc & Er & Hr & Hg & Hs).
  destruct I as [Hlen Hsum Huse Hstop Hsub Hok Hfr Hrx Hrc].
  exists t. unfold edge. rewrite Et, Er. cbn [rbind]. eexists. split; [reflexivity|]. split; [reflexivity|].
  cbn [l_txc l_valid l_rtn l_queue l_gnt l_rxc l_req l_ack].
  unfold inuse in *. cbn [l_valid l_rtn].
  assert (Q : l_req l = false -> l_ack l = false ->
     l_valid l = false /\ l_rtn l = false /\ l_gnt l = false /\ l_txc l = 0).
  { intros R A. unfold is_stop in Hstop. rewrite R, A in Hstop. specialize (Hstop eq_refl).
    destruct (l_valid l), (l_rtn l), (l_gnt l); cbn [b1] in *; repeat split; lia. }
  destruct (l_req l) eqn:Rq, (l_ack l) eqn:Ak; cbn [link_state] in *.
  4:{ destruct Hs as [-> ->]. destruct (Q eq_refl eq_refl) as (Q1 & Q2 & Q3 & Q4).
      subst t. cbn [o_valid o_rtn o_flit o_cntl o_txc o_queue o_okd]. rewrite Q1, Q2, Q3, Q4 in *. cbn [b1] in *.
      assert (A : l_rxc l = 15) by lia.
      split; [constructor; cbn [l_flit l_txc l_rxc l_gnt l_okd l_queue l_valid]; unfold inuse; cbn [l_valid l_rtn b1]; auto; try lia|
              repeat split; auto; try lia; try discriminate; try (intros [_ X]; discriminate X)]. }
  all: destruct Ht as (T1 & T2 & T3 & T4 & T5 & T6).
  all: assert (N1 : o_txc t + (b1 (o_valid t) + b1 (o_rtn t)) = l_txc l + b1 (l_gnt l)) by (clear -T2; lia).
  all: assert (N2 : o_txc t + rxc + b1 gnt + (b1 (o_valid t) + b1 (o_rtn t)) = 15) by (clear -N1 Hr Hsum; lia).
  all: (split; [|split; [reflexivity|split; [reflexivity|split; [reflexivity|split; [reflexivity|
         split; [exact N1|split; [exact Hr|split; [exact Hg|split; reflexivity]]]]]]]]).
  all: constructor; cbn [l_flit l_txc l_rxc l_gnt l_okd l_queue l_valid]; unfold inuse, is_stop;
    cbn [l_valid l_rtn l_req l_ack]; try assumption; try (rewrite Hsub; exact T4);
    try (unfold rx_after; cbn [l_valid l_asms l_recv l_flit l_cntl]; destruct (o_valid t);
    [ destruct T6 as (r & R1 & R2 & R3 & _); rewrite R1; cbn [rmap rbind]; rewrite R2, R3; reflexivity
    | destruct T6 as (R1 & R2); rewrite R1, R2; reflexivity ]);
    try (cbn [l_recv]; intros V; rewrite V in T6; destruct T6 as (r & _ & _ & _ & R4); symmetry; exact R4).
  - cbn [negb andb]. rewrite andb_false_r. discriminate.
  - discriminate.
  - subst gnt. unfold MAX_CREDITS in *. cbn [b1 negb andb] in *. rewrite negb_involutive. clear - N2 Hr Huse.
    intros X. destruct late; apply N.eqb_eq in X; lia.
Qed.

(** ** Executions *)
Lemma submit_inv c subs l b : tlp_ok b -> inv c subs l -> inv c (subs ++ [b]) (submit b l).
Proof.
  intros Hb [Hlen Hsum Huse Hstop Hsub Hok Hfr Hrx Hrc].
  constructor; cbn [submit l_flit l_txc l_rxc l_gnt l_okd l_queue l_valid]; try assumption.
  - rewrite Hsub, map_app, <- app_assoc. reflexivity.
  - apply Forall_app. split; [exact Hok|]. constructor; [exact Hb|constructor].
  - destruct (l_queue l) as [|[b0 p0] q]; cbn [app].
    + split; [lia|]. split; [reflexivity|constructor].
    + destruct Hfr as (F1 & F2 & F3). split; [exact F1|]. split; [exact F2|].
      apply Forall_app. split; [exact F3|]. constructor; [reflexivity|constructor].
  - transitivity (rx_after c l); [reflexivity|]. rewrite Hrx.
    destruct (l_queue l) as [|[b0 p0] q]; cbn [app]; [|reflexivity].
    cbn [opened finished Nat.ltb Nat.leb andb]. destruct Hb. replace (Nat.eqb 0 (length b)) with false by lia.
    reflexivity.
Qed.

Lemma run_inv c : cfg_ok c -> forall es l subs, no_reset es -> Forall tlp_ok (submitted es) -> inv c subs l ->
  exists l', run c es l = Ok l' /\ inv c (subs ++ submitted es) l'.
Proof.
  intros Hc. induction es as [|e es IH]; intros l subs Hn Hs I.
  - exists l. cbn. rewrite app_nil_r. auto.
  - assert (Hn' : no_reset es) by (intros X; apply Hn; right; exact X).
    destruct e as [r d o|b|]; [| |exfalso; apply Hn; left; reflexivity].
    + destruct (edge_good c subs l r d o Hc I) as (t & l' & _ & E & I' & _).
      cbn [run step]. rewrite E. cbn [rbind]. apply (IH l' subs Hn'); [exact Hs|exact I'].
    + unfold submitted in *. cbn [flat_map app] in *. inversion Hs; subst.
      cbn [run step rbind]. destruct (IH _ _ Hn' ltac:(eassumption) (submit_inv c subs l b ltac:(assumption) I)) as (l' & R & I').
      exists l'. split; [exact R|]. rewrite <- app_assoc in I'. exact I'.
Qed.

Lemma run_app c : forall es1 es2 l, run c (es1 ++ es2) l = rbind (run c es1 l) (run c es2).
Proof.
  induction es1 as [|e es1 IH]; intros es2 l; [reflexivity|].
  cbn [run app]. destruct (step c e l); cbn [rbind]; auto.
Qed.

Lemma watch_rule c : cfg_ok c -> forall es l subs g u, no_reset es -> Forall tlp_ok (submitted es) -> inv c subs l ->
  l_txc l + u + inuse l = g -> l_rxc l + g + b1 (l_gnt l) = 15 + u ->
  exists tr, watch c es l = Ok tr /\ credit_rule g u tr.
Proof.
  intros Hc. induction es as [|e es IH]; intros l subs g u Hn Hs I Hg Hu.
  - exists []. split; [reflexivity|exact Logic.I].
  - assert (Hn' : no_reset es) by (intros X; apply Hn; right; exact X).
    destruct e as [r d o|b|]; [| |exfalso; apply Hn; left; reflexivity].
    + destruct (edge_good c subs l r d o Hc I) as (t & l' & _ & E & I' & _ & _ & _ & _ & E1 & E2 & _).
      cbn [watch step]. rewrite E. cbn [rbind].
      destruct (IH l' subs (g + b1 (l_gnt l)) (u + inuse l) Hn' Hs I') as (tr & W & C); [lia|lia|].
      rewrite W. cbn [rmap rbind]. eexists. split; [reflexivity|].
      destruct I as [Hlen Hsum Huse Hstop Hsub Hok Hfr Hrx Hrc].
      cbn [credit_rule wires_of w_req w_ack w_valid w_rtn w_gnt]. fold (inuse l).
      split; [exact Huse|]. split; [lia|]. split; [lia|]. split; [|exact C].
      intros R A. unfold is_stop in Hstop. rewrite R, A in Hstop. specialize (Hstop eq_refl).
      destruct (l_gnt l); cbn [b1] in *; [lia|]. split; [lia|]. split; [reflexivity|lia].
    + unfold submitted in *. cbn [flat_map app] in *. inversion Hs; subst.
      cbn [watch step rbind].
      destruct (IH (submit b l) (subs ++ [b]) (l_txc l + u + inuse l) u Hn' ltac:(assumption)
                  (submit_inv c subs l b ltac:(assumption) I)) as (tr & W & C); [reflexivity|exact Hu|].
      rewrite W. exists tr. split; [reflexivity|exact C].
Qed.

(** the received packets *)
Lemma inv_recv c subs l : inv c subs l -> prefix (l_recv l) subs /\ prefix (l_okd l) (l_recv l).
Proof.
  intros [Hlen Hsum Huse Hstop Hsub Hok Hfr Hrx Hrc]. unfold rx_after in Hrx.
  destruct (l_valid l).
  - rewrite (Hrc eq_refl). split; [exists (map fst (l_queue l)); exact Hsub|exists []; rewrite app_nil_r; reflexivity].
  - inversion Hrx as [[E1 E2]]. split; [|exists (finished (l_queue l)); exact E2].
    rewrite Hsub, E2. destruct (l_queue l) as [|[b pos] q]; cbn [finished map fst].
    + exists []. rewrite !app_nil_r. reflexivity.
    + destruct (Nat.eqb pos (length b)).
      * exists (map fst q). rewrite <- app_assoc. reflexivity.
      * exists (b :: map fst q). rewrite app_nil_r. reflexivity.
Qed.

Lemma inv_done c subs l : inv c subs l -> l_queue l = [] -> l_recv l = subs /\ l_okd l = subs.
Proof.
  intros [Hlen Hsum Huse Hstop Hsub Hok Hfr Hrx Hrc] Q. rewrite Q in *. unfold rx_after in Hrx. rewrite Hfr in Hrx.
  inversion Hrx as [[E1 E2]]. cbn in *. rewrite app_nil_r in *. subst. auto.
Qed.

(** ** Progress *)
Definition left_of (c : cfg) (q : list (list N * nat)) : nat :=
  fold_right (fun p n => ((length (fst p) - snd p + c_bytes c - 1) / c_bytes c + n)%nat) 0%nat q.
Definition short (l : link) : nat := if (0 <? l_txc l + b1 (l_gnt l)) then 0%nat else 1%nat.
Definition measure (c : cfg) (l : link) : nat :=
  match l_queue l with
  | [] => 0
  | _ => 2 * left_of c (l_queue l) + 1 + short l +
    match link_state (l_req l) (l_ack l) with
    | Run => 0
    | Activate => 1
    | Stop => 2
    | Deactivate => 3 + 2 * N.to_nat (l_txc l + b1 (l_gnt l)) + N.to_nat (inuse l)
    end
  end%nat.

Lemma left_step c b pos q : (4 <= c_bytes c)%nat -> (pos < length b)%nat ->
  (left_of c ((b, pos + sent_part c b pos) :: q) + 1 = left_of c ((b, pos) :: q))%nat.
Proof.
  intros HB Hp. cbn [left_of fold_right fst snd]. unfold sent_part. set (B := c_bytes c) in *.
  destruct (Nat.min_spec B (length b - pos)) as [[H E]|[H E]]; rewrite E.
  - replace (length b - pos + B - 1)%nat with (length b - (pos + B) + B - 1 + 1 * B)%nat by lia.
    rewrite Nat.div_add by lia. lia.
  - replace (length b - (pos + (length b - pos)) + B - 1)%nat with (B - 1)%nat by lia.
    rewrite (Nat.div_small (B - 1)) by lia.
    replace ((length b - pos + B - 1) / B)%nat with 1%nat; [lia|].
    apply Nat.div_unique with (r := (length b - pos - 1)%nat); lia.
Qed.

Definition popped (l : link) := if front_done (l_queue l) then tl (l_queue l) else l_queue l.

Lemma left_popped c l : (4 <= c_bytes c)%nat -> left_of c (popped l) = left_of c (l_queue l).
Proof.
  intros HB. unfold popped. destruct (l_queue l) as [|[b pos] q]; [reflexivity|].
  cbn [front_done]. destruct (Nat.eqb pos (length b)) eqn:E; [|reflexivity].
  cbn [tl left_of fold_right fst snd]. replace (length b - pos + c_bytes c - 1)%nat with (c_bytes c - 1)%nat by lia.
  rewrite Nat.div_small by lia. reflexivity.
Qed.

Lemma tx_edge_queue c l t : tx_edge c l = Ok t ->
  match link_state (l_req l) (l_ack l) with
  | Run | Deactivate =>
    match popped l with
    | (b, pos) :: q =>
      if 0 <? l_txc l + b1 (l_gnt l)
      then exists p, o_valid t = true /\ o_queue t = (b, p) :: q /\
             rmap snd (create_flit c (l_flit l) b pos) = Ok p
      else o_queue t = (b, pos) :: q
    | [] => o_queue t = []
    end
  | _ => o_queue t = l_queue l
  end.
Proof.
  unfold tx_edge. fold (popped l).
  replace (if l_gnt l then l_txc l + 1 else l_txc l) with (l_txc l + b1 (l_gnt l))
    by (destruct (l_gnt l); cbn [b1]; lia).
  destruct (link_state (l_req l) (l_ack l)); intros E.
  1,2: inversion E; reflexivity.
  all: destruct (popped l) as [|[b pos] q].
  all: try (destruct (_ && _); inversion E; reflexivity).
  all: destruct (0 <? _); [|inversion E; reflexivity].
  all: destruct (create_flit c (l_flit l) b pos) as [[[f cn] p]| | |]; cbn [rmap rbind] in E; try discriminate.
  all: inversion E; exists p; repeat split; reflexivity.
Qed.

Lemma popped_ok c subs l : inv c subs l ->
  match popped l with (b, pos) :: q => tlp_ok b /\ (pos < length b)%nat /\ (pos mod 4 = 0)%nat | [] => True end.
Proof.
  intros [Hlen Hsum Huse Hstop Hsub Hok Hfr Hrx Hrc]. unfold popped.
  rewrite Hsub in Hok. apply Forall_app in Hok. destruct Hok as [_ Hok].
  destruct (l_queue l) as [|[b pos] q]; [exact I|]. cbn [front_done map fst] in *.
  inversion Hok as [|? ? Hb Hq0]; subst. destruct Hfr as (F1 & F2 & F3).
  destruct (Nat.eqb pos (length b)) eqn:E; cbn [tl].
  - destruct q as [|[b0 p0] q]; [exact I|]. inversion F3; subst. cbn [snd] in *. subst p0.
    cbn [map fst] in Hq0. inversion Hq0 as [|? ? Hb0 _]; subst. split; [exact Hb0|]. destruct Hb0. split; [lia|reflexivity].
  - split; [exact Hb|]. split; [lia|exact F2].
Qed.

Lemma measure_step c subs l late : cfg_ok c -> inv c subs l -> l_queue l <> [] ->
  exists l', edge c true false late l = Ok l' /\ inv c subs l' /\ (measure c l' < measure c l)%nat.
Proof.
  intros Hc I Hne. destruct (cfg_words _ Hc) as (_ & _ & HB4).
  destruct (edge_good c subs l true false late Hc I) as (t & l' & Et & E & I' & A1 & A2 & A3 & A4 & A5 & A6 & A7 & A8 & A9).
  exists l'. split; [exact E|]. split; [exact I'|].
  pose proof (tx_edge_queue c l t Et) as Q. rewrite <- A4 in Q.
  pose proof (popped_ok c subs l I) as PO. pose proof (left_popped c l HB4) as LP.
  pose proof (i_sum _ _ _ I) as Hsum. pose proof (i_use _ _ _ I) as Huse.
  pose proof (i_sum _ _ _ I') as Hsum'. pose proof (i_use _ _ _ I') as Huse'.
  pose proof (i_stop _ _ _ I) as Hstop. unfold is_stop in Hstop.
  unfold measure. destruct (l_queue l') as [|x' q'] eqn:Q'.
  { destruct (l_queue l); [contradiction|]. apply Nat.lt_lt_add_r, Nat.lt_lt_add_r, Nat.add_pos_r, Nat.lt_0_1. }
  destruct (l_queue l) as [|x q0] eqn:Q0; [contradiction|]. rewrite <- Q0 in *. clear Hne.
  assert (K : match link_state (l_req l) (l_ack l) with
              | Run | Deactivate =>
                ((left_of c (x' :: q') + 1 = left_of c (l_queue l))%nat /\ inuse l' = 1) \/
                (left_of c (x' :: q') = left_of c (l_queue l) /\ l_txc l + b1 (l_gnt l) = 0)
              | _ => left_of c (x' :: q') = left_of c (l_queue l)
              end).
  { destruct (link_state (l_req l) (l_ack l)); try (rewrite Q; reflexivity).
    all: destruct (popped l) as [|[b pos] q]; [discriminate Q|].
    all: destruct (0 <? l_txc l + b1 (l_gnt l)) eqn:T;
      [left|right; rewrite Q; split; [exact LP|apply N.ltb_ge in T; clear -T; lia]].
    all: destruct Q as (p & V & Qe & Ep), PO as (P1 & P2 & P3).
    all: split; [|unfold inuse in *; rewrite A2, V in *; cbn [b1] in *; clear -Huse'; lia].
    all: destruct (create_flit_spec c (l_flit l) b pos Hc (i_len _ _ _ I) P1 P2 P3) as (f & cn & Ec & _).
    all: rewrite Ec in Ep; cbn in Ep; inversion Ep; subst p.
    all: rewrite Qe, <- LP; apply left_step; assumption. }
  assert (G : if l_req l then 0 < l_rxc l + inuse l -> b1 (l_gnt l') = 1 else b1 (l_gnt l') = 0).
  { destruct (l_req l).
    - intros X. rewrite (proj2 A7) by (split; [exact X|reflexivity]). reflexivity.
    - destruct (l_gnt l'); [|reflexivity]. destruct (proj1 A7 eq_refl) as [_ X]; discriminate X. }
  unfold short. clear - K G A5 A6 A8 A9 Hsum Huse Hsum' Huse' Hstop.
  remember (left_of c (x' :: q')) as L'. remember (left_of c (l_queue l)) as L. clear HeqL HeqL'.
  remember (b1 (l_gnt l')) as g'. remember (b1 (l_gnt l)) as g. clear Heqg Heqg'.
  destruct (l_req l), (l_ack l); cbn [link_state negb andb] in *; rewrite ?A8, ?A9; cbn [link_state].
  all: clear A8; unfold MAX_CREDITS in *.
  all: remember (l_txc l) as tx eqn:X1; remember (l_txc l') as tx' eqn:X2; remember (l_rxc l) as rx eqn:X3;
    remember (l_rxc l') as rx' eqn:X4; remember (inuse l) as u eqn:X5; remember (inuse l') as u' eqn:X6;
    clear X1 X2 X3 X4 X5 X6.
  - (* Run *)
    destruct K as [(K1 & K2)|(K1 & K2)].
    + destruct (0 <? tx' + g'), (0 <? tx + g); lia.
    + rewrite K2. replace (0 <? 0) with false by reflexivity. replace (0 <? tx' + g') with true by lia. lia.
  - (* Activate *)
    destruct (0 <? tx' + g') eqn:S1, (0 <? tx + g) eqn:S2; lia.
  - (* Deactivate *)
    rewrite G, N.add_0_r. remember (negb ((if late then rx' else rx) =? 15)) as st eqn:Est.
    destruct K as [(K1 & K2)|(K1 & K2)].
    + destruct st, (0 <? tx'), (0 <? tx + g); cbn [link_state]; clear Est A9; lia.
    + rewrite K2. replace (0 <? 0) with false by reflexivity.
      replace (0 <? tx') with false by (clear Est A9; lia). destruct st; cbn [link_state]; [|lia].
      assert (u <> 0) by (clear A9; destruct late; lia). clear Est A9. lia.
  - (* Stop *)
    specialize (Hstop eq_refl). replace (0 <? tx + g) with false by lia. destruct (0 <? tx' + g'); lia.
Qed.

Lemma idle_edge c subs l late : cfg_ok c -> inv c subs l -> l_queue l = [] ->
  exists l', edge c true false late l = Ok l' /\ inv c subs l' /\ l_queue l' = [].
Proof.
  intros Hc I Q.
  destruct (edge_good c subs l true false late Hc I) as (t & l' & Et & E & I' & _ & _ & _ & A4 & _).
  exists l'. split; [exact E|]. split; [exact I'|]. rewrite A4.
  pose proof (tx_edge_queue c l t Et) as T. unfold popped in T. rewrite Q in T. cbn in T.
  destruct (link_state (l_req l) (l_ack l)); exact T.
Qed.

Lemma running_done c subs : cfg_ok c -> forall lates l, inv c subs l -> (measure c l <= length lates)%nat ->
  exists l', run c (running lates) l = Ok l' /\ inv c subs l' /\ l_queue l' = [].
Proof.
  intros Hc. induction lates as [|o lates IH]; intros l I M.
  - exists l. split; [reflexivity|]. split; [exact I|]. unfold measure in M.
    destruct (l_queue l); [reflexivity|]. cbn [length] in M. lia.
  - cbn [running map run step]. fold (running lates).
    destruct (l_queue l) eqn:Q.
    + destruct (idle_edge c subs l o Hc I Q) as (l1 & E & I1 & Q1). rewrite E. cbn [rbind]. apply IH; [exact I1|].
      unfold measure. rewrite Q1. lia.
    + destruct (measure_step c subs l o Hc I) as (l1 & E & I1 & M1); [rewrite Q; discriminate|].
      rewrite E. cbn [rbind]. apply IH; [exact I1|]. cbn [length] in M. lia.
Qed.

Lemma left_flits c q : (1 <= c_bytes c)%nat -> (left_of c q <= flits c (map fst q))%nat.
Proof.
  intros HB. induction q as [|[b p] q IH]; [reflexivity|]. cbn [left_of fold_right map fst snd flits].
  change (fold_right _ 0%nat q) with (left_of c q).
  assert ((length b - p + c_bytes c - 1) / c_bytes c <= (length b + c_bytes c - 1) / c_bytes c)%nat
    by (apply Nat.div_le_mono; lia).
  generalize dependent ((length b - p + c_bytes c - 1) / c_bytes c)%nat.
  generalize dependent ((length b + c_bytes c - 1) / c_bytes c)%nat. lia.
Qed.

Lemma measure_bound c subs l : cfg_ok c -> inv c subs l ->
  (measure c l <= 2 * flits c (skipn (length (l_okd l)) subs) + 36)%nat.
Proof.
  intros Hc I. destruct (cfg_words _ Hc) as (_ & _ & HB4).
  pose proof (left_flits c (l_queue l) ltac:(lia)) as L.
  pose proof (i_sum _ _ _ I) as S. pose proof (i_use _ _ _ I) as U. rewrite (i_subs _ _ _ I).
  rewrite skipn_app, skipn_all, Nat.sub_diag. cbn [app skipn].
  unfold measure, short. destruct (l_queue l) as [|x q]; [lia|].
  destruct (link_state _ _), (0 <? _); lia.
Qed.
