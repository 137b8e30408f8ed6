(** Lemmas for C108 and C109. *)
From Coq Require Import ZArith.
From Verif Require Import Base BaseFacts LeFacts CrcModel CrcSpec CrcProofs HscModel HscSpec.
From Coq Require Import Lia ZifyN ZifyNat ZifyBool.
Open Scope N_scope.

(** ** registers *)
Lemma le4 v : le_dec (le_enc 4 v) = v mod 2 ^ 32.
Proof. rewrite le_dec_enc. reflexivity. Qed.
Lemma mul4 i : 4 * i / 4 = i.
Proof. rewrite N.mul_comm, N.div_mul by lia. reflexivity. Qed.

Lemma read_ok h i : i < 8000 ->
  user_if h (read32 (4 * i)) = Ok (h, le_enc 4 (if i =? 0 then 1 else h_regs h i), true).
Proof.
  intros L. unfold user_if, read32. cbn [g_data g_addr g_be g_sw g_cmd length]. rewrite mul4.
  change (4 <? N.of_nat 4) with false. cbn [orb].
  replace (MAX_REGS <? i) with false by (unfold MAX_REGS; lia). unfold R_REVISION.
  destruct (i =? 0).
  - reflexivity.
  - replace (i <? MAX_REGS) with true by (unfold MAX_REGS; lia).
    rewrite firstn_all2; [reflexivity | rewrite le_enc_length; lia].
Qed.
Lemma shows_iff h i d : i < 8000 ->
  shows h i d <-> d = le_enc 4 (if i =? 0 then 1 else h_regs h i).
Proof.
  intros L. unfold shows. rewrite (read_ok h i L). split.
  - intros (h' & E). congruence.
  - intros ->. eauto.
Qed.
Lemma ro_iff i : read_only i = true <-> is_read_only i.
Proof. unfold read_only, is_read_only, R_REVISION, R_RDATA. lia. Qed.
Lemma write_ok h i v : i < 8000 -> read_only i = false ->
  user_if h (write32 (4 * i) v) =
    Ok (let h1 := set_regs h (upd (h_regs h) i (v mod 2 ^ 32)) in
        if i =? 4096 then indirect true h1 else if i =? 6144 then indirect false h1 else h1,
        le_enc 4 v, true).
Proof.
  intros L R. unfold user_if, write32. cbn [g_data g_addr g_be g_sw g_cmd]. rewrite mul4, le_enc_length.
  change (4 <? N.of_nat 4) with false. cbn [orb].
  replace (MAX_REGS <? i) with false by (unfold MAX_REGS; lia). rewrite R.
  replace (MAX_REGS <=? i) with false by (unfold MAX_REGS; lia). rewrite le4. reflexivity.
Qed.
Lemma write_ro h i v : i < 8000 -> read_only i = true ->
  user_if h (write32 (4 * i) v) = Ok (h, le_enc 4 v, true).
Proof.
  intros L R. unfold user_if, write32. cbn [g_data g_addr g_be g_sw g_cmd]. rewrite mul4, le_enc_length.
  change (4 <? N.of_nat 4) with false. cbn [orb].
  replace (MAX_REGS <? i) with false by (unfold MAX_REGS; lia). rewrite R. reflexivity.
Qed.

(** ** keys *)
Lemma key_bytes_ext k k' n : (forall i, (i < 8)%nat -> k (n + N.of_nat i) = k' (n + N.of_nat i)) ->
  key_bytes k n = key_bytes k' n.
Proof.
  intros H. unfold key_bytes, KEY_WORDS. cbn [seq flat_map].
  rewrite !H by lia. reflexivity.
Qed.
Lemma key_bytes_ok k n : bytes_ok (key_bytes k n).
Proof.
  unfold key_bytes, bytes_ok. rewrite Forall_flat_map. apply Forall_forall. intros i _. apply le_enc_bytes.
Qed.

(** state after the first j writes of [program] *)
Lemma wdata_step tx h i v : (i < 8)%nat -> v < 2 ^ 32 ->
  hstep h (User (write32 (base tx + 0x800 + 4 * N.of_nat i) v)) =
    Ok (set_regs h (upd (h_regs h) (R_WDATA tx + N.of_nat i) v), OUser (le_enc 4 v) true).
Proof.
  intros I V. unfold hstep.
  replace (base tx + 0x800 + 4 * N.of_nat i) with (4 * (R_WDATA tx + N.of_nat i))
    by (unfold base, R_WDATA; destruct tx; lia).
  rewrite write_ok; [| unfold R_WDATA; destruct tx; lia |].
  - cbn [rbind fst snd]. rewrite N.mod_small by auto.
    replace (R_WDATA tx + N.of_nat i =? 4096) with false by (unfold R_WDATA; destruct tx; lia).
    replace (R_WDATA tx + N.of_nat i =? 6144) with false by (unfold R_WDATA; destruct tx; lia).
    reflexivity.
  - unfold read_only, R_REVISION, R_RDATA, R_WDATA. destruct tx; lia.
Qed.
Lemma ctrl_step tx h v : v < 2 ^ 32 ->
  hstep h (User (write32 (base tx) v)) =
    Ok (indirect tx (set_regs h (upd (h_regs h) (R_CTRL tx) v)), OUser (le_enc 4 v) true).
Proof.
  intros V. unfold hstep.
  replace (base tx) with (4 * R_CTRL tx) by (unfold base, R_CTRL; destruct tx; lia).
  rewrite write_ok; [| unfold R_CTRL; destruct tx; lia | destruct tx; reflexivity].
  rewrite (N.mod_small v) by auto. destruct tx; reflexivity.
Qed.
Lemma fields_wr n : n < 1024 -> f_ena (3 + 256 * n) = true /\ f_wr (3 + 256 * n) = true /\
  f_grp (3 + 256 * n) = 0 /\ f_num (3 + 256 * n) = n.
Proof.
  intros L. unfold f_ena, f_wr, f_grp, f_num.
  replace ((3 + 256 * n) / 2) with (1 + 128 * n) by lia.
  replace ((3 + 256 * n) / 4) with (64 * n) by lia.
  replace ((3 + 256 * n) / 256) with n by lia.
  repeat split.
  - rewrite N.odd_add, N.odd_mul. reflexivity.
  - rewrite N.odd_add, N.odd_mul. reflexivity.
  - replace (64 * n) with (16 * n * 4) by lia. apply N.mod_mul. lia.
  - apply N.mod_small. lia.
Qed.
Lemma fields_rd n : n < 1024 -> f_ena (1 + 256 * n) = true /\ f_wr (1 + 256 * n) = false /\
  f_grp (1 + 256 * n) = 0 /\ f_num (1 + 256 * n) = n.
Proof.
  intros L. unfold f_ena, f_wr, f_grp, f_num.
  replace ((1 + 256 * n) / 2) with (128 * n) by lia.
  replace ((1 + 256 * n) / 4) with (64 * n) by lia.
  replace ((1 + 256 * n) / 256) with n by lia.
  repeat split.
  - rewrite N.odd_add, N.odd_mul. reflexivity.
  - rewrite N.odd_mul. reflexivity.
  - replace (64 * n) with (16 * n * 4) by lia. apply N.mod_mul. lia.
  - apply N.mod_small. lia.
Qed.

Lemma hrun_app es1 : forall h es2, hrun h (es1 ++ es2) =
  rbind (hrun h es1) (fun q => rbind (hrun (fst q) es2) (fun r => Ok (fst r, snd q ++ snd r))).
Proof.
  induction es1 as [|e es IH]; intros h es2; cbn [app hrun].
  - cbn [rbind fst snd app]. destruct (hrun h es2) as [[a b]| | |]; reflexivity.
  - destruct (hstep h e) as [[h1 o]| | |]; cbn [rbind fst snd]; auto.
    rewrite IH. destruct (hrun h1 es) as [[h2 o2]| | |]; cbn [rbind fst snd]; auto.
    destruct (hrun h2 es2) as [[h3 o3]| | |]; reflexivity.
Qed.

Lemma program_run tx n ws h : n < 1024 -> words ws ->
  exists h' o, hrun h (program tx n ws) = Ok (h', o) /\
    Forall (fun a => match a with OUser _ ok => ok = true | _ => False end) o /\
    (forall j, h_keys h' (negb tx) j = h_keys h (negb tx) j) /\
    (forall j, h_keys h' tx j =
       if (n <=? j) && (j <? n + 8) then nth (N.to_nat (j - n)) ws 0 else h_keys h tx j).
Proof.
  intros Hn (Lw & W).
  destruct ws as [|w0 [|w1 [|w2 [|w3 [|w4 [|w5 [|w6 [|w7 [|]]]]]]]]]; try discriminate Lw.
  repeat match goal with H : Forall _ (_ :: _) |- _ => inversion H; clear H; subst end.
  unfold program. cbn [seq map app nth].
  cbn [hrun].
  rewrite !wdata_step by (auto; lia). cbn [rbind fst snd].
  repeat (rewrite wdata_step by (auto; lia); cbn [rbind fst snd]).
  rewrite ctrl_step by lia. cbn [rbind fst snd].
  do 2 eexists. split; [reflexivity|]. split; [repeat constructor|].
  destruct (fields_wr n Hn) as (A & B & C & D).
  unfold indirect. cbn [set_regs set_keys h_regs h_keys h_bc h_cfg].
  replace (upd _ (R_CTRL tx) (3 + 256 * n) (R_CTRL tx)) with (3 + 256 * n)
    by (unfold upd at 1; rewrite N.eqb_refl; reflexivity).
  rewrite A, B, C, D. cbn [negb N.eqb set_keys h_keys]. split.
  - intros j. unfold set_dir. destruct tx; reflexivity.
  - intros j. unfold set_dir. rewrite Bool.eqb_reflx. unfold upd_words, KEY_WORDS.
    change (N.of_nat 8) with 8.
    destruct ((n <=? j) && (j <? n + 8)) eqn:E; [|reflexivity].
    assert (K : exists k, (k < 8)%nat /\ N.to_nat (j - n) = k) by (exists (N.to_nat (j - n)); lia).
    destruct K as (k & K & ->).
    do 8 (destruct k as [|k]; [destruct tx; reflexivity |]). lia.
Qed.
Lemma program_key n ws k : words ws ->
  (forall j, k j = if (n <=? j) && (j <? n + 8) then nth (N.to_nat (j - n)) ws 0 else 0) ->
  key_bytes k n = bytes_of ws.
Proof.
  intros (Lw & _) H.
  destruct ws as [|w0 [|w1 [|w2 [|w3 [|w4 [|w5 [|w6 [|w7 [|]]]]]]]]]; try discriminate Lw.
  rewrite (key_bytes_ext k (fun j => nth (N.to_nat (j - n)) [w0; w1; w2; w3; w4; w5; w6; w7] 0)).
  - unfold key_bytes, KEY_WORDS, bytes_of. cbn [seq flat_map].
    repeat match goal with |- context[N.to_nat (n + N.of_nat ?i - n)] =>
      replace (N.to_nat (n + N.of_nat i - n)) with i by lia end.
    reflexivity.
  - intros i I. rewrite H. replace ((n <=? n + N.of_nat i) && (n + N.of_nat i <? n + 8)) with true by lia.
    reflexivity.
Qed.
Lemma digest_run tx n h : n < 1024 -> exists h' o1,
  hrun h (digest tx n) = Ok (h', [o1; OUser (le_enc 4 (crc32 0 (key_bytes (h_keys h tx) n))) true]) /\
  forall d j, h_keys h' d j = h_keys h d j.
Proof.
  intros Hn. unfold digest. cbn [hrun]. rewrite ctrl_step by lia. cbn [rbind fst snd].
  destruct (fields_rd n Hn) as (A & B & C & D).
  unfold indirect. cbn [set_regs set_keys h_regs h_keys h_bc h_cfg].
  replace (upd _ (R_CTRL tx) (1 + 256 * n) (R_CTRL tx)) with (1 + 256 * n)
    by (unfold upd at 1; rewrite N.eqb_refl; reflexivity).
  rewrite A, B, C, D. cbn [negb N.eqb set_regs h_keys h_regs].
  replace (base tx + 0xC00) with (4 * R_RDATA tx) by (unfold base, R_RDATA; destruct tx; lia).
  cbn [hstep]. rewrite read_ok by (unfold R_RDATA; destruct tx; lia).
  replace (R_RDATA tx =? 0) with false by (destruct tx; reflexivity).
  cbn [rbind fst snd h_regs].
  assert (U : forall f v, upd f (R_RDATA tx) v (R_RDATA tx) = v)
    by (intros f v; unfold upd; rewrite N.eqb_refl; reflexivity).
  do 2 eexists. split; [cbn [set_regs h_regs]; rewrite U; reflexivity | reflexivity].
Qed.

(** ** what the answers tell about the keys *)
Definition same_regs (h h' : hsc) : Prop := forall i, h_regs h i = h_regs h' i.
Lemma mod2_odd v : v mod 2 = if N.odd v then 1 else 0.
Proof. rewrite <- N.bit0_odd, <- N.bit0_mod. unfold N.b2n. destruct (N.testbit v 0); reflexivity. Qed.
Lemma mod16_conv v : f_ena v = true -> f_wr v = false -> f_grp v = 0 -> v mod 16 = 1.
Proof.
  intros A B C. unfold f_ena, f_wr, f_grp in *.
  pose proof (mod2_odd v) as P. pose proof (mod2_odd (v / 2)) as Q. rewrite A in P. rewrite B in Q. lia.
Qed.
Lemma indirect_same tx h h' : same_regs h h' ->
  ~ (f_ena (h_regs h (R_CTRL tx)) = true /\ f_wr (h_regs h (R_CTRL tx)) = false /\
     f_grp (h_regs h (R_CTRL tx)) = 0) ->
  same_regs (indirect tx h) (indirect tx h').
Proof.
  intros S D. unfold indirect. rewrite <- (S (R_CTRL tx)).
  destruct (f_ena (h_regs h (R_CTRL tx))); cbn [negb]; [|exact S].
  destruct (f_grp (h_regs h (R_CTRL tx)) =? 0) eqn:G.
  - destruct (f_wr (h_regs h (R_CTRL tx))).
    + intros i. cbn [set_keys set_regs h_regs]. unfold upd. rewrite !S. reflexivity.
    + exfalso. apply D. repeat split. apply N.eqb_eq, G.
  - intros i. cbn [set_keys set_regs h_regs]. unfold upd. rewrite !S. reflexivity.
Qed.
Lemma user_same h h' g : same_regs h h' -> ~ asks_digest g ->
  match user_if h g, user_if h' g with
  | Ok (a, d, b), Ok (a', d', b') => d = d' /\ b = b' /\ same_regs a a'
  | UB, UB => True
  | _, _ => False
  end.
Proof.
  intros S D. unfold user_if.
  destruct (g_be g || (4 <? N.of_nat (length (g_data g))) || (g_sw g <? N.of_nat (length (g_data g)))); auto.
  destruct (MAX_REGS <? g_addr g / 4); auto.
  destruct (g_cmd g) eqn:C; auto.
  - destruct (g_addr g / 4 =? R_REVISION); auto.
    destruct (g_addr g / 4 <? MAX_REGS); auto. rewrite (S (g_addr g / 4)). auto.
  - destruct (read_only (g_addr g / 4)); auto.
    destruct (MAX_REGS <=? g_addr g / 4); auto. split; [auto|]. split; [auto|].
    assert (S1 : same_regs (set_regs h (upd (h_regs h) (g_addr g / 4) (le_dec (g_data g))))
                           (set_regs h' (upd (h_regs h') (g_addr g / 4) (le_dec (g_data g))))).
    { intros i. cbn [set_regs h_regs]. unfold upd. rewrite !S. reflexivity. }
    destruct (g_addr g / 4 =? R_CTRL true) eqn:T; [| destruct (g_addr g / 4 =? R_CTRL false) eqn:F; [|exact S1]].
    + apply indirect_same; [exact S1|]. cbn [set_regs h_regs]. unfold upd. rewrite N.eqb_sym, T.
      intros (A & B & E). apply D. split; [auto|]. split; [left; apply N.eqb_eq, T|]. apply mod16_conv; auto.
    + apply indirect_same; [exact S1|]. cbn [set_regs h_regs]. unfold upd. rewrite N.eqb_sym, F.
      intros (A & B & E). apply D. split; [auto|]. split; [right; apply N.eqb_eq, F|]. apply mod16_conv; auto.
Qed.
Lemma run_same es : forall h h', same_regs h h' -> Forall no_digest es ->
  answers (hrun h es) = answers (hrun h' es).
Proof.
  induction es as [|e es IH]; intros h h' S F; [reflexivity|].
  inversion F as [|? ? D F']; subst. cbn [hrun]. destruct e as [g| |]; cbn [no_digest] in D.
  - cbn [hstep]. pose proof (user_same h h' g S D) as U.
    destruct (user_if h g) as [[[a d] b]| | |], (user_if h' g) as [[[a' d'] b']| | |];
      try contradiction; try reflexivity.
    destruct U as (-> & -> & S'). cbn [rbind fst snd]. specialize (IH a a' S' F').
    unfold answers in *. destruct (hrun a es) as [[x y]| | |], (hrun a' es) as [[x' y']| | |];
      cbn in *; congruence.
  - contradiction.
  - cbn [hstep rbind fst snd]. specialize (IH (reset h) (reset h')). 
    assert (S' : same_regs (reset h) (reset h')) by exact S. specialize (IH S' F').
    unfold answers in *. destruct (hrun (reset h) es) as [[x y]| | |], (hrun (reset h') es) as [[x' y']| | |];
      cbn in *; congruence.
Qed.

(** ** streams *)
Lemma indirect_bc tx h d q : h_bc (indirect tx h) d q = h_bc h d q.
Proof.
  unfold indirect. destruct (negb _); [reflexivity|]. destruct (_ =? 0); [|reflexivity].
  destruct (f_wr _); reflexivity.
Qed.
Lemma step_bc h e h' o : hstep h e = Ok (h', o) -> (forall d q, h_bc h d q = 0) -> forall d q, h_bc h' d q = 0.
Proof.
  intros H Z d q. destruct e as [g|tx port p g eop|]; cbn [hstep] in H.
  - unfold user_if in H.
    repeat match type of H with context[if ?b then _ else _] => destruct b end;
      destruct (g_cmd g); cbn [rbind fst snd] in H; try discriminate H;
      injection H as <- <-; rewrite ?indirect_bc; apply Z.
  - unfold stream in H. destruct (MAX_PORT <=? port); [discriminate H|].
    destruct (g_be g || _ || _); [injection H as <- <-; apply Z|].
    destruct ((port =? 0) && _); [discriminate H|].
    match type of H with context[negb ?b] => destruct b end; cbn [negb] in H;
      [|injection H as <- <-; apply Z].
    destruct eop as [e|]; [|discriminate H].
    destruct tx.
    + destruct (encode _ _ _ _ _); cbn [rbind fst snd] in H; try discriminate H. injection H as <- <-. apply Z.
    + destruct (decode _ _ _ _); cbn [rbind fst snd] in H; try discriminate H. injection H as <- <-. apply Z.
  - injection H as <- <-. reflexivity.
Qed.
Lemma reach_bc h : reachable h -> forall d q, h_bc h d q = 0.
Proof.
  intros (h0 & es & o & H). assert (Z : forall d q, h_bc (reset h0) d q = 0) by reflexivity.
  revert H Z. generalize (reset h0). revert o. induction es as [|e es IH]; intros o s H Z; cbn [hrun] in H.
  - injection H as <- <-. exact Z.
  - destruct (hstep s e) as [[s1 o1]| | |] eqn:E; cbn [rbind fst snd] in H; try discriminate H.
    destruct (hrun s1 es) as [[s2 o2]| | |] eqn:R; cbn [rbind fst snd] in H; try discriminate H.
    injection H as <- <-. apply (IH o2 s1 R). apply (step_bc _ _ _ _ E Z).
Qed.

Lemma stream_taken tx h port p g e : reachable h -> taken tx h port p g ->
  exists h1, stream tx h port p g (Some e) =
    if tx then rbind (encode (latch p) 0 (h_keys h true) (g_data g) e) (fun d => Ok (h1, Sent d e))
    else rbind (decode (latch p) 0 (h_keys h false) (g_data g)) (fun d => Ok (h1, Sent (map Some d) e)).
Proof.
  intros R (P & C & A & B & M & Q). unfold stream. rewrite (reach_bc h R).
  replace (MAX_PORT <=? port) with false by (unfold MAX_PORT; lia). rewrite B, C, A. cbn [negb orb N.eqb].
  replace ((port =? 0) && _) with false.
  - replace (c_mode (latch p) =? 0)%Z with true; [eexists; reflexivity|].
    cbn [latch c_mode]. unfold sc_int. change (2 ^ 2) with 4. rewrite M. reflexivity.
  - destruct (port =? 0) eqn:E; [|reflexivity]. apply N.eqb_eq in E. specialize (Q E).
    cbn [andb]. unfold R_P0_ENC, R_P0_DEC. destruct tx; lia.
Qed.

Lemma xor_length k ks d : forall i, length (xor_from k ks i d) = length d.
Proof. induction d as [|b d IH]; intros i; cbn [xor_from length]; auto. Qed.
Lemma xor_masked k ks d : forall i from, (from <= i)%nat -> masked_at k ks from i d = xor_from k ks i d.
Proof.
  induction d as [|b d IH]; intros i from L; cbn [masked_at xor_from]; [reflexivity|].
  replace (i <? from)%nat with false by lia. rewrite IH by lia. reflexivity.
Qed.
Lemma masked_clear k ks d : forall i from, (i + length d <= from)%nat -> masked_at k ks from i d = d.
Proof.
  induction d as [|b d IH]; intros i from L; cbn [masked_at length] in *; [reflexivity|].
  replace (i <? from)%nat with true by lia. rewrite IH by lia. reflexivity.
Qed.
Lemma masked_app k ks from d1 : forall i d2,
  masked_at k ks from i (d1 ++ d2) = masked_at k ks from i d1 ++ masked_at k ks from (i + length d1) d2.
Proof.
  induction d1 as [|b d IH]; intros i d2; cbn [masked_at app length].
  - rewrite Nat.add_0_r. reflexivity.
  - rewrite IH. replace (S i + length d)%nat with (i + S (length d))%nat by lia. reflexivity.
Qed.
Lemma masked_length k ks from d : forall i, length (masked_at k ks from i d) = length d.
Proof. induction d as [|b d IH]; intros i; cbn [masked_at length]; auto. Qed.
Lemma xor_twice k ks d : forall i j,
  xor_from k ks j (xor_from k ks i d) =
  map (fun t => N.lxor (snd t) (N.lxor (nth ((i + fst t) mod ks) k 0) (nth ((j + fst t) mod ks) k 0)))
    (combine (seq 0 (length d)) d).
Proof.
  induction d as [|b d IH]; intros i j; cbn [xor_from length seq combine map]; [reflexivity|].
  cbn [fst snd]. rewrite !Nat.add_0_r, N.lxor_assoc. f_equal. rewrite IH, <- seq_shift.
  clear IH. revert i j. generalize (seq 0 (length d)). intros l. revert d.
  induction l as [|x l IH]; intros d i j; destruct d; cbn [combine map]; auto.
  cbn [fst snd]. rewrite !Nat.add_succ_r, !Nat.add_succ_l. f_equal.
  rewrite IH. reflexivity.
Qed.
Lemma xor_undo k ks d : forall i j, (i mod ks = j mod ks)%nat -> (ks <> 0)%nat ->
  xor_from k ks j (xor_from k ks i d) = d.
Proof.
  induction d as [|b d IH]; intros i j E Z; cbn [xor_from]; [reflexivity|].
  rewrite <- E, N.lxor_assoc, N.lxor_nilpotent, N.lxor_0_r. f_equal. apply IH; auto.
  rewrite <- (Nat.add_1_r i), <- (Nat.add_1_r j), (Nat.add_mod i), (Nat.add_mod j) by auto. rewrite E. reflexivity.
Qed.

Lemma sectag_length c : length (sectag c) = 16%nat.
Proof. unfold sectag. rewrite !app_length, !le_enc_length. reflexivity. Qed.
Lemma tag16 x : tag_len x = 16%nat.
Proof.
  unfold tag_len. destruct (N.lor x 32 =? 0) eqn:E; [|reflexivity].
  apply N.eqb_eq, N.lor_eq_0_iff in E. destruct E as (_ & E). discriminate E.
Qed.
Lemma small_sc w v : v < 2 ^ (w - 1) -> 0 < w -> sc_int w v = Z.of_N v.
Proof.
  intros L W. unfold sc_int. assert (P : 2 ^ w = 2 * 2 ^ (w - 1)).
  { rewrite <- N.pow_succ_r'. f_equal. lia. }
  rewrite N.mod_small by lia.
  replace (Z.of_N v <? 2 ^ (Z.of_N w - 1))%Z with true; [reflexivity|].
  symmetry. apply Z.ltb_lt. replace (Z.of_N w - 1)%Z with (Z.of_N (w - 1)) by lia.
  change 2%Z with (Z.of_N 2). rewrite <- N2Z.inj_pow. lia.
Qed.
Fixpoint below (n : nat) : list N := match n with O => [] | S k => N.of_nat k :: below k end.
Lemma below_in n v : v < N.of_nat n -> In v (below n).
Proof.
  induction n as [|n IH]; intros L; [lia|]. cbn [below]. destruct (N.eq_dec (N.of_nat n) v); [left; auto|].
  right. apply IH. lia.
Qed.
Lemma check_below (f : N -> bool) n v : v < N.of_nat n -> forallb f (below n) = true -> f v = true.
Proof. intros L H. rewrite forallb_forall in H. apply H, below_in, L. Qed.

Lemma tag_is p : pins_ok p -> sectag (latch p) = tag p.
Proof.
  intros (_ & _ & _ & T & A & S). unfold sectag, tag. cbn [latch c_tci c_an c_slen c_pn c_sci].
  change (le_enc 2 58760) with [0x88; 0xE5]. cbn [app]. f_equal. f_equal.
  assert (E1 : N.lor ((to_u8 (sc_int 6 (p_tci p)) * 4) mod 256) (to_u8 (sc_int 2 (p_an p))) = p_tci p * 4 + p_an p).
  { apply N.eqb_eq.
    apply (check_below (fun t => N.lor ((to_u8 (sc_int 6 t) * 4) mod 256) (to_u8 (sc_int 2 (p_an p))) =? t * 4 + p_an p) 64);
      [exact T|].
    apply (check_below (fun a => forallb (fun t => N.lor ((to_u8 (sc_int 6 t) * 4) mod 256) (to_u8 (sc_int 2 a)) =? t * 4 + a) (below 64)) 2);
      [exact A | vm_compute; reflexivity]. }
  rewrite E1. f_equal.
  assert (E2 : (to_u8 (sc_int 8 (p_slen p)) =? 0) = (p_slen p =? 0)).
  { apply Bool.eqb_prop.
    apply (check_below (fun t => Bool.eqb (to_u8 (sc_int 8 t) =? 0) (t =? 0)) 256); [exact S | vm_compute; reflexivity]. }
  rewrite E2. f_equal.
  assert (M : forall k v, le_enc k (v mod 256 ^ N.of_nat k) = le_enc k v).
  { intros k v. rewrite <- le_dec_enc. apply le_enc_dec; [apply le_enc_length | apply le_enc_bytes]. }
  f_equal.
  - change u32 with (256 ^ N.of_nat 4). rewrite M. rewrite <- (M 4%nat), <- (M 4%nat (p_pn p)).
    f_equal. change u64 with (256 ^ N.of_nat 4 * 256 ^ N.of_nat 4).
    rewrite N.mod_mul_r by (cbv; discriminate). rewrite N.mul_comm, N.mod_add by (cbv; discriminate).
    apply N.mod_mod. cbv. discriminate.
  - change u64 with (256 ^ N.of_nat 8). apply M.
Qed.
Lemma suite_is p : p_suite p < 4 -> key_size (latch p) = size_in_use p.
Proof.
  intros L. unfold key_size, size_in_use. cbn [latch c_suite].
  assert (E : ((sc_int 2 (p_suite p) =? 0) || (sc_int 2 (p_suite p) =? 2))%Z = (p_suite p =? 0)).
  { apply Bool.eqb_prop.
    apply (check_below (fun t => Bool.eqb ((sc_int 2 t =? 0) || (sc_int 2 t =? 2))%Z (t =? 0)) 4);
      [exact L | vm_compute; reflexivity]. }
  rewrite E. reflexivity.
Qed.
Lemma conf_is p len off : p_conf p < 64 ->
  clear_len (latch p) 0 len off =
    if p_byp p || p_auth p then (Z.of_nat len - Z.of_nat off)%Z else if p_conf p =? 30 then 42%Z else 0%Z.
Proof.
  intros L. unfold clear_len. cbn [latch c_byp c_auth c_conf]. destruct (p_byp p || p_auth p); [reflexivity|].
  apply Z.eqb_eq.
  apply (check_below (fun t => (if ((sc_int 6 t =? 30) || (sc_int 6 t =? 50))%Z
    then (sc_int 6 t - Z.of_N 0 + 12)%Z else 0%Z) =? (if (t =? 30)%N then 42%Z else 0%Z))%Z 64);
      [exact L | vm_compute; reflexivity].
Qed.
Lemma pick_is h tx p : p_sa p < 2 ^ 19 -> pick_key (latch p) (h_keys h tx) = Ok (selected h tx p).
Proof.
  intros L. unfold pick_key, selected. cbn [latch c_sa c_ext]. rewrite small_sc by (auto; lia).
  unfold MAX_KEYS. destruct (p_sa p <? 1024) eqn:E.
  - replace (1024 <=? Z.of_N (p_sa p))%Z with false by lia.
    replace (Z.of_N (p_sa p) <? 0)%Z with false by lia. rewrite N2Z.id. reflexivity.
  - replace (1024 <=? Z.of_N (p_sa p))%Z with true by lia. reflexivity.
Qed.

Lemma slice_app_mid (a b c : list N) : slice (length a) (length b) (a ++ b ++ c) = b.
Proof.
  unfold slice. rewrite skipn_app, skipn_all, Nat.sub_diag. cbn [app skipn].
  rewrite firstn_app, firstn_all, Nat.sub_diag. cbn [firstn]. apply app_nil_r.
Qed.
(** frames in three pieces: addresses, clear part, rest *)
Lemma encode_ok h p hd cl bd e : pins_ok p -> length hd = 12%nat -> (2 <= length cl + length bd)%nat ->
  length cl = (if p_byp p || p_auth p then length cl + length bd else if (p_conf p =? 30)%N then 42 else 0)%nat ->
  encode (latch p) 0 (h_keys h true) (hd ++ cl ++ bd) e =
    Ok (map Some (hd ++ tag p ++ cl ++ xor_from (selected h true p) (size_in_use p) (12 + length cl) bd)
        ++ repeat None (if e then 16 else 0)%nat).
Proof.
  intros K H L U. pose proof K as (K1 & K2 & K3 & K4 & K5 & K6).
  unfold encode. cbn [N.eqb andb N.ltb N.compare].
  assert (LL : length (hd ++ cl ++ bd) = (12 + length cl + length bd)%nat) by (rewrite !app_length; lia).
  rewrite LL. replace (12 + length cl + length bd <? 14)%nat with false by lia.
  rewrite tag16, conf_is by auto.
  replace (if p_byp p || p_auth p then (Z.of_nat (12 + length cl + length bd) - Z.of_nat 12)%Z
           else if p_conf p =? 30 then 42%Z else 0%Z) with (Z.of_nat (length cl))
    by (destruct (p_byp p || p_auth p); [lia | destruct (p_conf p =? 30); lia]).
  replace ((Z.of_nat (length cl) <? 0)%Z || _) with false by lia. rewrite Nat2Z.id.
  rewrite (firstn_all2 (sectag (latch p))) by (rewrite sectag_length; lia). rewrite tag_is by auto.
  assert (TL : length (tag p) = 16%nat) by (rewrite <- tag_is by auto; apply sectag_length).
  replace (firstn 12 (hd ++ cl ++ bd)) with hd
    by (rewrite firstn_app, <- H, firstn_all, Nat.sub_diag; cbn [firstn]; rewrite app_nil_r; reflexivity).
  replace (slice 12 (length cl) (hd ++ cl ++ bd)) with cl by (rewrite <- H; symmetry; apply slice_app_mid).
  assert (C : crypt (latch p) (h_keys h true) (hd ++ cl ++ bd) (12 + length cl) (12 + length cl + length bd) =
    Ok (xor_from (selected h true p) (size_in_use p) (12 + length cl) bd)).
  { unfold crypt. rewrite LL. rewrite pick_is, suite_is by auto. cbn [rbind].
    replace (12 + length cl + length bd - (12 + length cl))%nat with (length bd) by lia.
    replace (slice (12 + length cl) (length bd) (hd ++ cl ++ bd)) with bd.
    - destruct (12 + length cl <? 12 + length cl + length bd)%nat eqn:E; [reflexivity|].
      destruct bd; [reflexivity | cbn [length] in E; lia].
    - pose proof (slice_app_mid (hd ++ cl) bd []) as Q. rewrite app_length, H, app_nil_r, <- app_assoc in Q.
      symmetry. exact Q. }
  rewrite C. cbn [rbind]. rewrite <- app_assoc.
  rewrite !app_length, H, TL, xor_length.
  replace (_ <? _)%nat with false by (destruct e; lia). do 2 f_equal. f_equal. destruct e; lia.
Qed.
Lemma decode_ok h p hd tg cl bd icv : pins_ok p -> p_byp p || p_auth p = false ->
  length hd = 12%nat -> length tg = 16%nat -> length icv = 16%nat ->
  length cl = (if (p_conf p =? 30)%N then 42 else 0)%nat ->
  decode (latch p) 0 (h_keys h false) (hd ++ tg ++ cl ++ bd ++ icv) =
    Ok (hd ++ cl ++ xor_from (selected h false p) (size_in_use p) (28 + length cl) bd).
Proof.
  intros K B H T I U. pose proof K as (K1 & K2 & K3 & K4 & K5 & K6).
  unfold decode. cbn [N.eqb andb].
  assert (LL : length (hd ++ tg ++ cl ++ bd ++ icv) = (44 + length cl + length bd)%nat) by (rewrite !app_length; lia).
  rewrite LL. replace (44 + length cl + length bd <? 14)%nat with false by lia.
  replace (44 + length cl + length bd <? 15)%nat with false by lia.
  rewrite tag16, conf_is, B by auto. change (12 + 16)%nat with 28%nat.
  replace (if p_conf p =? 30 then 42%Z else 0%Z) with (Z.of_nat (length cl)) by (destruct (p_conf p =? 30); lia).
  replace ((Z.of_nat (length cl) <? 0)%Z || _) with false by lia. rewrite Nat2Z.id.
  replace (firstn 12 (hd ++ tg ++ cl ++ bd ++ icv)) with hd
    by (rewrite firstn_app, <- H, firstn_all, Nat.sub_diag; cbn [firstn]; rewrite app_nil_r; reflexivity).
  replace (slice 28 (length cl) (hd ++ tg ++ cl ++ bd ++ icv)) with cl.
  2:{ pose proof (slice_app_mid (hd ++ tg) cl (bd ++ icv)) as Q. rewrite app_length, H, T, <- app_assoc in Q.
      symmetry. exact Q. }
  assert (C : crypt (latch p) (h_keys h false) (hd ++ tg ++ cl ++ bd ++ icv) (28 + length cl) (44 + length cl + length bd - 16) =
    Ok (xor_from (selected h false p) (size_in_use p) (28 + length cl) bd)).
  { unfold crypt. rewrite LL. rewrite pick_is, suite_is by auto. cbn [rbind].
    replace (28 + length cl <? 44 + length cl + length bd)%nat with true by lia.
    replace (44 + length cl + length bd - 16 - (28 + length cl))%nat with (length bd) by lia.
    do 2 f_equal. pose proof (slice_app_mid (hd ++ tg ++ cl) bd icv) as Q.
    rewrite !app_length, H, T, <- !app_assoc in Q. exact Q. }
  rewrite C. reflexivity.
Qed.
Lemma wire_is key p hd cl bd e : length hd = 12%nat ->
  first_secret p (length (hd ++ cl ++ bd)) = (12 + length cl)%nat ->
  wire key p (hd ++ cl ++ bd) e =
    map Some (hd ++ tag p ++ cl ++ xor_from key (size_in_use p) (12 + length cl) bd)
        ++ repeat None (if e then 16 else 0)%nat.
Proof.
  intros H F. unfold wire. rewrite F. unfold masked. rewrite !masked_app, H.
  rewrite (masked_clear _ _ hd) by lia. rewrite (masked_clear _ _ cl) by lia. rewrite xor_masked by lia.
  cbn [Nat.add]. f_equal. f_equal.
  rewrite firstn_app, skipn_app, <- H, firstn_all, skipn_all, Nat.sub_diag. cbn [firstn skipn app].
  rewrite app_nil_r. reflexivity.
Qed.
Lemma split3 (d : list N) n : (12 + n <= length d)%nat -> exists hd cl bd,
  d = hd ++ cl ++ bd /\ length hd = 12%nat /\ length cl = n.
Proof.
  intros L. exists (firstn 12 d), (firstn n (skipn 12 d)), (skipn n (skipn 12 d)).
  rewrite !firstn_skipn. split; [reflexivity|]. rewrite !firstn_length, skipn_length. lia.
Qed.
Lemma carries_split a n w : carries (map Some a ++ repeat None n) w ->
  exists icv, w = a ++ icv /\ length icv = n.
Proof.
  revert w. induction a as [|x a IH]; intros w C; cbn [map app] in C.
  - exists w. split; [reflexivity|]. clear - C. revert w C. induction n as [|n IH]; intros w C; inversion C; subst; cbn [length]; auto.
  - inversion C as [|o b ? w' E F]; subst. destruct (IH w' F) as (icv & -> & L). exists icv. auto.
Qed.
