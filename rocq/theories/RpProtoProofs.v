From Verif Require Import Base BaseFacts RpProtoModel RpProtoSpec.
Open Scope N_scope.

Lemma rx_data_all r : r_used r = h_len (r_hdr r) -> rx_data r = [].
Proof. intros H. unfold rx_data. rewrite H, N.sub_diag. reflexivity. Qed.

Lemma mod_small_pow k v : v < 256 ^ N.of_nat k -> v mod 256 ^ N.of_nat k = v.
Proof. apply N.mod_small. Qed.

Lemma small8 v : v < u64 -> v mod 256 ^ N.of_nat 8 = v.
Proof. exact (mod_small_pow 8 v). Qed.
Lemma small4 v : v < u32 -> v mod 256 ^ N.of_nat 4 = v.
Proof. exact (mod_small_pow 4 v). Qed.
Lemma small2 v : v < u16 -> v mod 256 ^ N.of_nat 2 = v.
Proof. exact (mod_small_pow 2 v). Qed.

Lemma decode_hdr_encode cmd id dev len flags rest :
  cmd < u32 -> id < u32 -> dev < u32 -> len < u32 -> flags < u32 ->
  rp_decode_hdr (rp_encode_hdr cmd id dev len flags ++ rest) =
  mkHdr cmd len id flags dev.
Proof.
  intros Hc Hi Hd Hl Hf. unfold rp_decode_hdr, rp_encode_hdr.
  rewrite <- !app_assoc. fld_walk.
  rewrite !mod_small_pow by assumption. reflexivity.
Qed.

Lemma encode_hdr_length cmd id dev len flags :
  length (rp_encode_hdr cmd id dev len flags) = 20%nat.
Proof. unfold rp_encode_hdr. rewrite !app_length, !be_enc_length. reflexivity. Qed.

Lemma decode_hdr_app hd rest :
  length hd = 20%nat -> rp_decode_hdr (hd ++ rest) = rp_decode_hdr hd.
Proof.
  intros H. unfold rp_decode_hdr, fld.
  rewrite !slice_app_l by (rewrite H; lia). reflexivity.
Qed.

(** Receiving one packet [hd ++ pay] from the front of the stream. *)
Lemma rx_one_char buf hd pay rest :
  length hd = 20%nat -> (148 <= length buf)%nat ->
  N.to_nat (h_len (rp_decode_hdr hd)) = length pay ->
  exists tail,
    (148 <= length (hd ++ pay ++ tail))%nat /\
    rx_one buf (hd ++ pay ++ rest) =
    rbind (rp_decode_payload (rp_decode_hdr hd) (hd ++ pay ++ tail))
      (fun '(pl, used) => Ok (mkRx (rp_decode_hdr hd) pl used (hd ++ pay ++ tail), rest)).
Proof.
  intros Hhd Hbuf Hlen.
  set (buf1 := overlay 0 (firstn 20 (hd ++ pay ++ rest)) buf).
  assert (E1 : buf1 = hd ++ skipn 20 buf).
  { unfold buf1. rewrite <- Hhd, firstn_app_exact, overlay_at0, Hhd. reflexivity. }
  exists (skipn (length pay) (skipn 20 buf ++ repeat 0 (20 + length pay - length buf1))).
  split.
  { rewrite !app_length, skipn_length, app_length, skipn_length, repeat_length, E1,
      app_length, skipn_length. lia. }
  assert (Hh : rp_decode_hdr buf1 = rp_decode_hdr hd)
    by (rewrite E1; apply decode_hdr_app; exact Hhd).
  assert (E3 : overlay 20 pay (pkt_alloc (20 + length pay) buf1)
     = hd ++ pay ++ skipn (length pay)
         (skipn 20 buf ++ repeat 0 (20 + length pay - length buf1))).
  { unfold overlay, pkt_alloc.
    replace (buf1 ++ repeat 0 (20 + length pay - length buf1))
      with (hd ++ (skipn 20 buf ++ repeat 0 (20 + length pay - length buf1)))
      by (rewrite E1 at 2; rewrite <- app_assoc; reflexivity).
    rewrite <- Hhd at 1. rewrite firstn_app_exact, skipn_app.
    rewrite (skipn_all2 hd) by lia.
    replace (20 + length pay - length hd)%nat with (length pay) by lia.
    reflexivity. }
  unfold rx_one.
  destruct (Nat.ltb_spec (length (hd ++ pay ++ rest)) 20) as [Hlt|_].
  { rewrite app_length in Hlt. lia. }
  cbv zeta. fold buf1. rewrite Hh, Hlen.
  replace (skipn 20 (hd ++ pay ++ rest)) with (pay ++ rest)
    by (rewrite <- Hhd; rewrite skipn_app_exact; reflexivity).
  destruct (Nat.ltb_spec (length (pay ++ rest)) (length pay)) as [Hlt|_].
  { rewrite app_length in Hlt. lia. }
  rewrite firstn_app_exact, skipn_app_exact, E3. reflexivity.
Qed.

Lemma rx_one_enc buf cmd id dev len flags pay rest :
  cmd < u32 -> id < u32 -> dev < u32 -> len < u32 -> flags < u32 ->
  N.of_nat (length pay) = len -> (148 <= length buf)%nat ->
  exists tail,
    (148 <= length (rp_encode_hdr cmd id dev len flags ++ pay ++ tail))%nat /\
    rx_one buf ((rp_encode_hdr cmd id dev len flags ++ pay) ++ rest) =
    rbind (rp_decode_payload (mkHdr cmd len id flags dev)
             (rp_encode_hdr cmd id dev len flags ++ pay ++ tail))
      (fun '(pl, used) =>
         Ok (mkRx (mkHdr cmd len id flags dev) pl used
               (rp_encode_hdr cmd id dev len flags ++ pay ++ tail), rest)).
Proof.
  intros Hc Hi Hd Hl Hf Hn Hb.
  pose proof (decode_hdr_encode cmd id dev len flags [] Hc Hi Hd Hl Hf) as Dh.
  rewrite app_nil_r in Dh.
  destruct (rx_one_char buf (rp_encode_hdr cmd id dev len flags) pay rest) as (tail & Ht & E).
  - apply encode_hdr_length.
  - exact Hb.
  - rewrite Dh. cbn [h_len]. lia.
  - exists tail. split; [exact Ht|]. rewrite <- app_assoc, E, Dh. reflexivity.
Qed.

Lemma fld_hdr off k cmd id dev len flags l :
  (20 <= off)%nat ->
  fld off k (rp_encode_hdr cmd id dev len flags ++ l) = fld (off - 20) k l.
Proof. intros H. unfold fld. rewrite slice_skip; rewrite encode_hdr_length; auto. Qed.

Lemma slice_hdr off k cmd id dev len flags l :
  (20 <= off)%nat ->
  slice off k (rp_encode_hdr cmd id dev len flags ++ l) = slice (off - 20) k l.
Proof. intros H. rewrite slice_skip; rewrite encode_hdr_length; auto. Qed.

Ltac walk :=
  repeat first
    [ rewrite fld_hdr by lia; cbn [Nat.sub]
    | rewrite slice_hdr by lia; cbn [Nat.sub] ];
  rewrite <- ?app_assoc; fld_walk.

Lemma read_caps_enc cap l off pre :
  length pre = off -> Forall (fun c => c < u32) cap ->
  read_caps (length cap) off (pre ++ flat_map (be_enc 4) cap ++ l) = cap.
Proof.
  revert off pre; induction cap as [|c cap IH]; intros off pre Hp HF; [reflexivity|].
  inversion HF as [|? ? Hc HF']; subst.
  cbn [length read_caps flat_map]. f_equal.
  - unfold fld. rewrite slice_skip by lia. rewrite Nat.sub_diag, <- app_assoc.
    rewrite slice_here by apply be_enc_length. rewrite be_dec_enc.
    apply mod_small_pow. exact Hc.
  - rewrite <- (app_assoc (be_enc 4 c)), (app_assoc pre).
    apply IH; [|exact HF'].
    rewrite app_length, be_enc_length. reflexivity.
Qed.

Lemma flat_map_enc_length cap : length (flat_map (be_enc 4) cap) = (4 * length cap)%nat.
Proof.
  induction cap as [|c cap IH]; [reflexivity|].
  cbn [flat_map length]. rewrite app_length, be_enc_length, IH. lia.
Qed.

Lemma rx_hello p junk buf rest id dev major minor cap :
  wf_msg (MHello id dev major minor cap) -> junk_ok junk -> (148 <= length buf)%nat ->
  exists bytes r, wire p junk (MHello id dev major minor cap) = Ok bytes /\
    rx_one buf (bytes ++ rest) = Ok (r, rest) /\
    sees p (MHello id dev major minor cap) r /\ (148 <= length (r_buf r))%nat.
Proof.
  intros (Hi & Hd & Hma & Hmi & Hcap & Hn) Hj Hb.
  unfold junk_ok in Hj.
  set (n := N.of_nat (length cap)) in *.
  assert (Hj2 : length (firstn 2 junk) = 2%nat) by (rewrite firstn_length; lia).
  set (pay := be_enc 2 major ++ be_enc 2 minor ++ be_enc 4 32 ++ be_enc 2 n
                ++ firstn 2 junk ++ flat_map (be_enc 4) cap).
  assert (Hpay : N.of_nat (length pay) = 32 + 4 * n - 20).
  { unfold pay. rewrite !app_length, !be_enc_length, Hj2, flat_map_enc_length. lia. }
  unfold u16 in Hn, Hma, Hmi.
  destruct (rx_one_enc buf CMD_hello id dev (32 + 4 * n - 20) 0 pay rest)
    as (tail & Ht & E); try assumption; try (unfold u32, CMD_hello; lia).
  eexists. eexists. split; [reflexivity|]. split.
  - unfold rp_encode_hello_caps. fold n. fold pay. rewrite E.
    unfold rp_decode_payload. cbn [h_cmd h_len].
    change (CMD_hello =? CMD_hello) with true. cbv iota.
    destruct (N.leb_spec 4 (32 + 4 * n - 20)) as [_|?]; [|lia].
    destruct (N.leb_spec 8 (32 + 4 * n - 20 - 4)) as [_|?]; [|lia].
    unfold pay. walk. 
    change (32 mod 256 ^ N.of_nat 4) with 32.
    rewrite !mod_small_pow by assumption.
    destruct (N.eqb_spec n 0) as [Hz|Hnz].
    + assert (Hc0 : cap = []) by (destruct cap; [reflexivity|unfold n in Hz; cbn in Hz; lia]).
      instantiate (1 := mkRx (mkHdr CMD_hello (32 + 4 * n - 20) id 0 dev)
         (PHello major minor 32 n cap) (32 + 4 * n - 20)
         (rp_encode_hdr CMD_hello id dev (32 + 4 * n - 20) 0 ++ pay ++ tail)).
      cbn [rbind]. rewrite Hc0. unfold pay. rewrite <- !app_assoc. reflexivity.
    + destruct (N.ltb_spec (N.of_nat (length (rp_encode_hdr CMD_hello id dev (32 + 4 * n - 20) 0 ++
         be_enc 2 major ++ be_enc 2 minor ++ be_enc 4 32 ++ be_enc 2 n ++ firstn 2 junk ++
         flat_map (be_enc 4) cap ++ tail))) (32 + 4 * n)) as [Hlt|_].
      { exfalso. rewrite !app_length, encode_hdr_length, !be_enc_length, Hj2, flat_map_enc_length in Hlt. lia. }
      change (32 <? 32) with false. cbv iota. cbn [rbind].
      replace (read_caps (N.to_nat n) (N.to_nat 32) _) with cap.
      2:{ symmetry. unfold n at 1. rewrite Nat2N.id. rewrite !app_assoc.
          rewrite <- (app_assoc _ (flat_map _ _)).
          apply read_caps_enc; [|exact Hcap].
          rewrite !app_length, encode_hdr_length, !be_enc_length, Hj2. reflexivity. }
      unfold pay. rewrite <- !app_assoc. reflexivity.
  - cbn [sees r_hdr r_pl r_buf]. unfold hdr_is. cbn [h_cmd h_id h_dev h_flags].
    fold n. split; [|exact Ht]. repeat split; try reflexivity; apply rx_data_all; reflexivity.
Qed.

Lemma rx_irq p junk buf rest id dev clk line vec val flags :
  wf_msg (MIrq id dev clk line vec val flags) -> (148 <= length buf)%nat ->
  exists bytes r, wire p junk (MIrq id dev clk line vec val flags) = Ok bytes /\
    rx_one buf (bytes ++ rest) = Ok (r, rest) /\
    sees p (MIrq id dev clk line vec val flags) r /\ (148 <= length (r_buf r))%nat.
Proof.
  intros (Hi & Hd & Hclk & Hl & Hv & Hval & Hf) Hb.
  set (pay := be_enc 8 clk ++ be_enc 8 vec ++ be_enc 4 line ++ be_enc 1 val).
  destruct (rx_one_enc buf CMD_interrupt id dev 21 flags pay rest)
    as (tail & Ht & E); try assumption; try (unfold u32, CMD_interrupt; lia).
  { unfold pay. rewrite !app_length, !be_enc_length. reflexivity. }
  eexists. eexists. split; [reflexivity|]. split.
  - unfold rp_encode_interrupt. fold pay. change (41 - 20) with 21. rewrite E.
    unfold rp_decode_payload. cbn [h_cmd h_len].
    unfold CMD_interrupt, CMD_hello, CMD_write, CMD_read. cbn [N.eqb Pos.eqb orb].
    unfold pay. walk. rewrite !mod_small_pow by assumption.
    cbn [rbind]. reflexivity.
  - cbn [sees r_hdr r_pl r_buf]. unfold hdr_is. cbn [h_cmd h_id h_dev h_flags].
    split; [|unfold pay in Ht; rewrite <- !app_assoc in Ht; exact Ht].
    repeat split; try reflexivity; apply rx_data_all; reflexivity.
Qed.

Lemma rx_sync p junk buf rest id dev clk flags :
  wf_msg (MSync id dev clk flags) -> (148 <= length buf)%nat ->
  exists bytes r, wire p junk (MSync id dev clk flags) = Ok bytes /\
    rx_one buf (bytes ++ rest) = Ok (r, rest) /\
    sees p (MSync id dev clk flags) r /\ (148 <= length (r_buf r))%nat.
Proof.
  intros (Hi & Hd & Hclk & Hf) Hb.
  destruct (rx_one_enc buf CMD_sync id dev 8 flags (be_enc 8 clk) rest)
    as (tail & Ht & E); try assumption; try (unfold u32, CMD_sync; lia).
  { rewrite !be_enc_length. reflexivity. }
  eexists. eexists. split; [reflexivity|]. split.
  - unfold rp_encode_sync. change (28 - 20) with 8. rewrite E.
    unfold rp_decode_payload. cbn [h_cmd h_len].
    unfold CMD_sync, CMD_interrupt, CMD_hello, CMD_write, CMD_read. cbn [N.eqb Pos.eqb orb].
    walk. rewrite !mod_small_pow by assumption.
    cbn [rbind]. reflexivity.
  - cbn [sees r_hdr r_pl r_buf]. unfold hdr_is. cbn [h_cmd h_id h_dev h_flags].
    split; [|exact Ht]. repeat split; try reflexivity; apply rx_data_all; reflexivity.
Qed.

Lemma rx_ats p junk buf rest cmd id dev clk attr addr len result flags :
  wf_msg (MAts cmd id dev clk attr addr len result flags) -> junk_ok junk ->
  (148 <= length buf)%nat ->
  exists bytes r, wire p junk (MAts cmd id dev clk attr addr len result flags) = Ok bytes /\
    rx_one buf (bytes ++ rest) = Ok (r, rest) /\
    sees p (MAts cmd id dev clk attr addr len result flags) r /\ (148 <= length (r_buf r))%nat.
Proof.
  intros (Hcmd & Hi & Hd & Hclk & Hat & Had & Hle & Hre & Hf) Hj Hb.
  unfold junk_ok in Hj.
  assert (Hj2 : length (firstn 32 junk) = 32%nat) by (rewrite firstn_length; lia).
  set (pay := be_enc 8 clk ++ be_enc 8 attr ++ be_enc 8 addr ++ be_enc 8 len
     ++ be_enc 4 result ++ firstn 32 junk).
  destruct (rx_one_enc buf cmd id dev 68 flags pay rest)
    as (tail & Ht & E); try assumption;
    try (unfold u32, CMD_ats_req, CMD_ats_inv in *; lia).
  { unfold pay. rewrite !app_length, !be_enc_length, Hj2. reflexivity. }
  eexists. eexists. split; [reflexivity|]. split.
  - unfold rp_encode_ats. fold pay. change (88 - 20) with 68. rewrite E.
    unfold rp_decode_payload. cbn [h_cmd h_len].
    assert (X : ((cmd =? CMD_ats_req) || (cmd =? CMD_ats_inv) = true)
      /\ (cmd =? CMD_hello) = false /\ ((cmd =? CMD_write) || (cmd =? CMD_read)) = false
      /\ (cmd =? CMD_interrupt) = false /\ (cmd =? CMD_sync) = false).
    { unfold CMD_ats_req, CMD_ats_inv, CMD_hello, CMD_write, CMD_read,
        CMD_interrupt, CMD_sync in *. destruct Hcmd; subst cmd; repeat split; reflexivity. }
    destruct X as (X1 & X2 & X3 & X4 & X5). rewrite X1, X2, X3, X4, X5.
    unfold pay. walk. rewrite !mod_small_pow by assumption.
    cbn [rbind]. reflexivity.
  - cbn [sees r_hdr r_pl r_buf]. unfold hdr_is. cbn [h_cmd h_id h_dev h_flags].
    split; [|unfold pay in Ht; rewrite <- !app_assoc in Ht; exact Ht].
    split; [repeat split; reflexivity|]. eexists; reflexivity.
Qed.

Lemma lor_lt_pow2 n a b : a < 2 ^ n -> b < 2 ^ n -> N.lor a b < 2 ^ n.
Proof.
  intros Ha Hb. destruct (N.eq_0_gt_0_cases (N.lor a b)) as [E|E].
  - rewrite E. apply N.neq_0_lt_0, N.pow_nonzero. discriminate.
  - apply N.log2_lt_pow2; [exact E|]. rewrite N.log2_lor.
    destruct (N.eq_0_gt_0_cases a) as [Ea|Ea]; destruct (N.eq_0_gt_0_cases b) as [Eb|Eb].
    + subst. cbn in E. lia.
    + subst. cbn [N.log2 N.max]. rewrite N.max_0_l. apply N.log2_lt_pow2; assumption.
    + subst b. change (N.log2 0) with 0. rewrite N.max_0_r. apply N.log2_lt_pow2; assumption.
    + apply N.max_lub_lt; apply N.log2_lt_pow2; assumption.
Qed.

Lemma has_flag_lor_ext a : has_flag (N.lor a ATTR_EXT_BASE) ATTR_EXT_BASE = true.
Proof.
  unfold has_flag. rewrite N.land_lor_distr_l.
  change (N.land ATTR_EXT_BASE ATTR_EXT_BASE) with 4.
  destruct (N.eqb_spec (N.lor (N.land a ATTR_EXT_BASE) 4) 0) as [E|]; [|reflexivity].
  apply N.lor_eq_0_iff in E. destruct E; discriminate.
Qed.

Lemma mid_low a b c :
  a < 65536 -> N.lor (N.lor a (b * 65536)) (c * 4294967296) mod 65536 = a.
Proof.
  intros Ha. change 65536 with (2 ^ 16) in *. change 4294967296 with (2 ^ 32).
  rewrite <- !N.land_ones, <- !N.shiftl_mul_pow2.
  apply N.bits_inj; intros k.
  rewrite N.land_spec, !N.lor_spec.
  destruct (N.ltb_spec k 16) as [Hk|Hk].
  - rewrite N.ones_spec_low by exact Hk.
    rewrite !N.shiftl_spec_low by lia. rewrite !orb_false_r. apply andb_true_r.
  - rewrite N.ones_spec_high by exact Hk. rewrite andb_false_r.
    symmetry. rewrite <- (N.mod_small a (2^16) Ha). apply N.mod_pow2_bits_high. exact Hk.
Qed.

Lemma carries_hsize i : bus_hsize i = (if carries_data i then i_size i else 0).
Proof.
  unfold bus_hsize, carries_data.
  destruct ((i_cmd i =? CMD_write) && negb (has_flag (i_flags i) FLAG_response)); cbn [orb]; reflexivity.
Qed.

Lemma bus_common_length clk m a at_ sz w sw :
  length (encode_bus_common clk m a at_ sz w sw) = 38%nat.
Proof. unfold encode_bus_common. rewrite !app_length, !be_enc_length. reflexivity. Qed.

(** Bus packets with any 64-bit master id: everything but the id survives; of
    the id, the low 16 bits do. *)
Definition sees_bus (i : busin) (data be : list N) (r : rxpkt) : Prop :=
  hdr_is (r_hdr r) (i_cmd i) (i_id i) (i_dev i) (i_flags i) /\
  exists b e,
    r_pl r = PBus b e /\
    b_ts b = i_clk i /\ b_addr b = i_addr i /\ b_len b = i_size i /\
    b_width b = i_width i /\ b_sw b = i_sw i /\
    b_master b = i_master i mod 65536 /\
    N.lor (b_attr b) ATTR_EXT_BASE = N.lor (i_attr i) ATTR_EXT_BASE /\
    slice (rx_dataptr b e) (length data) (r_buf r) = data /\
    (e = None -> be = []) /\
    rx_byte_en (r_hdr r) e =
      Ok (if i_be_len i =? 0 then None else Some (rx_dataptr b e + length data)%nat) /\
    slice (rx_dataptr b e + length data) (length be) (r_buf r) = be /\
    rx_data r = data ++ be.

Lemma slice_data hd data tail :
  slice (length hd) (length data) (hd ++ data ++ tail) = data.
Proof. rewrite slice_skip by lia. rewrite Nat.sub_diag. apply slice_here. reflexivity. Qed.

Lemma slice_be hd data be tail :
  slice (length hd + length data) (length be) (hd ++ data ++ be ++ tail) = be.
Proof.
  rewrite slice_skip by lia.
  replace (length hd + length data - length hd)%nat with (length data) by lia.
  apply slice_data.
Qed.

Lemma slice_both hd data be tail :
  slice (length hd) (length data + length be) (hd ++ data ++ be ++ tail) = data ++ be.
Proof.
  rewrite slice_skip by lia. rewrite Nat.sub_diag, app_assoc. apply slice_here.
  apply app_length.
Qed.

Lemma cmd_rw cmd :
  cmd = CMD_read \/ cmd = CMD_write ->
  (cmd =? CMD_hello) = false /\ ((cmd =? CMD_write) || (cmd =? CMD_read)) = true.
Proof.
  unfold CMD_hello, CMD_write, CMD_read. intros [-> | ->]; split; reflexivity.
Qed.

Lemma decode_bus_old h H0 i rest :
  length H0 = 20%nat -> wf_in i -> (h_cmd h = CMD_read \/ h_cmd h = CMD_write) ->
  38 <= h_len h -> has_flag (i_attr i) ATTR_EXT_BASE = false -> i_master i < 65536 ->
  rp_decode_payload h (H0 ++ encode_bus_common (i_clk i) (i_master i) (i_addr i) (i_attr i)
               (i_size i) (i_width i) (i_sw i) ++ rest) =
  Ok (PBus (mkBus (i_clk i) (i_attr i) (i_addr i) (i_size i) (i_width i) (i_sw i)
                  (i_master i)) None, 38).
Proof.
  intros L0 Hin Hcmd Hl Hext Hm.
  destruct Hin as (Hc & Hi & Hf & Hd & Hclk & Hm64 & Ha & Hat & Hs & Hw & Hsw & Hbe32).
  unfold rp_decode_payload. destruct (cmd_rw _ Hcmd) as (X1 & X2). rewrite X1, X2.
  destruct (N.leb_spec 38 (h_len h)) as [_|?]; [|lia].
  unfold fld. rewrite !(slice_skip _ _ H0) by lia. rewrite !L0. cbn [Nat.sub].
  repeat change (be_dec (slice ?o ?k ?l)) with (fld o k l).
  unfold encode_bus_common. rewrite <- !app_assoc. fld_walk.
  rewrite !mod_small_pow by (unfold u16, u32, u64 in *; first [assumption | lia]).
  rewrite Hext. reflexivity.
Qed.

Definition ext_part (hsize i_m be_len : N) : list N :=
  be_enc 2 (i_m / 65536) ++ be_enc 4 (i_m / 4294967296)
  ++ be_enc 4 80 ++ be_enc 4 0 ++ be_enc 4 (80 + hsize) ++ be_enc 4 be_len.

Lemma ext_part_length a b c : length (ext_part a b c) = 22%nat.
Proof. unfold ext_part. rewrite !app_length, !be_enc_length. reflexivity. Qed.

Lemma decode_bus_ext h H0 i hs rest :
  length H0 = 20%nat -> wf_in i -> (h_cmd h = CMD_read \/ h_cmd h = CMD_write) ->
  60 <= h_len h -> 80 + hs < u32 ->
  exists x y,
  rp_decode_payload h (H0 ++ encode_bus_common (i_clk i) (i_master i) (i_addr i)
               (N.lor (i_attr i) ATTR_EXT_BASE)
               (i_size i) (i_width i) (i_sw i) ++ ext_part hs (i_master i) (i_be_len i) ++ rest) =
  Ok (PBus (mkBus (i_clk i) (N.lor (i_attr i) ATTR_EXT_BASE) (i_addr i) (i_size i)
              (i_width i) (i_sw i) (i_master i mod 65536))
        (Some (mkExt x y 80 0 (80 + hs) (i_be_len i))), 60).
Proof.
  intros L0 Hin Hcmd Hl Hhs.
  destruct Hin as (Hc & Hi & Hf & Hd & Hclk & Hm64 & Ha & Hat & Hs & Hw & Hsw & Hbe32).
  unfold rp_decode_payload. destruct (cmd_rw _ Hcmd) as (X1 & X2). rewrite X1, X2.
  destruct (N.leb_spec 38 (h_len h)) as [_|?]; [|lia].
  unfold fld. rewrite !(slice_skip _ _ H0) by lia. rewrite !L0. cbn [Nat.sub].
  repeat change (be_dec (slice ?o ?k ?l)) with (fld o k l).
  unfold encode_bus_common, ext_part. rewrite <- !app_assoc. fld_walk.
  assert (Hat' : N.lor (i_attr i) ATTR_EXT_BASE < 256 ^ N.of_nat 8).
  { apply (lor_lt_pow2 64); [exact Hat|reflexivity]. }
  rewrite (mod_small_pow 8 (N.lor (i_attr i) ATTR_EXT_BASE)) by exact Hat'.
  rewrite has_flag_lor_ext.
  destruct (N.leb_spec 60 (h_len h)) as [_|?]; [|lia].
  change (80 mod 256 ^ N.of_nat 4) with 80. change (0 mod 256 ^ N.of_nat 4) with 0.
  rewrite (small8 _ Hclk), (small8 _ Ha), (small4 _ Hs), (small4 _ Hw),
    (small4 _ Hsw), (small4 _ Hhs), (small4 _ Hbe32).
  rewrite mid_low by (apply N.mod_lt; discriminate).
  change (256 ^ N.of_nat 2) with 65536.
  eexists. eexists. reflexivity.
Qed.

Lemma rx_bus_old p junk buf rest i data :
  wf_msg (MBus i data []) -> bus_old_layout p i = true -> i_master i < 65535 ->
  (148 <= length buf)%nat ->
  exists bytes r, wire p junk (MBus i data []) = Ok bytes /\
    rx_one buf (bytes ++ rest) = Ok (r, rest) /\
    sees_bus i data [] r /\ (148 <= length (r_buf r))%nat.
Proof.
  intros (Hin & Hcmd & Hdl & Hbl & Hdo & Hbo & Hlen) Hold Hm Hb.
  pose proof Hin as (Hc & Hi & Hf & Hd & Hclk & Hm64 & Ha & Hat & Hs & Hw & Hsw & Hbe32).
  set (cm := encode_bus_common (i_clk i) (i_master i) (i_addr i) (i_attr i)
               (i_size i) (i_width i) (i_sw i)).
  cbn [length] in Hbl.
  set (hlen := 58 - 20 + bus_hsize i).
  assert (Hhl : N.of_nat (length (cm ++ data)) = hlen).
  { unfold hlen. rewrite app_length, carries_hsize. unfold cm. rewrite bus_common_length.
    destruct (carries_data i); lia. }
  assert (Hhl2 : hlen < u32).
  { unfold hlen. rewrite carries_hsize. unfold u32 in *. destruct (carries_data i); lia. }
  destruct (rx_one_enc buf (i_cmd i) (i_id i) (i_dev i) hlen (i_flags i)
     (cm ++ data) rest Hc Hi Hd Hhl2 Hf Hhl Hb) as (tail & Ht & E).
  assert (Hext : has_flag (i_attr i) ATTR_EXT_BASE = false).
  { unfold bus_old_layout in Hold.
    destruct (c_ext_base p), (has_flag (i_attr i) ATTR_EXT_BASE); cbn in Hold; congruence. }
  set (H0 := rp_encode_hdr (i_cmd i) (i_id i) (i_dev i) hlen (i_flags i)) in *.
  assert (L0 : length H0 = 20%nat) by apply encode_hdr_length.
  exists (H0 ++ cm ++ data).
  exists (mkRx (mkHdr (i_cmd i) hlen (i_id i) (i_flags i) (i_dev i))
     (PBus (mkBus (i_clk i) (i_attr i) (i_addr i) (i_size i) (i_width i) (i_sw i)
                  (i_master i)) None) 38 (H0 ++ (cm ++ data) ++ tail)).
  split; [|split; [|split]].
  - unfold wire, rp_encode_busaccess. rewrite Hold.
    destruct (N.ltb_spec (i_master i) 65535) as [_|?]; [|lia].
    cbn [rmap rbind]. fold cm. fold hlen. fold H0.
    rewrite app_nil_r, <- app_assoc. reflexivity.
  - rewrite E. rewrite <- (app_assoc cm).
    unfold cm at 1. rewrite decode_bus_old; [reflexivity|assumption..| |exact Hext|lia].
    cbn [h_len]. unfold hlen. lia.
  - assert (L58 : length (H0 ++ cm) = 58%nat).
    { rewrite app_length, L0. unfold cm. rewrite bus_common_length. reflexivity. }
    assert (Ed : N.to_nat (hlen - 38) = length data).
    { unfold hlen. rewrite carries_hsize; destruct (carries_data i); lia. }
    assert (Em : i_master i = i_master i mod 65536) by (symmetry; apply N.mod_small; lia).
    assert (Eb : H0 ++ (cm ++ data) ++ tail = (H0 ++ cm) ++ data ++ [] ++ tail)
      by (rewrite <- !app_assoc; reflexivity).
    unfold sees_bus, hdr_is, rx_data.
    cbn [r_hdr r_pl r_buf r_used h_cmd h_id h_dev h_flags h_len].
    split; [repeat split|].
    eexists. eexists. split; [reflexivity|].
    cbn [b_ts b_addr b_len b_width b_sw b_master b_attr rx_dataptr rx_byte_en].
    rewrite Ed, Eb. change (20 + N.to_nat 38)%nat with 58%nat.
    replace (i_be_len i) with 0 by lia. rewrite N.eqb_refl, <- L58.
    repeat split; try reflexivity; try exact Em.
    + apply slice_data.
    + rewrite slice_data. symmetry. apply app_nil_r.
  - exact Ht.
Qed.

Lemma rx_bus_ext p junk buf rest i data be :
  wf_msg (MBus i data be) -> bus_old_layout p i = false ->
  80 + i_size i + i_be_len i < u32 ->
  (148 <= length buf)%nat ->
  exists bytes r, wire p junk (MBus i data be) = Ok bytes /\
    rx_one buf (bytes ++ rest) = Ok (r, rest) /\
    sees_bus i data be r /\ (148 <= length (r_buf r))%nat.
Proof.
  intros (Hin & Hcmd & Hdl & Hbl & Hdo & Hbo & Hlen) Hold Hlen2 Hb.
  pose proof Hin as (Hc & Hi & Hf & Hd & Hclk & Hm64 & Ha & Hat & Hs & Hw & Hsw & Hbe32).
  set (cm := encode_bus_common (i_clk i) (i_master i) (i_addr i)
               (N.lor (i_attr i) ATTR_EXT_BASE) (i_size i) (i_width i) (i_sw i)).
  set (hs := bus_hsize i).
  assert (Hhs : hs = N.of_nat (length data)).
  { unfold hs. rewrite carries_hsize. symmetry. exact Hdl. }
  assert (Hhs2 : hs <= i_size i).
  { unfold hs. rewrite carries_hsize. destruct (carries_data i); lia. }
  set (ep := ext_part hs (i_master i) (i_be_len i)).
  set (hlen := 80 - 20 + (hs + i_be_len i)).
  assert (Hhl : N.of_nat (length (cm ++ ep ++ data ++ be)) = hlen).
  { unfold hlen. rewrite !app_length. unfold cm, ep.
    rewrite bus_common_length, ext_part_length. lia. }
  assert (Hhl2 : hlen < u32) by (unfold hlen, u32 in *; lia).
  destruct (rx_one_enc buf (i_cmd i) (i_id i) (i_dev i) hlen (i_flags i)
     (cm ++ ep ++ data ++ be) rest Hc Hi Hd Hhl2 Hf Hhl Hb) as (tail & Ht & E).
  set (H0 := rp_encode_hdr (i_cmd i) (i_id i) (i_dev i) hlen (i_flags i)) in *.
  assert (L0 : length H0 = 20%nat) by apply encode_hdr_length.
  set (h := mkHdr (i_cmd i) hlen (i_id i) (i_flags i) (i_dev i)) in *.
  destruct (decode_bus_ext h H0 i hs (data ++ be ++ tail) L0 Hin Hcmd) as (x & y & D).
  { cbn [h h_len]. unfold hlen. lia. }
  { unfold u32 in *. lia. }
  fold cm ep in D.
  assert (Eb : H0 ++ (cm ++ ep ++ data ++ be) ++ tail = H0 ++ cm ++ ep ++ data ++ be ++ tail)
    by (rewrite <- !app_assoc; reflexivity).
  exists (H0 ++ cm ++ ep ++ data ++ be).
  exists (mkRx h
     (PBus (mkBus (i_clk i) (N.lor (i_attr i) ATTR_EXT_BASE) (i_addr i) (i_size i)
              (i_width i) (i_sw i) (i_master i mod 65536))
        (Some (mkExt x y 80 0 (80 + hs) (i_be_len i)))) 60
     (H0 ++ cm ++ ep ++ data ++ be ++ tail)).
  split; [|split; [|split]].
  - unfold wire, rp_encode_busaccess. rewrite Hold.
    cbn [rmap rbind]. fold hs. fold hlen. fold H0. fold cm.
    change (be_enc 2 (i_master i / 65536) ++ be_enc 4 (i_master i / 4294967296) ++
       be_enc 4 80 ++ be_enc 4 0 ++ be_enc 4 (80 + hs) ++ be_enc 4 (i_be_len i)) with ep.
    rewrite <- !app_assoc. reflexivity.
  - rewrite E, Eb, D. reflexivity.
  - assert (L80 : length (H0 ++ cm ++ ep) = 80%nat).
    { rewrite !app_length, L0. unfold cm, ep. rewrite bus_common_length, ext_part_length. reflexivity. }
    assert (Ed : N.to_nat (hlen - 60) = (length data + length be)%nat) by (unfold hlen; lia).
    assert (Eb2 : H0 ++ cm ++ ep ++ data ++ be ++ tail = (H0 ++ cm ++ ep) ++ data ++ be ++ tail)
      by (rewrite <- !app_assoc; reflexivity).
    unfold sees_bus, hdr_is, rx_data. rewrite Eb2.
    cbn [r_hdr r_pl r_buf r_used h h_cmd h_id h_dev h_flags h_len].
    split; [repeat split|].
    eexists. eexists. split; [reflexivity|].
    cbn [b_ts b_addr b_len b_width b_sw b_master b_attr rx_dataptr rx_byte_en
         e_data_off e_be_off e_be_len].
    rewrite Ed. change (20 + N.to_nat 60)%nat with 80%nat.
    change (N.to_nat 80) with 80%nat.
    repeat split; try reflexivity.
    + rewrite <- N.lor_assoc. reflexivity.
    + rewrite <- L80. apply slice_data.
    + discriminate.
    + destruct (N.eqb_spec (i_be_len i) 0) as [|Hnz]; [reflexivity|].
      destruct (N.ltb_spec (80 + hs) 80) as [?|_]; [lia|].
      change (h_len h) with hlen.
      destruct (N.ltb_spec (hlen + 20) (80 + hs + i_be_len i)) as [?|_]; [unfold hlen in *; lia|].
      rewrite Hhs, N2Nat.inj_add, Nat2N.id. reflexivity.
    + rewrite <- L80. apply slice_be.
    + rewrite <- L80. apply slice_both.
  - cbn [r_buf]. rewrite <- Eb. exact Ht.
Qed.

Lemma sees_bus_small p i data be r :
  i_master i < 65536 -> sees_bus i data be r -> sees p (MBus i data be) r.
Proof.
  intros Hm (Hh & b & e & H1 & H2 & H3 & H4 & H5 & H6 & H7 & H8).
  split; [exact Hh|]. exists b, e.
  rewrite (N.mod_small _ _ Hm) in H7. intuition.
Qed.

(** One packet of any kind, at the head of any stream, into any buffer. *)
Lemma rx_any p junk buf rest m :
  sendable p m -> junk_ok junk -> (148 <= length buf)%nat ->
  exists bytes r, wire p junk m = Ok bytes /\
    rx_one buf (bytes ++ rest) = Ok (r, rest) /\
    sees p m r /\ (148 <= length (r_buf r))%nat.
Proof.
  intros (Hwf & Hx) Hj Hb. destruct m as [id dev ma mi cap|i data be|id dev clk line vec val flags|id dev clk flags|cmd id dev clk attr addr len result flags].
  - apply rx_hello; assumption.
  - destruct Hx as (Hm & Ho). destruct (bus_old_layout p i) eqn:EO.
    + specialize (Ho eq_refl). destruct Ho as (-> & Hn).
      assert (Hm' : i_master i < 65535) by lia.
      destruct (rx_bus_old p junk buf rest i data Hwf EO Hm' Hb) as (bs & r & H1 & H2 & H3 & H4).
      exists bs, r. split; [exact H1|]. split; [exact H2|]. split; [|exact H4].
      apply sees_bus_small; [lia|exact H3].
    + destruct (rx_bus_ext p junk buf rest i data be Hwf EO) as (bs & r & H1 & H2 & H3 & H4).
      { apply Hwf. }
      { exact Hb. }
      exists bs, r. split; [exact H1|]. split; [exact H2|]. split; [|exact H4].
      apply sees_bus_small; [lia|exact H3].
  - apply rx_irq; assumption.
  - apply rx_sync; assumption.
  - apply rx_ats; assumption.
Qed.

Lemma wire_nonempty p junk m bytes buf rest r :
  (148 <= length buf)%nat ->
  rx_one buf (bytes ++ rest) = Ok (r, rest) -> wire p junk m = Ok bytes -> bytes <> [].
Proof.
  intros _ H1 H2 ->. destruct m as [| i data be | | |]; cbn [wire] in H2;
    try (apply (f_equal (rmap (@length N))) in H2; cbn in H2; discriminate).
  unfold rp_encode_busaccess in H2.
  destruct (bus_old_layout p i); [destruct (i_master i <? 65535)|]; cbn in H2; discriminate.
Qed.

Lemma stream_ok p junk ms : forall buf,
  Forall (sendable p) ms -> junk_ok junk -> (148 <= length buf)%nat ->
  exists bytes rs, wire_all p junk ms = Ok bytes /\
    (forall fuel, (length ms <= fuel)%nat -> rx_all fuel buf bytes = Ok rs) /\
    Forall2 (sees p) ms rs.
Proof.
  induction ms as [|m ms IH]; intros buf HF Hj Hb.
  - exists [], []. split; [reflexivity|]. split; [|constructor].
    intros [|f] _; reflexivity.
  - inversion HF as [|? ? Hm HF']; subst.
    destruct (rx_any p junk buf [] m Hm Hj Hb) as (b0 & r0 & W0 & R0 & _ & Hb0).
    assert (Hne := wire_nonempty p junk m b0 buf [] r0 Hb R0 W0).
    clear r0 R0 Hb0.
    assert (Hrx : forall rest, exists r, rx_one buf (b0 ++ rest) = Ok (r, rest) /\
              sees p m r /\ (148 <= length (r_buf r))%nat).
    { intros rest. destruct (rx_any p junk buf rest m Hm Hj Hb) as (b1 & r & W1 & R & S & L).
      rewrite W0 in W1. injection W1 as <-. exists r. auto. }
    (* the rest of the stream does not depend on the buffer *)
    destruct (IH (repeat 0 148) HF' Hj) as (bs & _ & W & _ & _).
    { rewrite repeat_length. lia. }
    destruct (Hrx bs) as (r & R & S & L).
    destruct (IH (r_buf r) HF' Hj L) as (bs' & rs & W' & Hall & HS).
    rewrite W in W'. injection W' as <-.
    exists (b0 ++ bs), (r :: rs). split; [|split].
    + cbn [wire_all]. rewrite W0. cbn [rbind]. rewrite W. reflexivity.
    + intros fuel Hf. destruct fuel as [|f]; [cbn in Hf; lia|].
      cbn [length] in Hf. cbn [rx_all].
      destruct (b0 ++ bs) as [|x l] eqn:Eb.
      { apply app_eq_nil in Eb. destruct Eb; contradiction. }
      rewrite R. cbn [rbind]. rewrite Hall by lia. reflexivity.
    + constructor; assumption.
Qed.

(** Capability lists. *)
Lemma process_caps_fold l : forall c,
  c_ext_base (fold_left process_cap l c) = c_ext_base c || existsb (N.eqb 1) l /\
  c_byte_en (fold_left process_cap l c) = c_byte_en c || existsb (N.eqb 2) l /\
  c_wire_posted (fold_left process_cap l c) = c_wire_posted c || existsb (N.eqb 3) l /\
  c_ats (fold_left process_cap l c) = c_ats c || existsb (N.eqb 4) l.
Proof.
  induction l as [|w l IH]; intros c; cbn [fold_left existsb].
  - rewrite !orb_false_r. auto.
  - destruct (IH (process_cap c w)) as (E1 & E2 & E3 & E4).
    rewrite E1, E2, E3, E4. unfold process_cap.
    destruct (N.eqb_spec w 1) as [->|N1]; [cbn; rewrite ?orb_true_r; auto|].
    destruct (N.eqb_spec w 2) as [->|N2]; [cbn; rewrite ?orb_true_r; auto|].
    destruct (N.eqb_spec w 3) as [->|N3]; [cbn; rewrite ?orb_true_r; auto|].
    destruct (N.eqb_spec w 4) as [->|N4]; [cbn; rewrite ?orb_true_r; auto|].
    destruct (N.eqb_spec 1 w), (N.eqb_spec 2 w), (N.eqb_spec 3 w), (N.eqb_spec 4 w);
      try congruence. cbn. auto.
Qed.

Lemma existsb_eqb_In x l : existsb (N.eqb x) l = true <-> In x l.
Proof.
  rewrite existsb_exists. split.
  - intros (y & Hy & E). apply N.eqb_eq in E. subst. exact Hy.
  - intros H. exists x. split; [exact H|apply N.eqb_refl].
Qed.

(** Any 64-bit master id in the extended layout: the low 16 bits arrive. *)
Lemma master_low16 p junk buf rest i data be :
  wf_msg (MBus i data be) -> bus_old_layout p i = false -> rxbuf_ok buf ->
  exists bytes r b e, wire p junk (MBus i data be) = Ok bytes /\
    rx_one buf (bytes ++ rest) = Ok (r, rest) /\
    r_pl r = PBus b e /\ b_master b = i_master i mod 65536.
Proof.
  intros Hwf EO Hb.
  destruct (rx_bus_ext p junk buf rest i data be Hwf EO) as (bs & r & H1 & H2 & H3 & H4).
  { apply Hwf. }
  { exact Hb. }
  destruct H3 as (_ & b & e & P & _ & _ & _ & _ & _ & M & _).
  exists bs, r, b, e. auto.
Qed.

Lemma one_packet p junk buf rest m :
  sendable p m -> junk_ok junk -> rxbuf_ok buf ->
  exists bytes r, wire p junk m = Ok bytes /\
    rx_one buf (bytes ++ rest) = Ok (r, rest) /\ sees p m r.
Proof.
  intros H1 H2 H3. destruct (rx_any p junk buf rest m H1 H2 H3) as (b & r & A & B & C & _).
  exists b, r. auto.
Qed.

Lemma caps_exact c l c' :
  rp_process_caps c l = Ok c' ->
  (c_ext_base c' = true <-> c_ext_base c = true \/ In 1 l) /\
  (c_byte_en c' = true <-> c_byte_en c = true \/ In 2 l) /\
  (c_wire_posted c' = true <-> c_wire_posted c = true \/ In 3 l) /\
  (c_ats c' = true <-> c_ats c = true \/ In 4 l).
Proof.
  unfold rp_process_caps. destruct (c_ext_base c) eqn:E; [discriminate|].
  intros H. injection H as <-.
  destruct (process_caps_fold l c) as (E1 & E2 & E3 & E4).
  rewrite E1, E2, E3, E4, !orb_true_iff, !existsb_eqb_In, E. tauto.
Qed.

Lemma caps_total c l : c_ext_base c = false -> exists c', rp_process_caps c l = Ok c'.
Proof. unfold rp_process_caps. intros ->. eauto. Qed.
