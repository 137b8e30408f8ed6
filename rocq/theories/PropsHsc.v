(** C108, C109: registers, keys and MACsec frames of the HSC. *)
From Coq Require Import ZArith.
From Verif Require Import Base BaseFacts LeFacts CrcModel CrcSpec CrcProofs HscModel HscSpec HscProofs.
From Coq Require Import Lia ZifyN ZifyNat ZifyBool.
Open Scope N_scope.

(** a module after reset whose registers held zero *)
Definition h00 : hsc := reset (mkHsc (fun _ => 0) (fun _ _ => 7) (fun _ _ => 5) (fun _ _ => cfg0)).
Definition pin0 : pins := mkPins false false 0 0 0 0 (repeat 9 32) 0x01020304 1 0x1122334455667788 0 11.

(** C108: a 32-bit write to a register below 0x7D00 that is no control register succeeds;
    the register shows the value unless it is read-only, and no other register changes. *)
Theorem C108_write_partial : forall h i v, i < 8000 -> ~ is_control i ->
  exists h' d, user_if h (write32 (4 * i) v) = Ok (h', d, true) /\
    (~ is_read_only i -> shows h' i (le_enc 4 v)) /\
    (forall j x, j < 8000 -> j <> i \/ is_read_only i -> shows h j x -> shows h' j x).
Proof.
  intros h i v L C. unfold is_control in C. destruct (read_only i) eqn:R.
  - rewrite (write_ro h i v L R). do 2 eexists. split; [reflexivity|]. split.
    + intros Q. exfalso. apply Q, ro_iff, R.
    + auto.
  - rewrite (write_ok h i v L R). replace (i =? 4096) with false by lia. replace (i =? 6144) with false by lia.
    cbv zeta. do 2 eexists. split; [reflexivity|]. split.
    + intros _. apply shows_iff; [auto|]. cbn [set_regs h_regs]. unfold upd. rewrite N.eqb_refl.
      replace (i =? 0) with false.
      * rewrite <- le4. rewrite le_enc_dec; [reflexivity | apply le_enc_length | apply le_enc_bytes].
      * destruct (i =? 0) eqn:Z; [|reflexivity]. apply N.eqb_eq in Z. subst i. discriminate R.
    + intros j x J D S. rewrite shows_iff in * by auto. rewrite S. cbn [set_regs h_regs]. unfold upd.
      replace (j =? i) with false; [reflexivity|]. destruct D as [D|D]; [lia|].
      apply ro_iff in D. congruence.
Qed.
Example C108_write_case :
  exists h' d, user_if h00 (write32 0x12C 0xCAFEF00D) = Ok (h', d, true) /\
    shows h' 75 [0x0D; 0xF0; 0xFE; 0xCA] /\ shows h' 76 [0; 0; 0; 0] /\ shows h' 0 [1; 0; 0; 0].
Proof.
  eexists. eexists. split; [reflexivity|].
  repeat split; eexists; reflexivity.
Qed.

(** C108: a transaction with byte enables, more than four bytes, a short streaming width, an
    address from 0x7D04 on, or that is neither read nor write is refused and changes nothing. *)
Theorem C108_refuses : forall h g, malformed g -> user_if h g = Ok (h, g_data g, false).
Proof.
  intros h g M. unfold user_if.
  destruct (g_be g || (4 <? N.of_nat (length (g_data g))) || (g_sw g <? N.of_nat (length (g_data g)))) eqn:E;
    [reflexivity|].
  destruct M as [M|[M|[M|[M|M]]]]; try lia.
  - replace (MAX_REGS <? g_addr g / 4) with true; [reflexivity|]. unfold MAX_REGS. lia.
  - rewrite M. destruct (MAX_REGS <? g_addr g / 4); reflexivity.
Qed.
Example C108_refuses_case : malformed (mkGp CRead 0x7D04 [1; 2] false 4) /\
  user_if h00 (mkGp CRead 0x7D04 [1; 2] false 4) = Ok (h00, [1; 2], false).
Proof. split; [right; right; right; left; vm_compute; discriminate | reflexivity]. Qed.

(** C108: the address 0x7D00 is behind the last register and is not refused: both a read and
    a write leave the array. *)
Theorem C108_past_end_refuted : forall h v,
  user_if h (read32 0x7D00) = UB /\ user_if h (write32 0x7D00 v) = UB.
Proof. intros h v. split; reflexivity. Qed.
Example C108_past_end_case : user_if h00 (read32 0x7D00) = UB /\ user_if h00 (read32 0x7CFC) = Ok (h00, [0; 0; 0; 0], true).
Proof. split; reflexivity. Qed.

(** C108: a write of fewer than four bytes does not keep the others, and not even the
    address within the register counts: byte 1 written is byte 0 changed and the rest zero;
    a write of no byte at all clears the register. *)
Theorem C108_narrow_write_refuted : exists h a,
  shows h 75 [0x44; 0x33; 0x22; 0x11] /\
  (match user_if h (mkGp CWrite (a + 1) [0xAA] false 4) with
   | Ok (h', _, true) => shows h' 75 [0xAA; 0; 0; 0] | _ => False end) /\
  (match user_if h (mkGp CWrite a [] false 4) with
   | Ok (h', _, true) => shows h' 75 [0; 0; 0; 0] | _ => False end).
Proof.
  exists (set_regs h00 (upd (fun _ => 0) 75 0x11223344)), 300.
  split; [eexists; reflexivity|]. split; (eexists; reflexivity).
Qed.

(** C108: eight words stored as the key of an SA give the digest, CRC-32 of IEEE 802.3, of
    these words, also after keys of other SAs were stored, when their numbers are at least
    eight away, or keys for the other direction. *)
Theorem C108_digest_partial : forall h tx n ws tx' m ws', n < 1024 -> m < 1024 -> words ws -> words ws' ->
  (tx = tx' -> n + 8 <= m \/ m + 8 <= n) ->
  final (hrun h (program tx n ws ++ program tx' m ws' ++ digest tx n)) =
    Some (OUser (le_enc 4 (crc_ieee (bytes_of ws))) true).
Proof.
  intros h tx n ws tx' m ws' Hn Hm W W' D.
  destruct (program_run tx n ws h Hn W) as (h1 & o1 & R1 & _ & _ & K1).
  destruct (program_run tx' m ws' h1 Hm W') as (h2 & o2 & R2 & _ & K2o & K2).
  destruct (digest_run tx n h2 Hn) as (h3 & o3 & R3 & _).
  rewrite hrun_app, R1. cbn [rbind fst snd]. rewrite hrun_app, R2. cbn [rbind fst snd]. rewrite R3.
  cbn [rbind fst snd]. unfold final. rewrite !rev_app_distr. cbn [rev app nth_error]. do 3 f_equal.
  assert (E : key_bytes (h_keys h2 tx) n = bytes_of ws).
  { rewrite <- (program_key n ws
      (fun j => if (n <=? j) && (j <? n + 8) then nth (N.to_nat (j - n)) ws 0 else 0)) by auto.
    apply key_bytes_ext. intros i I.
    replace ((n <=? n + N.of_nat i) && (n + N.of_nat i <? n + 8)) with true by lia.
    destruct (Bool.bool_dec tx tx') as [<-|Ne].
    - rewrite K2, K1. specialize (D eq_refl).
      replace ((m <=? n + N.of_nat i) && (n + N.of_nat i <? m + 8)) with false by lia.
      replace ((n <=? n + N.of_nat i) && (n + N.of_nat i <? n + 8)) with true by lia. reflexivity.
    - replace tx with (negb tx') by (destruct tx, tx'; (reflexivity || congruence)). rewrite K2o.
      replace (negb tx') with tx by (destruct tx, tx'; (reflexivity || congruence)). rewrite K1.
      replace ((n <=? n + N.of_nat i) && (n + N.of_nat i <? n + 8)) with true by lia. reflexivity. }
  rewrite E. unfold crc32, crc_ieee. rewrite N.lxor_0_l. f_equal. apply crc_bytes_bits.
  unfold bytes_of, bytes_ok. rewrite Forall_flat_map. apply Forall_forall. intros x _. apply le_enc_bytes.
Qed.
Definition w1 : list N := [1; 2; 3; 4; 5; 6; 7; 8].
Definition w2 : list N := [0xFFFFFFFF; 0; 0; 0; 0; 0; 0; 9].
Example C108_digest_case : words w1 /\ words w2 /\
  final (hrun h00 (program true 3 w1 ++ program true 11 w2 ++ digest true 3)) =
    Some (OUser (le_enc 4 (crc_ieee (bytes_of w1))) true) /\
  crc_ieee (bytes_of w1) <> crc_ieee (repeat 0 32).
Proof.
  assert (A : words w1) by (split; [reflexivity | repeat constructor]).
  assert (B : words w2) by (split; [reflexivity | repeat constructor]).
  split; [exact A|]. split; [exact B|]. split.
  - apply C108_digest_partial; auto; lia.
  - vm_compute. discriminate.
Qed.

(** C108: the keys of neighbouring SAs share their memory: after a key is stored for SA n and
    another for SA n + 1 the digest of SA n is not that of its key. *)
Theorem C108_key_overlap_refuted : forall n, n < 1023 ->
  final (hrun h00 (program true n w1 ++ program true (n + 1) w2 ++ digest true n)) =
    Some (OUser (le_enc 4 (crc_ieee (bytes_of [1; 0xFFFFFFFF; 0; 0; 0; 0; 0; 0]))) true) /\
  le_enc 4 (crc_ieee (bytes_of [1; 0xFFFFFFFF; 0; 0; 0; 0; 0; 0])) <> le_enc 4 (crc_ieee (bytes_of w1)).
Proof.
  intros n Hn. split; [|vm_compute; discriminate].
  assert (A : words w1) by (split; [reflexivity | repeat constructor]).
  assert (B : words w2) by (split; [reflexivity | repeat constructor]).
  destruct (program_run true n w1 h00 ltac:(lia) A) as (h1 & o1 & R1 & _ & _ & K1).
  destruct (program_run true (n + 1) w2 h1 ltac:(lia) B) as (h2 & o2 & R2 & _ & K2o & K2).
  destruct (digest_run true n h2 ltac:(lia)) as (h3 & o3 & R3 & _).
  rewrite hrun_app, R1. cbn [rbind fst snd]. rewrite hrun_app, R2. cbn [rbind fst snd]. rewrite R3.
  cbn [rbind fst snd]. unfold final. rewrite !rev_app_distr. cbn [rev app nth_error]. do 3 f_equal.
  set (ws := [1; 0xFFFFFFFF; 0; 0; 0; 0; 0; 0]).
  assert (W : words ws) by (split; [reflexivity | repeat constructor]).
  assert (E : key_bytes (h_keys h2 true) n = bytes_of ws).
  { rewrite <- (program_key n ws
      (fun j => if (n <=? j) && (j <? n + 8) then nth (N.to_nat (j - n)) ws 0 else 0)) by auto.
    apply key_bytes_ext. intros i I.
    replace ((n <=? n + N.of_nat i) && (n + N.of_nat i <? n + 8)) with true by lia.
    replace (N.to_nat (n + N.of_nat i - n)) with i by lia.
    rewrite K2, K1.
    do 8 (destruct i as [|i]; [
      match goal with |- context[if ?b then nth (N.to_nat ?x) w2 0 else _] =>
        first [replace b with false by lia; replace (N.to_nat (n + N.of_nat 0 - n)) with 0%nat by lia;
               replace ((n <=? n + N.of_nat 0) && (n + N.of_nat 0 <? n + 8)) with true by lia; reflexivity
              | replace b with true by lia;
                match goal with |- nth _ _ _ = nth ?j _ _ => replace (N.to_nat x) with (j - 1)%nat by lia end;
                reflexivity] end |]). lia. }
  rewrite E. reflexivity.
Qed.
Example C108_key_overlap_case :
  final (hrun h00 (program true 7 w1 ++ digest true 7)) = Some (OUser (le_enc 4 (crc_ieee (bytes_of w1))) true) /\
  final (hrun h00 (program true 7 w1 ++ program true 8 w2 ++ digest true 7)) <>
  final (hrun h00 (program true 7 w1 ++ digest true 7)).
Proof. vm_compute. split; [reflexivity | discriminate]. Qed.

(** C108: as long as no digest is asked for, the register interface answers the same
    whatever the keys are. *)
Theorem C108_keys_hidden_partial : forall h k es, Forall no_digest es ->
  answers (hrun (set_keys h k) es) = answers (hrun h es).
Proof. intros h k es F. apply run_same; [intros i; reflexivity | exact F]. Qed.
Example C108_keys_hidden_case :
  answers (hrun (set_keys h00 (fun _ j => j)) (program true 5 w1 ++ [User (read32 0x4C00)])) =
  answers (hrun h00 (program true 5 w1 ++ [User (read32 0x4C00)])) /\
  answers (hrun (set_keys h00 (fun _ j => j)) (digest true 5)) <> answers (hrun h00 (digest true 5)).
Proof. vm_compute. split; [reflexivity | discriminate]. Qed.

(** C108: after a reset every key of both directions is 32 zero bytes; the registers stay. *)
Theorem C108_reset : forall h tx n, n < 1024 ->
  final (hrun h (Rst :: digest tx n)) = Some (OUser (le_enc 4 (crc_ieee (repeat 0 32))) true) /\
  forall j d, j < 8000 -> shows h j d -> shows (reset h) j d.
Proof.
  intros h tx n Hn. split.
  - cbn [hrun hstep rbind fst snd]. destruct (digest_run tx n (reset h) Hn) as (h' & o & R & _).
    rewrite R. cbn [rbind fst snd]. unfold final. cbn [rev app nth_error]. do 3 f_equal.
  - intros j d J S. rewrite shows_iff in * by auto. exact S.
Qed.
Example C108_reset_case :
  final (hrun h00 (program false 2 w1 ++ Rst :: digest false 2)) = Some (OUser (le_enc 4 (crc_ieee (repeat 0 32))) true).
Proof. vm_compute. reflexivity. Qed.

(** C109: what the encoder sends for a frame of at least 14 bytes: the addresses, the SecTAG,
    the rest combined with the key from the confidentiality offset on, and room for the ICV
    that nobody writes. *)
Theorem C109_frame_partial : forall h port p g e,
  reachable h -> taken true h port p g -> pins_ok p -> (14 <= length (g_data g))%nat ->
  (p_byp p || p_auth p = false -> p_conf p = 30 -> (54 <= length (g_data g))%nat) ->
  exists h', stream true h port p g (Some e) = Ok (h', Sent (wire (selected h true p) p (g_data g) e) e).
Proof.
  intros h port p g e R T K L C. destruct (stream_taken true h port p g e R T) as (h1 & ->). cbv iota.
  set (n := if p_byp p || p_auth p then (length (g_data g) - 12)%nat else if p_conf p =? 30 then 42%nat else 0%nat).
  assert (N1 : (12 + n <= length (g_data g))%nat).
  { unfold n. destruct (p_byp p || p_auth p); [lia|]. destruct (p_conf p =? 30) eqn:E; [|lia].
    specialize (C eq_refl). lia. }
  destruct (split3 (g_data g) n N1) as (hd & cl & bd & D & H & Lc).
  assert (LL : length (g_data g) = (12 + length cl + length bd)%nat) by (rewrite D, !app_length; lia).
  rewrite D. rewrite encode_ok; auto; [| lia |].
  - cbn [rbind]. rewrite wire_is; [eauto | auto |].
    rewrite <- D. unfold first_secret. subst n. rewrite Lc.
    destruct (p_byp p || p_auth p); [lia|]. destruct (p_conf p =? 30); lia.
  - subst n. rewrite LL in Lc. destruct (p_byp p || p_auth p); [lia|]. exact Lc.
Qed.
Definition eth : list N := [1; 2; 3; 4; 5; 6; 7; 8; 9; 10; 11; 12; 0x08; 0x00; 0xD0; 0xD1; 0xD2].
Example C109_frame_case :
  match hrun h00 (program true 0 w1 ++ [Stream true 2 pin0 (put eth) (Some true)]) with
  | Ok (_, o) => nth_error o 9 = Some (OStream (Sent (map Some
      ([1; 2; 3; 4; 5; 6; 7; 8; 9; 10; 11; 12; 0x88; 0xE5; 45; 0; 4; 3; 2; 1;
        0x88; 0x77; 0x66; 0x55; 0x44; 0x33; 0x22; 0x11; 0x0C; 0x00; 0xD0; 0xD1; 0xD3]) ++ repeat None 16) true))
  | _ => False end.
Proof. vm_compute. reflexivity. Qed.

(** C109: round trip.  With GCM_AES_128 on both sides, the same key and confidentiality
    offset, what the decoder gives out for the frame of the encoder is the frame that went
    in, whatever the bytes of the ICV are. *)
Theorem C109_roundtrip_partial : forall hA hB portA portB pA pB data w gB dA,
  reachable hA -> reachable hB -> pins_ok pA -> pins_ok pB ->
  taken true hA portA pA (put data) -> taken false hB portB pB gB ->
  p_byp pA || p_auth pA = false -> p_byp pB || p_auth pB = false ->
  p_suite pA = 0 -> p_suite pB = 0 -> p_conf pA = p_conf pB ->
  selected hA true pA = selected hB false pB ->
  (14 <= length data)%nat -> (p_conf pA = 30 -> (54 <= length data)%nat) ->
  rmap snd (stream true hA portA pA (put data) (Some true)) = Ok (Sent dA true) ->
  carries dA w -> g_data gB = w ->
  exists h', stream false hB portB pB gB (Some true) = Ok (h', Sent (map Some data) true).
Proof.
  intros hA hB portA portB pA pB data w gB dA RA RB KA KB TA TB BA BB SA SB CC KK L L30 EA CW GW.
  destruct (C109_frame_partial hA portA pA (put data) true RA TA KA L) as (h1 & E1).
  { intros _. apply L30. }
  rewrite E1 in EA. cbn [rmap rbind snd] in EA. injection EA as <-. cbn [put g_data] in CW.
  set (n := if p_conf pA =? 30 then 42%nat else 0%nat).
  assert (N1 : (12 + n <= length data)%nat).
  { unfold n. destruct (p_conf pA =? 30) eqn:E; [|lia]. apply N.eqb_eq in E. specialize (L30 E). lia. }
  destruct (split3 data n N1) as (hd & cl & bd & D & H & Lc). subst data.
  rewrite wire_is in CW; [| auto |].
  2:{ unfold first_secret. rewrite BA, Lc. unfold n. destruct (p_conf pA =? 30); reflexivity. }
  destruct (carries_split _ _ _ CW) as (icv & EW & LI). rewrite EW in GW. rewrite <- !app_assoc in GW.
  destruct (stream_taken false hB portB pB gB true RB TB) as (h2 & E2). cbv iota in E2. rewrite E2, GW.
  rewrite decode_ok; auto.
  - cbn [rbind]. exists h2. unfold size_in_use. rewrite SA, SB, KK. cbn [N.eqb].
    rewrite xor_undo; [reflexivity | | lia].
    replace (28 + length cl)%nat with (12 + length cl + 1 * 16)%nat by lia.
    rewrite Nat.mod_add by lia. reflexivity.
  - rewrite Lc. unfold n. rewrite CC. reflexivity.
Qed.
(** the bytes a receiver might see: the unwritten ones as 0xEE *)
Definition seen (d : list (option N)) : list N := map (fun o => match o with Some x => x | None => 0xEE end) d.
Definition through (p q : pins) (data : list N) (eop : bool) : option (list (option N)) :=
  match hrun h00 (program true 0 w1 ++ program false 0 w1 ++ [Stream true 1 p (put data) (Some eop)]) with
  | Ok (h, o) =>
    match nth_error o 18 with
    | Some (OStream (Sent d e)) =>
      match hstep h (Stream false 1 q (put (seen d)) (Some e)) with
      | Ok (_, OStream (Sent r _)) => Some r
      | _ => None
      end
    | _ => None
    end
  | _ => None
  end.
Example C109_roundtrip_case : through pin0 pin0 eth true = Some (map Some eth) /\
  seen (map Some eth) = eth.
Proof. vm_compute. split; reflexivity. Qed.

(** C109: with a 256-bit suite the decoder uses the key 16 bytes further on than the encoder:
    each byte comes out combined with two bytes of the key. *)
Definition suite (n : N) : pins := mkPins false false n 0 0 0 (repeat 9 32) 0x01020304 1 0x1122334455667788 0 11.
Theorem C109_suite256_refuted : forall key bd i,
  xor_from key 32 (i + 16) (xor_from key 32 i bd) =
    map (fun t => N.lxor (snd t) (N.lxor (nth ((i + fst t) mod 32) key 0) (nth ((i + 16 + fst t) mod 32) key 0)))
      (combine (seq 0 (length bd)) bd) /\
  exists r, through (suite 1) (suite 1) eth true = Some r /\ r <> map Some eth.
Proof.
  intros key bd i. split; [apply xor_twice|]. eexists. split; [vm_compute; reflexivity | vm_compute; discriminate].
Qed.

(** C109: the suite pins are two bits read with a sign, so that GCM_AES_XPN_128 (2) arrives
    as -2 and is treated as a 256-bit suite: bytes 16 on of the key matter. *)
Theorem C109_suite_xpn128_refuted :
  c_suite (latch (suite 2)) = (-2)%Z /\ key_size (latch (suite 2)) = 32%nat /\
  exists r, through (suite 2) (suite 2) eth true = Some r /\ r <> map Some eth.
Proof.
  split; [reflexivity|]. split; [reflexivity|].
  eexists. split; [vm_compute; reflexivity | vm_compute; discriminate].
Qed.

(** C109: an association number of 2 or 3 is negative on its pins and sets all bits of the TCI. *)
Definition with_an (n tci : N) : pins := mkPins false false 0 0 0 0 (repeat 9 32) 1 n 2 0 tci.
Theorem C109_an_refuted : forall tci n, tci < 64 -> n = 2 \/ n = 3 ->
  nth 2 (sectag (latch (with_an n tci))) 0 = 252 + n.
Proof.
  intros tci n L C. apply N.eqb_eq.
  destruct C as [-> | ->].
  - apply (check_below (fun t => nth 2 (sectag (latch (with_an 2 t))) 0 =? 254) 64); [exact L | vm_compute; reflexivity].
  - apply (check_below (fun t => nth 2 (sectag (latch (with_an 3 t))) 0 =? 255) 64); [exact L | vm_compute; reflexivity].
Qed.
Example C109_an_case : nth 2 (sectag (latch (with_an 2 11))) 0 = 254 /\ 11 * 4 + 2 = 46.
Proof. split; reflexivity. Qed.

(** C109: the short length is reduced to 0 or 1. *)
Definition with_slen (n : N) : pins := mkPins false false 0 0 0 0 (repeat 9 32) 1 0 2 n 11.
Theorem C109_short_length_refuted : forall n, 0 < n < 256 ->
  nth 3 (sectag (latch (with_slen n))) 0 = 1.
Proof.
  intros n L. apply N.eqb_eq.
  assert (H : (nth 3 (sectag (latch (with_slen n))) 0 =? (if n =? 0 then 0 else 1)) = true).
  { apply (check_below (fun t => nth 3 (sectag (latch (with_slen t))) 0 =? (if t =? 0 then 0 else 1)) 256);
      [apply L | vm_compute; reflexivity]. }
  replace (n =? 0) with false in H by lia. exact H.
Qed.
Example C109_short_length_case : nth 3 (sectag (latch (with_slen 40))) 0 = 1.
Proof. reflexivity. Qed.

(** C109: the confidentiality offset 50 is negative on its six pins: everything behind the
    addresses is combined with the key, as with offset 0. *)
Definition conf (n : N) : pins := mkPins false false 0 n 0 0 (repeat 9 32) 1 1 2 0 11.
Theorem C109_offset50_refuted : forall keys data e, encode (latch (conf 50)) 0 keys data e = encode (latch (conf 0)) 0 keys data e.
Proof. intros keys data e. reflexivity. Qed.
Example C109_offset50_case :
  encode (latch (conf 50)) 0 (fun _ => 0xFFFFFFFF) (repeat 0 100) true <>
  encode (latch (conf 30)) 0 (fun _ => 0xFFFFFFFF) (repeat 0 100) true.
Proof. vm_compute. discriminate. Qed.

(** C109: with offset 30 a frame of less than 54 bytes is read beyond its end. *)
Theorem C109_offset30_short_refuted : forall keys data e, (14 <= length data < 54)%nat ->
  encode (latch (conf 30)) 0 keys data e = UB.
Proof.
  intros keys data e L. unfold encode. cbn [N.eqb andb]. replace (length data <? 14)%nat with false by lia.
  rewrite conf_is by (vm_compute; reflexivity). cbn [conf p_byp p_auth p_conf orb N.eqb Pos.eqb].
  replace (_ || _) with true by lia. reflexivity.
Qed.
Example C109_offset30_short_case :
  encode (latch (conf 30)) 0 (fun _ => 0) (repeat 0 53) true = UB /\
  encode (latch (conf 30)) 0 (fun _ => 0) (repeat 0 54) false = encode (latch (conf 30)) 0 (fun _ => 7) (repeat 0 54) false.
Proof. vm_compute. split; reflexivity. Qed.

(** C109: an SA index with its top bit set is negative and addresses memory before the keys. *)
Theorem C109_sa_refuted : forall p keys, 2 ^ 19 <= p_sa p < 2 ^ 20 -> pick_key (latch p) keys = UB.
Proof.
  intros p keys L. unfold pick_key. cbn [latch c_sa]. unfold sc_int. change (2 ^ 20) with 1048576 in *.
  rewrite N.mod_small by lia. change (2 ^ 19) with 524288 in L.
  replace (Z.of_N (p_sa p) <? 2 ^ (Z.of_N 20 - 1))%Z with false by (change (2 ^ (Z.of_N 20 - 1))%Z with 524288%Z; lia).
  change (2 ^ Z.of_N 20)%Z with 1048576%Z. unfold MAX_KEYS.
  replace (1024 <=? Z.of_N (p_sa p) - 1048576)%Z with false by lia.
  replace (Z.of_N (p_sa p) - 1048576 <? 0)%Z with true by lia. reflexivity.
Qed.
Example C109_sa_case : pick_key (latch (mkPins false false 0 0 0 524288 [] 1 1 2 0 11)) (fun _ => 0) = UB /\
  pick_key (latch (mkPins false false 0 0 0 524287 [5] 1 1 2 0 11)) (fun _ => 0) = Ok [5].
Proof. split; reflexivity. Qed.

(** C109: byte_count never leaves 0, so that each transaction counts as a packet of its own:
    what is sent for one does not depend on those before it, and the second half of a packet
    gets a second SecTAG. *)
Theorem C109_split_packet_refuted : forall h es h' o port p g e, reachable h -> hrun h es = Ok (h', o) ->
  taken true h port p g -> taken true h' port p g ->
  (forall d j, h_keys h' d j = h_keys h d j) ->
  rmap snd (stream true h' port p g (Some e)) = rmap snd (stream true h port p g (Some e)).
Proof.
  intros h es h' o port p g e R E T T' K.
  assert (R' : reachable h').
  { destruct R as (h0 & es0 & o0 & R0). exists h0, (es0 ++ es). eexists.
    rewrite hrun_app, R0. cbn [rbind fst snd]. rewrite E. reflexivity. }
  destruct (stream_taken true h port p g e R T) as (a & ->).
  destruct (stream_taken true h' port p g e R' T') as (b & ->). cbv iota.
  assert (Q : forall c d x, encode c 0 (h_keys h' true) d x = encode c 0 (h_keys h true) d x).
  { intros c d x. unfold encode, crypt, pick_key.
    rewrite (key_bytes_ext (h_keys h' true) (h_keys h true) (Z.to_N (c_sa c))) by (intros; apply K). reflexivity. }
  rewrite Q. destruct (encode _ _ _ _ _); reflexivity.
Qed.
Example C109_split_packet_case :
  match hrun h00 [Stream true 1 pin0 (put (firstn 15 eth)) (Some false); Stream true 1 pin0 (put (repeat 3 14)) (Some true)] with
  | Ok (_, [OStream (Sent a _); OStream (Sent b _)]) =>
    nth_error a 12 = Some (Some 0x88) /\ nth_error a 13 = Some (Some 0xE5) /\
    nth_error b 12 = Some (Some 0x88) /\ nth_error b 13 = Some (Some 0xE5)
  | _ => False end.
Proof. vm_compute. repeat split. Qed.

(** C109: a bypassed frame comes out of the decoder with the 16 unwritten bytes at its end,
    and a frame whose end is still to come loses its last 16 bytes. *)
Definition byp : pins := mkPins false true 0 0 0 0 (repeat 9 32) 0x01020304 1 0x1122334455667788 0 11.
Theorem C109_bypass_refuted :
  through byp byp eth true = Some (map Some (eth ++ repeat 0xEE 16)) /\
  through pin0 pin0 (eth ++ repeat 5 16) false = Some (map Some eth).
Proof. vm_compute. split; reflexivity. Qed.

(** C109: a bypassed frame of 15 to 27 bytes makes the decoder copy a negative number of bytes. *)
Theorem C109_decode_short_refuted : forall p keys data, p_byp p = true -> p_conf p < 64 -> (15 <= length data < 28)%nat ->
  decode (latch p) 0 keys data = UB.
Proof.
  intros p keys data B C L. unfold decode. cbn [N.eqb andb].
  replace (length data <? 14)%nat with false by lia. replace (length data <? 15)%nat with false by lia.
  rewrite tag16, conf_is, B by auto. cbn [orb].
  replace (_ || _) with true by lia. reflexivity.
Qed.
Example C109_decode_short_case : decode (latch byp) 0 (fun _ => 0) (repeat 1 27) = UB /\
  decode (latch byp) 0 (fun _ => 0) (repeat 1 28) = Ok (repeat 1 12) /\
  decode (latch pin0) 0 (fun _ => 0) (repeat 1 14) = UB.
Proof. vm_compute. repeat split. Qed.

Print Assumptions C108_write_partial.
Print Assumptions C108_refuses.
Print Assumptions C108_past_end_refuted.
Print Assumptions C108_narrow_write_refuted.
Print Assumptions C108_digest_partial.
Print Assumptions C108_key_overlap_refuted.
Print Assumptions C108_keys_hidden_partial.
Print Assumptions C108_reset.
Print Assumptions C109_frame_partial.
Print Assumptions C109_roundtrip_partial.
Print Assumptions C109_suite256_refuted.
Print Assumptions C109_suite_xpn128_refuted.
Print Assumptions C109_an_refuted.
Print Assumptions C109_short_length_refuted.
Print Assumptions C109_offset50_refuted.
Print Assumptions C109_offset30_short_refuted.
Print Assumptions C109_sa_refuted.
Print Assumptions C109_split_packet_refuted.
Print Assumptions C109_bypass_refuted.
Print Assumptions C109_decode_short_refuted.
