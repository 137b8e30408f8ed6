(** Properties C17, C18, C19, C44, C45: bit helpers and the register API. *)
From Verif Require Import Base BaseFacts TlmModel TlmSpec.
From Verif Require Import RegapiModel RegapiSpec RegapiProofs.
Open Scope N_scope.

(** C17: after any history of bus reads and writes, a read-only bit has its
    initial value and a plain bit the last value written to its register; no
    transaction goes wrong.  (Bits marked w1c or cor are C18's.) *)
Theorem C17_bits_after_history sz info regs ops i k :
  described sz (length regs) info -> In i info -> only_reads_and_writes ops ->
  N.testbit (ri_cor i) k = false -> N.testbit (ri_w1c i) k = false ->
  exists regs' answers, reg_run sz info regs ops = Ok (regs', answers) /\
    (N.testbit (ri_ro i) k = true ->
       bit_of sz regs' (ri_addr i) k = bit_of sz regs (ri_addr i) k) /\
    (N.testbit (ri_ro i) k = false ->
       bit_of sz regs' (ri_addr i) k =
       last_written sz (ri_addr i) k (bit_of sz regs (ri_addr i) k) ops).
Proof.
  intros Hd Hi Ho Hc Hw.
  destruct (run_bits sz info i k ops regs Hd Hi Ho Hc Hw) as [r [a [E [_ B]]]].
  exists r, a. split; [exact E|]. rewrite B.
  split; intros ->; reflexivity.
Qed.

(** C17: accesses that are not register sized, or hit no register, are answered
    with an error and change nothing. *)
Theorem C17_bad_accesses sz info regs g :
  described sz (length regs) info ->
  g_len g <> sz \/ ~ In (g_addr g) (map ri_addr info) ->
  exists d st, reg_transport sz info regs g = Ok (regs, (d, st)) /\ st <> St_OK /\
    (g_len g <> sz -> st = St_GENERIC) /\ (g_len g = sz -> st = St_ADDRESS).
Proof.
  intros Hd H. unfold reg_transport. rewrite (N.eqb_sym sz).
  destruct (N.eqb_spec (g_len g) sz) as [Hz|Hz]; cbn [negb].
  2:{ eexists _, _. split; [reflexivity|]. split; [discriminate|]. split; [reflexivity|congruence]. }
  destruct H as [H|H]; [congruence|].
  rewrite reg_access_spec by exact Hd.
  destruct (find_info info (g_addr g)) as [i|] eqn:E.
  - apply find_info_Some in E. destruct E as [E1 E2]. exfalso. apply H. rewrite <- E2. apply in_map, E1.
  - cbn [rbind]. eexists _, _. split; [reflexivity|]. split; [discriminate|]. split; [congruence|reflexivity].
Qed.

(** A block like the test devices': control (bits 7..4 read only), status
    (bits 3..0 w1c), counter (clear on read). *)
Definition ex_info :=
  [mkRinfo 0 240 0 165 0; mkRinfo 4 0 15 0 0; mkRinfo 8 0 0 7 255].
Definition ex_wr a v := mkGp C_WRITE a (le_enc 4 v) None 4 St_INCOMPLETE.
Definition ex_rd a := mkGp C_READ a [0;0;0;0] None 4 St_INCOMPLETE.

Example C17_case :
  reg_run 4 ex_info [165; 0; 7] [ex_wr 0 90; ex_rd 0] =
  Ok ([170; 0; 7], [([90;0;0;0], St_OK); ([170;0;0;0], St_OK)]).
Proof. reflexivity. Qed.

(** C18: a read clears exactly the clear-on-read bits and a write clears all
    w1c bits; nothing else is affected. *)
Theorem C18_clearing_partial sz info regs g i :
  described sz (length regs) info -> In i info -> g_addr g = ri_addr i -> g_len g = sz ->
  exists regs' d, reg_transport sz info regs g = Ok (regs', (d, St_OK)) /\
    forall k,
    (g_cmd g = C_READ ->
       bit_of sz regs' (ri_addr i) k = bit_of sz regs (ri_addr i) k && negb (N.testbit (ri_cor i) k)) /\
    (g_cmd g = C_WRITE -> N.testbit (ri_w1c i) k = true -> bit_of sz regs' (ri_addr i) k = false).
Proof.
  intros Hd Hi Ha Hz. unfold reg_transport. rewrite Hz, N.eqb_refl, Ha. cbn [negb].
  rewrite reg_access_spec by exact Hd.
  pose proof Hd as [Hs [Hl [Hn Hf]]]. rewrite find_info_In by assumption. cbn [rbind].
  eexists _, _. split; [reflexivity|]. intros k. unfold bit_of.
  rewrite Forall_forall in Hf. destruct (Hf _ Hi) as [_ Hx].
  split; intros Hc; rewrite Hc.
  - rewrite set_reg_nth, Nat.eqb_refl by lia. apply reg_new_read.
  - intros Hw. rewrite set_reg_nth, Nat.eqb_refl by lia. rewrite reg_new_write, Hw. apply andb_false_r.
Qed.

(** C18: the read that clears a bit does not return it. *)
Theorem C18_cor_returned_refuted :
  reg_transport 4 ex_info [165; 0; 7] (ex_rd 8) = Ok ([165; 0; 0], ([0;0;0;0], St_OK)).
Proof. reflexivity. Qed.

(** C18: writing zero to a w1c bit clears it as well. *)
Theorem C18_w1c_zero_refuted :
  bit_of 4 [165; 3; 7] 4 1 = true /\
  exists regs', reg_transport 4 ex_info [165; 3; 7] (ex_wr 4 0) = Ok (regs', ([0;0;0;0], St_OK)) /\
    bit_of 4 regs' 4 1 = false.
Proof. split; [reflexivity|]. eexists. split; reflexivity. Qed.

Example C18_case :
  reg_run 4 ex_info [165; 3; 7] [ex_wr 4 3; ex_rd 8] =
  Ok ([165; 0; 0], [([3;0;0;0], St_OK); ([0;0;0;0], St_OK)]).
Proof. reflexivity. Qed.

(** C19: the masks. *)
Theorem C19_mask32 n : n <= 32 ->
  exists m, mask32 n = Ok m /\ forall k, N.testbit m k = in_range 0 n k.
Proof.
  intros H. rewrite mask32_spec by exact H. eexists. split; [reflexivity|].
  intros k. rewrite ones_bit. unfold in_range. lia.
Qed.
Theorem C19_mask64 start len k :
  N.testbit (mask64 start len) k = in_range start len k && (k <? 64).
Proof. apply mask64_bit. Qed.

(** C19: extraction. *)
Theorem C19_field32 val bit len : bit < 32 -> len <= 32 ->
  exists r, field32 val bit len = Ok r /\
    forall k, N.testbit r k = (k <? len) && N.testbit val (bit + k).
Proof.
  intros Hb Hl. unfold field32. destruct (N.leb_spec 32 bit); [lia|].
  destruct (N.ltb_spec 32 len); [lia|]. cbn [orb]. rewrite mask32_spec by exact Hl. cbn [rbind].
  eexists. split; [reflexivity|]. intros k.
  rewrite N.land_spec, N.shiftr_spec', ones_bit, andb_comm. f_equal. f_equal. lia.
Qed.

(** C19: depositing a value that fits sets exactly the field. *)
Theorem C19_deposit_partial w dst s l v : w <= 64 -> dst < 2 ^ w -> s < w -> s + l <= w -> v < 2 ^ l ->
  exists r, reg_deposit w dst s l v = Ok r /\
    forall k, N.testbit r k = if in_range s l k then N.testbit v (k - s) else N.testbit dst k.
Proof.
  intros H1 H2 Hs H3 H4. unfold reg_deposit. destruct (N.leb_spec w s) as [?|_]; [lia|].
  eexists. split; [reflexivity|]. apply (deposit_bits w dst s l v); try assumption.
  unfold reg_deposit. destruct (N.leb_spec w s) as [?|_]; [lia|]. reflexivity.
Qed.

(** C19: extract after deposit, deposit after extract, and other fields. *)
Theorem C19_extract_deposit_partial w dst s l v r : w <= 64 -> dst < 2 ^ w -> s + l <= w -> l < 64 -> v < 2 ^ l ->
  reg_deposit w dst s l v = Ok r -> s < w ->
  field_ex r s l = Ok v /\
  (forall s' l', s' + l' <= s \/ s + l <= s' -> field_ex r s' l' = field_ex dst s' l').
Proof.
  intros H1 H2 H3 Hl H4 E Hs. pose proof (deposit_bits w dst s l v r H1 H2 H3 H4 E) as B. split.
  - destruct (field_ex r s l) as [x| | |] eqn:Ex;
      try (unfold field_ex in Ex; destruct (N.leb_spec 64 s), (N.leb_spec 64 l); cbn in Ex; lia || discriminate).
    f_equal. apply N.bits_inj. intros k. rewrite (field_ex_bits _ _ _ _ Ex), B. unfold in_range.
    destruct (N.ltb_spec k l).
    + rewrite andb_true_r. destruct (N.leb_spec s (k + s)); [|lia].
      destruct (N.ltb_spec (k + s) (s + l)); [|lia]. cbn [andb]. f_equal. lia.
    + rewrite andb_false_r. symmetry. apply (small_bits v l); assumption.
  - intros s' l' Ho. unfold field_ex. destruct ((64 <=? s') || (64 <=? l')); [reflexivity|].
    f_equal. apply N.bits_inj. intros k.
    rewrite ones_shift, !N.land_spec, !N.shiftr_spec', ones_bit, B. unfold in_range.
    destruct (N.ltb_spec k l'); [|rewrite !andb_false_r; reflexivity]. rewrite !andb_true_r.
    destruct (N.leb_spec s (k + s')); cbn [andb]; [|reflexivity].
    destruct (N.ltb_spec (k + s') (s + l)); [lia|reflexivity].
Qed.

Theorem C19_deposit_extract w dst s l v r : w <= 64 -> dst < 2 ^ w -> s + l <= w -> l < 64 ->
  field_ex dst s l = Ok v -> s < w -> reg_deposit w dst s l v = Ok r -> r = dst.
Proof.
  intros H1 H2 H3 Hl Ex Hs E.
  assert (Hv : v < 2 ^ l).
  { unfold field_ex in Ex. destruct ((64 <=? s) || (64 <=? l)); [discriminate|].
    apply Ok_inj in Ex. rewrite <- Ex, ones_shift, N.land_ones. apply N.mod_lt, N.pow_nonzero. lia. }
  apply N.bits_inj. intros k. rewrite (deposit_bits w dst s l v r H1 H2 H3 Hv E k).
  destruct (in_range s l k) eqn:R; [|reflexivity]. unfold in_range in R.
  rewrite (field_ex_bits _ _ _ _ Ex). destruct (N.ltb_spec (k - s) l); [|lia].
  rewrite andb_true_r. f_equal. lia.
Qed.

(** C19: a value wider than the field spills into its neighbours. *)
Theorem C19_deposit_spills_refuted :
  exists r, reg_deposit 32 0 4 4 31 = Ok r /\ field_ex 0 8 4 = Ok 0 /\ field_ex r 8 4 = Ok 1.
Proof. eexists. repeat split. Qed.

(** C19: bit vectors and byte buffers. *)
Theorem C19_buf_bv_roundtrip v v0 width buf :
  (width mod 8 = 0)%nat -> v < 2 ^ N.of_nat width -> v0 < 2 ^ N.of_nat width ->
  (width / 8 <= length buf)%nat ->
  exists buf', bv2buf v width width buf = Ok buf' /\ length buf' = length buf /\
    skipn (width / 8) buf' = skipn (width / 8) buf /\
    buf2bv buf' v0 width width = Ok v.
Proof.
  intros Hm Hv Hv0 Hb.
  assert (Hn : bv_bytes width width = (width / 8)%nat).
  { unfold bv_bytes. rewrite Nat.min_id.
    pose proof (Nat.div_mod width 8). pose proof (Nat.div_mod (width + 7) 8).
    pose proof (Nat.mod_upper_bound (width + 7) 8). lia. }
  unfold bv2buf, buf2bv. rewrite Hm, Hn. cbn [Nat.eqb negb].
  destruct (Nat.ltb_spec (length buf) (width / 8)); [lia|].
  eexists. split; [reflexivity|].
  set (bs := map _ _).
  assert (Lb : length bs = (width / 8)%nat) by (unfold bs; rewrite map_length, seq_length; reflexivity).
  split; [rewrite app_length, skipn_length, Lb; lia|].
  split; [rewrite skipn_app_len by exact Lb; reflexivity|].
  destruct (Nat.ltb_spec (length (bs ++ skipn (width / 8) buf)) (width / 8)) as [Hx|_];
    [rewrite app_length in Hx; lia|].
  f_equal.
  assert (Hf : forall x, fold_left (fun v i => set_byte v i (nth i (bs ++ skipn (width / 8) buf) 0)) (seq 0 (width / 8)) x
             = fold_left (fun v i => set_byte v i (nth i bs 0)) (seq 0 (width / 8)) x).
  { assert (G : forall l, (forall i, In i l -> (i < width / 8)%nat) -> forall x,
       fold_left (fun v i => set_byte v i (nth i (bs ++ skipn (width / 8) buf) 0)) l x
       = fold_left (fun v i => set_byte v i (nth i bs 0)) l x).
    { induction l as [|i l IH]; intros Hl x; [reflexivity|]. cbn [fold_left].
      rewrite app_nth1 by (rewrite Lb; apply Hl; left; reflexivity).
      apply IH. intros j Hj. apply Hl. right. exact Hj. }
    apply G. intros i Hi. apply in_seq in Hi. lia. }
  rewrite Hf. apply N.bits_inj. intros k.
  assert (Hbs : bytes_ok bs).
  { unfold bs. apply Forall_forall. intros b Hx. apply in_map_iff in Hx. destruct Hx as [i [<- _]].
    change 255 with (N.ones 8). rewrite N.land_ones. apply N.mod_lt. discriminate. }
  rewrite set_bytes_bit by (assumption || lia).
  pose proof (N.div_mod k 8) as Dk. pose proof (Nat.div_mod width 8) as Dw.
  destruct (Nat.ltb_spec (N.to_nat (k / 8)) (width / 8)).
  - unfold bs. rewrite (nth_indep _ 0 ((fun i => N.land (N.shiftr v (8 * N.of_nat i)) 255) 0%nat))
      by (rewrite map_length, seq_length; assumption).
    rewrite (map_nth (fun i => N.land (N.shiftr v (8 * N.of_nat i)) 255)), seq_nth by assumption.
    cbn [Nat.add].
    change 255 with (N.ones 8). rewrite N.land_spec, N.shiftr_spec', ones_bit, N2Nat.id.
    pose proof (N.mod_lt k 8). destruct (N.ltb_spec (k mod 8) 8); [|lia]. rewrite andb_true_r.
    f_equal. lia.
  - rewrite !(fun x Hx => small_bits x (N.of_nat width) k Hx) by (assumption || lia). reflexivity.
Qed.

Example C19_case :
  reg_deposit 32 4294967295 8 4 5 = Ok 4294964735 /\ field_ex 4294964735 8 4 = Ok 5 /\
  mask64 60 8 = 17293822569102704640 /\ field32 3735928559 16 16 = Ok 57005 /\
  bv2buf 3735928559 32 32 [0;0;0;0;7] = Ok [239;190;173;222;7].
Proof. repeat split. Qed.

(** C44: reset gives every described register its reset value and leaves the
    others alone. *)
Theorem C44_reset sz info regs : described sz (length regs) info ->
  exists regs', reg_reset_all sz info regs = Ok regs' /\ length regs' = length regs /\
    (forall i, In i info -> nth (N.to_nat (ri_addr i / sz)) regs' 0 = ri_reset i) /\
    (forall a, ~ (exists i, In i info /\ N.to_nat (ri_addr i / sz) = a) -> nth a regs' 0 = nth a regs 0).
Proof.
  intros Hd. unfold reg_reset_all. rewrite firstn_all2 by apply Hd.
  apply (reset_list_spec sz info info []); [exact Hd|reflexivity].
Qed.
Example C44_case : reg_reset_all 4 ex_info [1;2;3;4] = Ok [165;0;7;4].
Proof. reflexivity. Qed.

(** C45: byte enables are ignored, and a command that is neither read nor write
    writes the register. *)
Theorem C45_byte_enables_refuted :
  let g := mkGp C_WRITE 0 [255;255;255;255] (Some [255;0;0;0]) 4 St_INCOMPLETE in
  exists d, reg_transport 4 [mkRinfo 0 0 0 0 0] [0] g = Ok ([4294967295], (d, St_OK)).
Proof. eexists. reflexivity. Qed.
Theorem C45_ignore_command_refuted :
  let g := mkGp C_IGNORE 0 [255;255;255;255] None 4 St_INCOMPLETE in
  exists d, reg_transport 4 [mkRinfo 0 0 0 0 0] [0] g = Ok ([4294967295], (d, St_OK)).
Proof. eexists. reflexivity. Qed.

Print Assumptions C17_bits_after_history.
Print Assumptions C17_bad_accesses.
Print Assumptions C18_clearing_partial.
Print Assumptions C18_cor_returned_refuted.
Print Assumptions C18_w1c_zero_refuted.
Print Assumptions C19_mask32.
Print Assumptions C19_mask64.
Print Assumptions C19_field32.
Print Assumptions C19_deposit_partial.
Print Assumptions C19_extract_deposit_partial.
Print Assumptions C19_deposit_extract.
Print Assumptions C19_deposit_spills_refuted.
Print Assumptions C19_buf_bv_roundtrip.
Print Assumptions C44_reset.
Print Assumptions C45_byte_enables_refuted.
Print Assumptions C45_ignore_command_refuted.
