(** From tlm2axi bursts to axi2tlm bursts. *)
From Verif Require Import Base BaseFacts TlmModel TlmSpec WrapSpec AxiSpec Tlm2AxiSpec Tlm2AxiModel Tlm2AxiProofs Tlm2AxiReads.
From Verif Require Import Axi2TlmSpec Axi2TlmModel Axi2TlmProofs Axi2TlmReads.
Open Scope N_scope.

Lemma bus_u64 B : bus_width B -> (B | u64).
Proof. intros [k [-> Hk]]. exists (2 ^ (64 - k)). rewrite <- N.pow_add_r. replace (64 - k + k) with 64 by lia. reflexivity. Qed.

Lemma below_top x B : 0 < B -> (B | u64) -> x < u64 -> x / B * B + B <= u64.
Proof.
  intros Bp [q E] H. rewrite E in *. clear E.
  assert (x / B < q) by (apply N.div_lt_upper_bound; lia).
  replace (x / B * B + B) with ((x / B + 1) * B) by lia. apply N.mul_le_mono_r. lia.
Qed.

Lemma incr_to_burst B g bw wrap b : incr_case B g bw wrap ->
  b_kind b = B_INCR -> b_addr b = g_addr g -> b_bytes b = beat_width B bw ->
  b_beats b = linear_beats g (beat_width B bw) -> incr_burst B b.
Proof.
  intros [HB [W [Hw [Hl [_ [_ [Hu _]]]]]]] Ek Ea Eb En. unfold incr_burst. rewrite Ek, Ea, Eb.
  split; [exact HB|]. split; [exact W|]. split; [exact Hw|]. split; [reflexivity|].
  unfold span. rewrite Eb, En. remember (beat_width B bw) as w. pose proof (bus_pos _ W) as Wp.
  pose proof (N.div_mod (g_addr g) w ltac:(lia)) as D1. pose proof (N.mod_lt (g_addr g) w ltac:(lia)) as M1.
  unfold linear_beats. set (x := g_len g + g_addr g mod w + w - 1).
  pose proof (N.mul_div_le x w ltac:(lia)) as D2.
  replace (g_addr g / w * w + w * (x / w)) with ((g_addr g + g_len g - 1) / w * w + w).
  - apply below_top; [exact Wp|apply bus_u64, W|lia].
  - assert (E : x / w = (g_len g + g_addr g mod w - 1) / w + 1).
    { unfold x. replace (g_len g + g_addr g mod w + w - 1) with (g_len g + g_addr g mod w - 1 + 1 * w) by lia.
      rewrite N.div_add by lia. reflexivity. }
    rewrite E.
    replace (g_addr g + g_len g - 1) with (g_len g + g_addr g mod w - 1 + g_addr g / w * w) by lia.
    rewrite N.div_add by lia. lia.
Qed.

Lemma fixed_to_burst B g bw b : fixed_case B g bw ->
  b_kind b = B_FIXED -> b_addr b = g_addr g -> b_bytes b = fixed_width g bw -> fixed_burst B b.
Proof.
  intros [HB [W [Hw [Hl [Es [Hu _]]]]]] Ek Ea Eb. unfold fixed_burst. rewrite Ek, Ea, Eb.
  split; [exact HB|]. split; [exact W|]. split; [exact Hw|]. split; [reflexivity|].
  pose proof (bus_pos _ W) as Wp. pose proof (N.mod_lt (g_addr g) (fixed_width g bw) ltac:(lia)).
  apply below_top; [exact (bus_pos _ HB)|apply bus_u64, HB|]. lia.
Qed.

Lemma wrap_to_burst B g bw wrap b : wrap_case B g bw wrap ->
  b_kind b = B_WRAP -> b_addr b = g_addr g -> b_bytes b = beat_width B bw ->
  b_beats b = linear_beats g (beat_width B bw) -> wrap_burst B b /\ wrap_lanes B b /\ span b = g_len g.
Proof.
  intros [HB [W [Hw [_ [Hl [Es [Dv [Hal [Hb [Hu _]]]]]]]]]] Ek Ea Eb En.
  remember (beat_width B bw) as w. pose proof (bus_pos _ W) as Wp.
  assert (S : span b = g_len g).
  { unfold span. rewrite Eb, En. unfold linear_beats. rewrite Hal, N.add_0_r. destruct Dv as [q E]. rewrite E.
    replace (q * w + w - 1) with (w - 1 + q * w) by lia. rewrite N.div_add by lia.
    rewrite (N.div_small (w - 1)) by lia. lia. }
  unfold wrap_burst, wrap_lanes. rewrite S, Ek, Ea, Eb. split; [|split; [exact Hb|reflexivity]].
  repeat (split; [assumption || reflexivity|]). assumption.
Qed.

(** ** Writes *)
Lemma last_of_legal b ws d : last_legal b ws -> w_last (last ws d) = true.
Proof.
  intros [H1 H2]. destruct (exists_last (l := ws)) as [l [x E]].
  { intros ->. unfold b_beats in H1. cbn in H1. lia. }
  subst ws. rewrite map_app in H2. cbn [map] in H2.
  apply app_inj_tail in H2. destruct H2 as [_ H2]. rewrite last_last. exact H2.
Qed.

Lemma write_taken B aw ar junk ws :
  let b := s_burst aw in
  let f := fill_beats B (data_len B b) (tr_addr B b) true junk [] ws in
  last_legal b ws -> N.of_nat (length f) = data_len B b ->
  a2t_write B aw ar junk ws =
  Ok (mkGp C_WRITE (tr_addr B b) (map snd f) (entries_be f) (tr_sw B b) St_INCOMPLETE, tr_attr aw (s_prot ar)).
Proof.
  intros b f L F. unfold a2t_write. fold b. fold f. rewrite (last_of_legal b ws _ L). destruct L as [L _].
  rewrite L, N.eqb_refl, F, N.ltb_irrefl. reflexivity.
Qed.

Lemma incr_taken B aw ar junk ws : let b := s_burst aw in
  incr_burst B b -> b_bytes b = B -> last_legal b ws ->
  exists g, a2t_write B aw ar junk ws = Ok (g, tr_attr aw (s_prot ar)) /\ g_cmd g = C_WRITE /\
    enabled (accesses g) = burst_writes B b ws /\ g_sw g = g_len g.
Proof.
  intros b Hb Hf L. pose proof (incr_fill B b junk ws Hb Hf (proj1 L)) as [F1 F2].
  eexists. split; [apply write_taken; [exact L|exact F1]|]. fold b. split; [reflexivity|]. split; [exact F2|].
  unfold g_len. cbn [g_sw g_data]. rewrite map_length, F1. unfold tr_sw. destruct Hb as [_ [_ [_ [-> _]]]]. reflexivity.
Qed.
Lemma fixed_taken B aw ar junk ws : let b := s_burst aw in
  fixed_burst B b -> beats_legal B b ws -> last_legal b ws ->
  exists g, a2t_write B aw ar junk ws = Ok (g, tr_attr aw (s_prot ar)) /\ g_cmd g = C_WRITE /\
    enabled (accesses g) = burst_writes B b ws /\ g_sw g = B.
Proof.
  intros b Hb Hf L. pose proof (fixed_fill B b junk ws Hb (proj1 L) Hf) as [F1 F2].
  eexists. split; [apply write_taken; [exact L|exact F1]|]. fold b. split; [reflexivity|]. split; [exact F2|].
  cbn [g_sw]. unfold tr_sw. destruct Hb as [_ [_ [_ [-> _]]]]. reflexivity.
Qed.
Lemma wrap_taken B aw ar junk ws : let b := s_burst aw in
  wrap_burst B b -> b_bytes b = B -> last_legal b ws ->
  exists g, a2t_write B aw ar junk ws = Ok (g, tr_attr aw (s_prot ar)) /\ g_cmd g = C_WRITE /\
    enabled (wrap_accesses g) = burst_writes B b ws /\ g_sw g = g_len g.
Proof.
  intros b Hb Hf L. pose proof (wrap_fill B b junk ws Hb Hf (proj1 L)) as [F1 [F2 F3]].
  eexists. split; [apply write_taken; [exact L|exact F1]|]. fold b. split; [reflexivity|]. split; [exact F2|].
  unfold g_len. cbn [g_sw g_data]. rewrite map_length, F1. exact F3.
Qed.

(** ** Reads *)
Lemma read_taken B ar junk : let b := s_burst ar in let g := fst (a2t_read B ar junk) in
  g_cmd g = C_READ /\ g_addr g = tr_addr B b /\ g_sw g = tr_sw B b /\ g_be g = None /\
  N.of_nat (length (g_data g)) = data_len B b.
Proof. cbn. rewrite map_length, seq_length. repeat split. apply N2Nat.id. Qed.

(** The beats as the master samples them. *)
Definition master_beats (id resp : N) (rs : list (list N * bool)) : list rbeat :=
  map (fun r => mkR id (fst r) resp (snd r)) rs.

Lemma read_through B mx k g w beats want b t m rs :
  read_good B mx k g w beats want (Some (b, t)) ->
  serves B b m (map fst rs) -> rlast_legal b (map snd rs) ->
  read_beats B (mkRp [t] None []) (master_beats (tt_id t) 0 rs) =
  Ok (mkRp [] None [(t, (map (get m) want, St_OK))]).
Proof.
  intros [_ [_ [_ [_ [_ [_ H]]]]]] S R.
  assert (E1 : map r_lanes (master_beats (tt_id t) 0 rs) = map fst rs) by (unfold master_beats; rewrite map_map; reflexivity).
  assert (E2 : map r_last (master_beats (tt_id t) 0 rs) = map snd rs) by (unfold master_beats; rewrite map_map; reflexivity).
  set (r0 := mkR (tt_id t) [] 0 false).
  assert (L : lookup_id [t] (r_id (hd r0 (master_beats (tt_id t) 0 rs))) = Some (t, [])).
  { destruct rs; cbn; rewrite N.eqb_refl; reflexivity. }
  assert (RR : r_resp (last (master_beats (tt_id t) 0 rs) r0) = 0).
  { clear. induction rs as [|x rs IH]; [reflexivity|]. destruct rs as [|y rs]; [reflexivity|]. exact IH. }
  destruct (H (master_beats (tt_id t) 0 rs) [t] [] [] r0 L ltac:(rewrite E2; exact R)) as [H1 H2].
  rewrite H1, RR. cbn [app set_axi_resp fst N.land N.eqb].
  rewrite (read_result_memory m want (reads_from B b 0 (map r_lanes (master_beats (tt_id t) 0 rs)))); [reflexivity| |exact H2].
  apply reads_memory. rewrite E1. intros n r x Hn Hx. exact (S n r x Hn Hx).
Qed.
