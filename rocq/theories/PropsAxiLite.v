(** C61, C62: the AXI-Lite bridges. *)
From Verif Require Import Base BaseFacts TlmModel TlmSpec TlmFacts AlignerModel AlignerSpec AxiLiteModel AxiLiteProofs.
Open Scope N_scope.

(** A legal bus: a power of two of bytes, not wider than the address space. *)
Definition bus_ok (c : lcfg) : Prop :=
  exists k, lc_bw c = 2 ^ k /\ k <= lc_aw c /\ lc_aw c <= 64.

(** The transaction stays inside one bus word, does not stream and fits the
    address lines. *)
Definition in_one_word (c : lcfg) (g : gp) : Prop :=
  0 < g_len g /\ g_addr g mod lc_bw c + g_len g <= lc_bw c /\ g_len g <= g_sw g /\
  g_addr g + g_len g <= 2 ^ lc_aw c.

(** ** C61: transfers inside a word, and anything through the aligner *)
(** A memory that refuses whole words answers and changes as if accessed directly;
    the data of a refused read is not determined. *)
Theorem C61_lite_single c junk bad (m : mem) g :
  bus_ok c -> in_one_word c g -> g_cmd g <> C_IGNORE ->
  (N.to_nat (lc_bw c) <= length junk)%nat ->
  (forall x, bad x = bad (x / lc_bw c * lc_bw c)) ->
  exists d, lite_transport c junk (atomic_memory bad) m g =
    Ok (L_Done (fst (atomic_memory bad m g)) d (snd (snd (atomic_memory bad m g)))) /\
  length d = length (g_data g) /\
  (g_cmd g = C_WRITE \/ snd (snd (atomic_memory bad m g)) = St_OK ->
     d = fst (snd (atomic_memory bad m g))).
Proof. intros (k & B & K & A) F C J Hb. exact (lite_memory c k B K A junk bad m g F Hb J C). Qed.

(** Any target: one call, for the enabled bytes of the transaction and no
    others, and its OK, address error and generic error come back. *)
Theorem C61_lite_write {S} c junk (t : target S) s g :
  bus_ok c -> in_one_word c g -> g_cmd g = C_WRITE ->
  exists p st', g_cmd p = C_WRITE /\ g_len p = lc_bw c /\ g_addr p mod lc_bw c = 0 /\
    filter a_en (accesses p) = filter a_en (accesses g) /\
    lite_transport c junk t s g = Ok (L_Done (fst (t s p)) (g_data g) st') /\
    (forall st, st = St_OK \/ st = St_ADDRESS \/ st = St_GENERIC -> snd (snd (t s p)) = st -> st' = st).
Proof.
  intros (k & B & K & A) F C.
  exists (write_payload c junk (g_addr g) (w_data c g) (w_strb c g)),
         (tlm_of_resp (resp_of_tlm (snd (snd (t s (write_payload c junk (g_addr g) (w_data c g) (w_strb c g))))))).
  assert (Z : lc_bw c <> 0) by (rewrite B; apply N.pow_nonzero; discriminate).
  split; [reflexivity|]. split.
  { unfold g_len, write_payload. cbn [g_data]. rewrite map_length, seq_length. lia. }
  split; [cbn [write_payload g_addr]; unfold lite_addr; apply N.mod_mul; exact Z|].
  split; [apply (write_payload_same c k B K A); exact F|].
  split.
  - rewrite (lite_write c k B K A junk t s g F C). destruct (t s _) as [s' [d st]]. reflexivity.
  - intros st [-> | [-> | ->]] ->; reflexivity.
Qed.
Theorem C61_lite_read {S} c junk (t : target S) s g :
  bus_ok c -> in_one_word c g -> g_cmd g = C_READ ->
  (N.to_nat (lc_bw c) <= length junk)%nat ->
  exists p d st', g_cmd p = C_READ /\ g_be p = None /\ g_sw p = lc_bw c /\ g_len p = lc_bw c /\
    g_addr p + g_addr g mod lc_bw c = g_addr g /\
    lite_transport c junk t s g = Ok (L_Done (fst (t s p)) d st') /\
    length d = length (g_data g) /\
    (forall i, (i < length (g_data g))%nat ->
       nth i d 0 = if be_at (g_be g) (N.of_nat i)
                   then nth (N.to_nat (g_addr g mod lc_bw c) + i) (fst (snd (t s p))) 0
                   else nth i (g_data g) 0) /\
    (forall st, st = St_OK \/ st = St_ADDRESS \/ st = St_GENERIC -> snd (snd (t s p)) = st -> st' = st).
Proof.
  intros (k & B & K & A) F C J.
  exists (read_payload c junk (g_addr g)), (r_copy c g (fst (snd (t s (read_payload c junk (g_addr g)))))),
         (tlm_of_resp (resp_of_tlm (snd (snd (t s (read_payload c junk (g_addr g))))))).
  split; [reflexivity|]. split; [reflexivity|]. split; [reflexivity|].
  split; [unfold g_len; cbn [read_payload g_data]; rewrite firstn_length; lia|].
  split; [exact (lite_addr_fits c k B K A g F)|].
  split. { rewrite (lite_read c k B K A junk t s g F C). destruct (t s _) as [s' [d st]]. reflexivity. }
  split; [apply r_copy_length|]. split.
  - intros i Hi. apply (r_copy_nth c k B K A g _ i F Hi).
  - intros st [-> | [-> | ->]] ->; reflexivity.
Qed.

(** With the aligner in front, every transaction with a streaming width that
    lies in the address space: it returns, OK, with the effect and the data of
    the transaction carried out on the memory directly. *)
Theorem C61_lite_aligned c junk (m : mem) g :
  bus_ok c -> (N.to_nat (lc_bw c) <= length junk)%nat ->
  gp_ok g -> 0 < g_len g -> g_sw g <> 0 -> g_cmd g <> C_IGNORE ->
  Forall (fun a => a_addr a < 2 ^ lc_aw c) (accesses g) ->
  let ram := atomic_memory (fun _ => false) in
  exists m' d, lite_aligned c junk ram m g = Ok ((m', false), (d, St_OK)) /\ (m', (d, St_OK)) = ram m g.
Proof.
  intros (k & B & K & A) J G L S C Fa r.
  exists (fst (r m g)), (fst (snd (r m g))).
  pose proof (lite_aligned_ram c k B K A junk m g J G L S C Fa) as Q. change AxiLiteProofs.ram with r in Q. rewrite Q.
  assert (E : snd (snd (r m g)) = St_OK).
  { unfold r. rewrite atomic_whole; [reflexivity|]. clear. induction (accesses g); auto. }
  destruct (r m g) as [m' [d st]]. cbn [fst snd] in *. subst st. split; reflexivity.
Qed.

Definition lc4 := mkLcfg 4 32.
Definition junk4 : list N := [90; 91; 92; 93].
Definition m0 : mem := fun a => a mod 256.
Lemma lc4_ok : bus_ok lc4.
Proof. exists 2. split; [reflexivity|]. split; vm_compute; discriminate. Qed.
Definition none : N -> bool := fun _ => false.
Definition seen (l : list N) (o : res (lite_out mem)) : option (list N * list N * status) :=
  match o with Ok (L_Done m' d s) => Some (map m' l, d, s) | _ => None end.
Definition seen_aligned (l : list N) (o : res (mem * bool * (list N * status))) : option (list N * list N * status) :=
  match o with Ok ((m', false), (d, s)) => Some (map m' l, d, s) | _ => None end.
Definition wr_ex := mkGp C_WRITE 4097 [1; 2; 3] (Some [255; 0]) 3 St_INCOMPLETE.
Definition rd_ex := mkGp C_READ 4094 [0; 0; 0; 0; 0; 0; 0] None 7 St_INCOMPLETE.
Definition st_ex := mkGp C_WRITE 4098 [11; 12; 13; 14; 15] None 2 St_INCOMPLETE.
Example C61_case :
  bus_ok lc4 /\ in_one_word lc4 wr_ex /\
  seen [4096; 4097; 4098; 4099; 4100] (lite_transport lc4 junk4 (atomic_memory none) m0 wr_ex) =
    Some ([0; 1; 2; 3; 4], [1; 2; 3], St_OK) /\
  seen_aligned [] (lite_aligned lc4 junk4 (atomic_memory none) m0 rd_ex) =
    Some ([], [254; 255; 0; 1; 2; 3; 4], St_OK) /\
  seen_aligned [4097; 4098; 4099; 4100] (lite_aligned lc4 junk4 (atomic_memory none) m0 st_ex) =
    Some ([1; 15; 14; 4], [11; 12; 13; 14; 15], St_OK).
Proof.
  split; [exact lc4_ok|]. split; [unfold in_one_word; repeat split; vm_compute; congruence|].
  split; [vm_compute; reflexivity|]. split; vm_compute; reflexivity.
Qed.

(** ** C62: what the bridge does with the rest *)
(** Without the aligner, a write across a word is answered OK with its tail
    dropped: for every such write the target sees only the first word. *)
Theorem C62_lite_write_truncated_refuted :
  ~ (forall c junk m g, bus_ok c -> gp_ok g -> 0 < g_len g <= lc_bw c -> g_sw g = g_len g ->
       g_addr g + g_len g <= 2 ^ lc_aw c -> (N.to_nat (lc_bw c) <= length junk)%nat -> g_cmd g = C_WRITE ->
       forall m' d, lite_transport c junk (atomic_memory (fun _ => false)) m g = Ok (L_Done m' d St_OK) ->
       forall x, m' x = fst (atomic_memory (fun _ => false) m g) x).
Proof.
  intro H.
  specialize (H lc4 junk4 m0 (mkGp C_WRITE 2 [170; 171; 172; 173] None 4 St_INCOMPLETE)).
  specialize (H lc4_ok).
  assert (G : gp_ok (mkGp C_WRITE 2 [170; 171; 172; 173] None 4 St_INCOMPLETE)) by (repeat split; vm_compute; congruence).
  specialize (H G).
  assert (L : 0 < 4 <= lc_bw lc4) by (split; vm_compute; congruence).
  specialize (H L eq_refl).
  assert (A : 2 + 4 <= 2 ^ lc_aw lc4) by (vm_compute; congruence).
  specialize (H A (le_n 4) eq_refl).
  destruct (lite_transport lc4 junk4 _ m0 _) as [[m' d st|]| | |] eqn:E.
  2-5: apply (f_equal (seen [5])) in E; vm_compute in E; discriminate E.
  apply (f_equal (seen [5])) in E. unfold seen in E at 2. vm_compute in E.
  assert (M : m' 5 = 5 /\ st = St_OK) by (injection E as E1 E2 E3; auto).
  destruct M as [M ->]. specialize (H m' d eq_refl 5). rewrite M in H. vm_compute in H. discriminate H.
Qed.

(** Streaming inside a word: the write is cut after the first beat, the read
    returns the following bytes instead of repeating. *)
Theorem C62_lite_streaming_refuted :
  exists c junk m g g', bus_ok c /\ gp_ok g /\ gp_ok g' /\ 0 < g_sw g /\ 0 < g_sw g' /\
    (exists m' d, lite_transport c junk (atomic_memory (fun _ => false)) m g = Ok (L_Done m' d St_OK) /\
       m' (g_addr g) <> fst (atomic_memory (fun _ => false) m g) (g_addr g)) /\
    (exists m' d, lite_transport c junk (atomic_memory (fun _ => false)) m g' = Ok (L_Done m' d St_OK) /\
       d <> fst (snd (atomic_memory (fun _ => false) m g'))).
Proof.
  exists lc4, junk4, m0, (mkGp C_WRITE 8 [170; 171; 172; 173] None 2 St_INCOMPLETE),
         (mkGp C_READ 8 [0; 0; 0; 0] None 2 St_INCOMPLETE).
  split; [exact lc4_ok|].
  split; [repeat split; vm_compute; congruence|]. split; [repeat split; vm_compute; congruence|].
  split; [reflexivity|]. split; [reflexivity|].
  split; (eexists _, _; split; [cbv [lite_transport]; reflexivity|vm_compute; congruence]).
Qed.

(** Without the aligner every read across a word never returns, whatever the
    target does; the mutex stays taken. *)
Theorem C62_lite_read_hangs_refuted {S} c junk (t : target S) s g :
  bus_ok c -> g_cmd g = C_READ -> g_len g <= lc_bw c -> g_sw g <> 0 ->
  lc_bw c < g_addr g mod lc_bw c + g_len g ->
  exists s' d, lite_transport c junk t s g = Ok (L_Hang s' d).
Proof.
  intros (k & B & K & A) C L Sw O. unfold lite_transport. rewrite C.
  assert (P : lc_bw c <> 0) by (rewrite B; apply N.pow_nonzero; discriminate).
  pose proof (N.mod_lt (g_addr g) (lc_bw c) P).
  replace (g_len g =? 0) with false by (symmetry; apply N.eqb_neq; lia).
  replace (lc_bw c <? g_len g) with false by (symmetry; apply N.ltb_ge; lia).
  replace (g_sw g =? 0) with false by (symmetry; apply N.eqb_neq; exact Sw).
  replace (r_len c g <? g_len g) with true
    by (symmetry; apply N.ltb_lt; unfold r_len, lane_off; lia).
  cbn [orb]. destruct (t s _) as [s' [d st]]. eauto.
Qed.

(** Burst, command and byte-enable errors of the target, and a target that
    answers nothing, come back as OK. *)
Theorem C62_lite_errors_lost_refuted {S} c junk (t : target S) s g st :
  bus_ok c -> in_one_word c g ->
  st = St_BURST \/ st = St_COMMAND \/ st = St_BYTE_ENABLE \/ st = St_INCOMPLETE ->
  (forall p, snd (snd (t s p)) = st) ->
  exists s' d, lite_transport c junk t s g = Ok (L_Done s' d St_OK).
Proof.
  intros B F Hs Ht. pose proof F as (L & O & Sw & A).
  unfold lite_transport.
  replace (g_len g =? 0) with false by (symmetry; apply N.eqb_neq; lia).
  replace (lc_bw c <? g_len g) with false by (symmetry; apply N.ltb_ge; lia).
  replace (g_sw g =? 0) with false by (symmetry; apply N.eqb_neq; lia).
  replace (r_len c g <? g_len g) with false
    by (symmetry; apply N.ltb_ge; unfold r_len, lane_off; lia).
  cbn [orb].
  assert (W : forall p, exists s' d, t s p = (s', (d, st))).
  { intro p. specialize (Ht p). destruct (t s p) as [s' [d st0]]. cbn in Ht. subst st0. eauto. }
  destruct (W (read_payload c junk (g_addr g))) as (s1 & d1 & E1).
  destruct (W (write_payload c junk (g_addr g) (w_data c g) (w_strb c g))) as (s2 & d2 & E2).
  rewrite E1, E2. destruct (g_cmd g); destruct Hs as [-> |[-> |[-> | ->]]]; eauto.
Qed.

(** A payload with TLM_IGNORE_COMMAND writes. *)
Theorem C62_lite_ignore_writes_refuted :
  exists c junk m g, bus_ok c /\ in_one_word c g /\ g_cmd g = C_IGNORE /\
    exists m' d, lite_transport c junk (atomic_memory (fun _ => false)) m g = Ok (L_Done m' d St_OK) /\
      m' (g_addr g) <> m (g_addr g).
Proof.
  exists lc4, junk4, m0, (mkGp C_IGNORE 8 [170; 171] None 2 St_INCOMPLETE).
  split; [exact lc4_ok|].
  split; [repeat split; vm_compute; congruence|]. split; [reflexivity|].
  eexists _, _. split; [reflexivity|vm_compute; congruence].
Qed.

(** Streaming width zero ends the simulation on a write and divides by zero on
    a read, also behind the aligner when the transaction fits. *)
Theorem C62_lite_zero_width_refuted {S} c junk (t : target S) s g :
  0 < g_len g <= lc_bw c -> g_sw g = 0 ->
  lite_transport c junk t s g = UB \/ lite_transport c junk t s g = AssertFail.
Proof.
  intros [L1 L2] Z. unfold lite_transport.
  replace (g_len g =? 0) with false by (symmetry; apply N.eqb_neq; lia).
  replace (lc_bw c <? g_len g) with false by (symmetry; apply N.ltb_ge; lia).
  rewrite Z. destruct (t s (read_payload c junk (g_addr g))) as [s' [d st]].
  destruct (g_cmd g); cbn; auto.
Qed.

Example C62_case :
  lite_transport lc4 junk4 (fun (_ : unit) g => (tt, (g_data g, St_COMMAND))) tt
    (mkGp C_WRITE 8 [170; 171] None 2 St_INCOMPLETE) = Ok (L_Done tt [170; 171] St_OK) /\
  seen [] (lite_transport lc4 junk4 (atomic_memory none) m0
             (mkGp C_READ 2 [0; 0; 0; 0] None 4 St_INCOMPLETE)) = None /\
  seen_aligned [] (lite_aligned lc4 junk4 (atomic_memory none) m0
             (mkGp C_READ 2 [0; 0; 0; 0] None 4 St_INCOMPLETE)) = Some ([], [2; 3; 4; 5], St_OK).
Proof. split; [vm_compute; reflexivity|]. split; vm_compute; reflexivity. Qed.

Print Assumptions C61_lite_single.
Print Assumptions C61_lite_write.
Print Assumptions C61_lite_read.
Print Assumptions C61_lite_aligned.
Print Assumptions C62_lite_write_truncated_refuted.
Print Assumptions C62_lite_streaming_refuted.
Print Assumptions C62_lite_read_hangs_refuted.
Print Assumptions C62_lite_errors_lost_refuted.
Print Assumptions C62_lite_ignore_writes_refuted.
Print Assumptions C62_lite_zero_width_refuted.
