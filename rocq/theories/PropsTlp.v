(** C63-C65: PCI Express packets of the TLM-to-TLP bridge. *)
From Verif Require Import Base BaseFacts TlmModel TlmSpec TlmFacts TlpModel TlpSpec TlpProofs.
Open Scope N_scope.

Definition rd (a : N) (d : list N) := mkGp C_READ a d None (N.of_nat (length d)) St_INCOMPLETE.
Definition wr (a : N) (d : list N) := mkGp C_WRITE a d None (N.of_nat (length d)) St_INCOMPLETE.
Definition flat (n : N) : mem := fun x => (x + n) mod 256.
(** The memory after a transaction, at the given addresses. *)
Definition after {A} (xs : list N) (r : res (mem * A)) : option (list N * A) :=
  match r with Ok (m, x) => Some (map m xs, x) | _ => None end.

(** ** C63: memory requests *)
(** Whole words, no byte enables: the packet on the link is the one of the PCIe
    specification. *)
Theorem C63_request_packet : forall q,
  g_addr (q_gp q) < u64 -> g_addr (q_gp q) mod 4 = 0 -> g_len (q_gp q) mod 4 = 0 ->
  0 < g_len (q_gp q) <= 4096 -> g_be_len (q_gp q) = 0 -> q_master q < 65536 -> q_tag q < 256 ->
  bytes_ok (g_data (q_gp q)) ->
  rmap wire (mem_words q) =
  Ok (mem_packet (is_wr (q_gp q)) (q_master q) (q_tag q) (if g_len (q_gp q) =? 4 then 0 else 15) 15
        (g_addr (q_gp q)) (g_len (q_gp q) / 4) (if is_wr (q_gp q) then g_data (q_gp q) else [])).
Proof.
  intros q A A4 M L B Mm T By. rewrite mem_layout by (try exact By; repeat split; (assumption || lia)).
  unfold lastbe. destruct (N.eqb_spec (g_len (q_gp q)) 4) as [->|E]; [reflexivity|].
  replace (g_len (q_gp q) / 4 <=? 1) with false; [reflexivity|]. symmetry. apply N.leb_gt.
  assert (8 <= g_len (q_gp q)); [|apply N.lt_le_trans with (8 / 4); [reflexivity|apply N.div_le_mono; [discriminate|assumption]]].
  pose proof (N.div_mod (g_len (q_gp q)) 4 ltac:(discriminate)) as X. rewrite M in X.
  assert (2 <= g_len (q_gp q) / 4) by lia. lia.
Qed.

Example C63_request_case :
  rmap wire (mem_words (mkReq (wr 0x100000010 [1; 2; 3; 4; 5; 6; 7; 8]) 0x100 5)) =
  Ok [0x60; 0; 0; 2;  1; 0; 5; 0xff;  0; 0; 0; 1;  0; 0; 0; 0x10;  1; 2; 3; 4; 5; 6; 7; 8] /\
  rmap wire (mem_words (mkReq (rd 0x80 [0; 0; 0; 0]) 0x102 7)) =
  Ok [0; 0; 0; 1;  1; 2; 7; 0x0f;  0; 0; 0; 0x80].
Proof. split; vm_compute; reflexivity. Qed.

(** The bridge at the other end performs exactly that write. *)
Theorem C63_write : forall (S : Type) restored stack (t : target S) s a d m tag,
  a < u64 -> a mod 4 = 0 -> (0 < length d <= 4096)%nat -> N.of_nat (length d) mod 4 = 0 ->
  bytes_ok d -> m < 65536 -> tag < 256 ->
  mem_trip restored stack t s (mkReq (wr a d) m tag) =
  let '(s', (_, st)) := t s (wr a d) in
  if status_eqb st St_OK then Ok (s', (d, St_OK)) else AssertFail.
Proof.
  intros S restored stack t s a d m tag A A4 L L4 B M T.
  rewrite trip_write; [reflexivity| |exact B|reflexivity].
  unfold whole, g_len; cbn [q_gp q_master q_tag wr g_addr g_data g_be_len g_be]. repeat split; (assumption || lia || reflexivity).
Qed.

(** A read request reaches the other end as the same read. *)
Theorem C63_read_request : forall stack a d m tag,
  a < u64 -> a mod 4 = 0 -> (0 < length d <= 4096)%nat -> N.of_nat (length d) mod 4 = 0 ->
  m < 65536 -> tag < 256 ->
  rbind (mem_words (mkReq (rd a d) m tag)) (fun ws =>
    rbind (rx_mem (wire ws)) (fun x =>
      rmap (fun p => (p, rx_master x, rx_tag x)) (dma_payload stack x))) =
  Ok (mkGp C_READ a (firstn (length d) stack) None (N.of_nat (length d)) St_INCOMPLETE, m, tag).
Proof.
  intros stack a d m tag A A4 L L4 M T.
  assert (W : whole (mkReq (rd a d) m tag)).
  { unfold whole, g_len; cbn [q_gp q_master q_tag rd g_addr g_data g_be_len g_be]. repeat split; (assumption || lia || reflexivity). }
  rewrite (built_whole _ W). change (is_wr (q_gp (mkReq (rd a d) m tag))) with false.
  change (g_len (q_gp (mkReq (rd a d) m tag))) with (N.of_nat (length d)).
  cbn [q_gp rbind q_master q_tag]. change (g_addr (rd a d)) with a.
  set (n := N.of_nat (length d)) in *.
  destruct (rx_built false a (n / 4) m tag (lastbe (n / 4)) 15 []) as [x [E [Ed [Er [Ea [Em [Et Ex]]]]]]]; auto.
  - pose proof (N.div_mod n 4 ltac:(discriminate)). assert (n <= 4096) by (unfold n; lia). assert (0 < n) by (unfold n; lia). lia.
  - apply lastbe_lt.
  - reflexivity.
  - discriminate.
  - rewrite E. cbn [rbind].
    unfold dma_payload. rewrite Er, Ed, Ea, Em, Et. cbn [negb rmap rbind].
    pose proof (N.div_mod n 4 ltac:(discriminate)) as X. pose proof (N.div_mod a 4 ltac:(discriminate)) as Y.
    replace (4 * (n / 4)) with n by lia. replace (a / 4 * 4) with a by lia.
    unfold n. rewrite Nat2N.id. reflexivity.
Qed.

(** The answer carries the requester, the tag and all the data. *)
Theorem C63_completion_packet : forall a d m tag,
  (0 < length d <= 4096)%nat -> N.of_nat (length d) mod 4 = 0 -> bytes_ok d -> m < 65536 -> tag < 256 ->
  rmap wire (cpl_words (mkGp C_READ a d None (N.of_nat (length d)) St_OK) m tag) =
  Ok (cpl_packet 0 0 (N.of_nat (length d)) m tag 0 (N.of_nat (length d) / 4) d).
Proof.
  intros a d m tag L L4 B M T. set (n := N.of_nat (length d)) in *.
  pose proof (N.div_mod n 4 ltac:(discriminate)) as X.
  assert (E : n = 4 * (n / 4)) by lia. rewrite E at 1 2.
  apply cpl_layout; auto; unfold n in *; lia.
Qed.

Example C63_case :
  after [0x0f; 0x10; 0x13; 0x14; 0x17; 0x18]
    (mem_trip false [] (atomic_memory (fun _ => false)) (flat 0) (mkReq (wr 0x10 [1; 2; 3; 4; 5; 6; 7; 8]) 9 1)) =
    Some ([0x0f; 1; 4; 5; 8; 0x18], ([1; 2; 3; 4; 5; 6; 7; 8], St_OK)) /\
  rmap wire (cpl_words (rd 0x10 [1; 2; 3; 4; 5; 6; 7; 8]) 0x109 3) =
    Ok [0x4a; 0; 0; 2;  0; 0; 0x20; 8;  1; 9; 3; 0;  1; 2; 3; 4; 5; 6; 7; 8].
Proof. split; vm_compute; reflexivity. Qed.

(** Refuted: writes that are not whole aligned words.  An unaligned write lands at
    the aligned address; one to three bytes are padded with zeros that are
    written too; disabled bytes are written; five bytes read past the buffer; byte
    enables over several words and the empty write stop the simulation. *)
Definition one_write (be : option (list N)) (a : N) (d : list N) :=
  mem_trip true [] (atomic_memory (fun _ => false)) (flat 0)
    (mkReq (mkGp C_WRITE a d be (N.of_nat (length d)) St_INCOMPLETE) 0 0).
Theorem C63_unaligned_refuted :
  after [0x10; 0x11; 0x12; 0x13; 0x14] (one_write None 0x11 [0xa1; 0xa2; 0xa3; 0xa4]) =
  Some ([0xa1; 0xa2; 0xa3; 0xa4; 0x14], ([0xa1; 0xa2; 0xa3; 0xa4], St_OK)).
Proof. vm_compute. reflexivity. Qed.
Theorem C63_short_refuted :
  after [0x10; 0x11; 0x12; 0x13] (one_write None 0x10 [0xa1]) = Some ([0xa1; 0; 0; 0], ([0xa1], St_OK)).
Proof. vm_compute. reflexivity. Qed.
Theorem C63_byte_enable_refuted :
  after [0x10; 0x11; 0x12; 0x13] (one_write (Some [BE_ON; BE_OFF; BE_ON; BE_ON]) 0x10 [0xa1; 0xa2; 0xa3; 0xa4]) =
  Some ([0xa1; 0xa2; 0xa3; 0xa4], ([0xa1; 0xa2; 0xa3; 0xa4], St_OK)).
Proof. vm_compute. reflexivity. Qed.
Theorem C63_odd_length_refuted : forall be a d m tag,
  (4 < length d)%nat -> N.of_nat (length d) mod 4 <> 0 ->
  a < u64 -> N.of_nat (length d) < 4093 -> be = None -> m < 65536 -> tag < 256 ->
  mem_words (mkReq (mkGp C_WRITE a d be (N.of_nat (length d)) St_INCOMPLETE) m tag) = UB.
Proof.
  intros be a d m tag L M A Lu -> Mm T. set (q := mkReq _ _ _).
  assert (Hl : g_len (q_gp q) = N.of_nat (length d)) by reflexivity.
  assert (Hd : dw_len (q_gp q) = N.of_nat (length d) / 4 + 1).
  { unfold dw_len. rewrite Hl. destruct (N.eqb_spec (N.of_nat (length d) mod 4) 0); [contradiction|reflexivity]. }
  assert (Hq : N.of_nat (length d) / 4 <= 1023) by (apply N.lt_succ_r; apply N.div_lt_upper_bound; lia).
  assert (H1 : 1 <= N.of_nat (length d) / 4) by (change 1 with (4 / 4); apply N.div_le_mono; lia).
  rewrite (mem_words_gen q 15); auto; try reflexivity.
  - change (is_wr (q_gp q)) with true. unfold mem_data. rewrite Hl.
    replace (3 <? N.of_nat (length d)) with true by (symmetry; apply N.ltb_lt; lia).
    destruct (N.eqb_spec (N.of_nat (length d) mod 4) 0); [contradiction|]. reflexivity.
  - rewrite Hd. lia.
  - unfold last_be. rewrite Hd. replace (_ <=? 1) with false by (symmetry; apply N.leb_gt; lia). reflexivity.
  - unfold first_be. rewrite Hd. replace (_ =? 0) with false by (symmetry; apply N.eqb_neq; lia). reflexivity.
Qed.
Theorem C63_stops_refuted :
  mem_words (mkReq (mkGp C_WRITE 0 [1; 2; 3; 4; 5; 6; 7; 8] (Some [BE_ON]) 8 St_INCOMPLETE) 0 0) = AssertFail /\
  one_write None 0x10 [] = AssertFail /\
  mem_words (mkReq (wr 0 (repeat 0 4100)) 0 0) = AssertFail /\
  mem_words (mkReq (wr 0 [1; 2; 3; 4]) 0 256) = AssertFail.
Proof. repeat split; vm_compute; reflexivity. Qed.
(** Refuted: the lower address of a completion is always 0 (PCIe 2.2.9: the
    lower seven bits of the address of the first byte). *)
Theorem C63_lower_address_refuted :
  rmap wire (cpl_words (mkGp C_READ 0x44 [1; 2; 3; 4] None 4 St_OK) 1 2) =
    Ok (cpl_packet 0 0 4 1 2 0 1 [1; 2; 3; 4]) /\
  cpl_packet 0 0 4 1 2 0 1 [1; 2; 3; 4] <> cpl_packet 0 0 4 1 2 0x44 1 [1; 2; 3; 4].
Proof. split; [vm_compute; reflexivity|discriminate]. Qed.

(** ** C64: reads *)
(** A read inside one word, with the header buffer left as it was: the bytes of
    the target.  Missing: everything refuted below. *)
Theorem C64_read_partial : forall (S : Type) stack (t : target S) s a d m tag,
  a < u64 -> (0 < length d)%nat -> a mod 4 + N.of_nat (length d) <= 4 -> m < 65536 -> tag < 256 ->
  (4 <= length stack)%nat -> keeps_length t -> (forall s g, bytes_ok (fst (snd (t s g)))) ->
  mem_trip true stack t s (mkReq (rd a d) m tag) =
  let '(s', (w, st)) := t s (mkGp C_READ (a - a mod 4) (firstn 4 stack) None 4 St_INCOMPLETE) in
  if status_eqb st St_OK then Ok (s', (slice (N.to_nat (a mod 4)) (length d) w, St_OK)) else AssertFail.
Proof.
  intros S stack t s a d m tag A L O M T Ls Kl Bt.
  rewrite trip_read; auto.
  - cbn [q_gp rd g_addr g_data]. replace (a / 4 * 4) with (a - a mod 4); [reflexivity|].
    pose proof (N.div_mod a 4 ltac:(discriminate)). lia.
  - unfold small_read, g_len; cbn [q_gp q_master q_tag rd g_addr g_data g_be_len g_be is_wr g_cmd]. repeat split; (assumption || lia || reflexivity).
Qed.

(** With a memory: what a direct read gives. *)
Theorem C64_read_memory_partial : forall stack (m : mem) a d mid tag,
  a < u64 -> (0 < length d)%nat -> a mod 4 + N.of_nat (length d) <= 4 -> mid < 65536 -> tag < 256 ->
  (4 <= length stack)%nat -> (forall x, m x < 256) ->
  mem_trip true stack (atomic_memory (fun _ => false)) m (mkReq (rd a d) mid tag) =
  Ok (atomic_memory (fun _ => false) m (rd a d)).
Proof.
  intros stack m a d mid tag A L O M T Ls Bm.
  set (t := fun (_ : mem) (g : gp) =>
              (m, (map (fun i => m (g_addr g + N.of_nat i)) (seq 0 (length (g_data g))), St_OK)) : mem * (list N * status)).
  assert (E4 : forall dd n, length dd = n -> (a - a mod 4) + N.of_nat n <= u64 -> forall b, a - a mod 4 <= b -> b + N.of_nat n <= u64 ->
     atomic_memory (fun _ => false) m (mkGp C_READ b dd None (N.of_nat n) St_INCOMPLETE) = t m (mkGp C_READ b dd None (N.of_nat n) St_INCOMPLETE)).
  { intros dd n Ln Ha b Hb Hu. unfold t. set (g := mkGp C_READ b dd None (N.of_nat n) St_INCOMPLETE).
    assert (Hp : plain_at g (N.of_nat n)) by (unfold plain_at, g, g_len; cbn [g_be g_sw g_data g_addr]; rewrite Ln; auto).
    rewrite (atomic_whole (fun _ => false) m g) by (apply (plain_bad g (N.of_nat n) (fun _ => false)); [exact Hp|reflexivity]).
    unfold reads, writes. cbn [g g_cmd]. rewrite (plain_reads g (N.of_nat n) m Hp). reflexivity. }
  assert (U : u64 = 4 * (u64 / 4)) by reflexivity.
  pose proof (N.div_mod a 4 ltac:(discriminate)) as X. pose proof (N.mod_lt a 4 ltac:(discriminate)) as Y.
  assert (Hu : a - a mod 4 + 4 <= u64) by (unfold u64 in *; lia).
  transitivity (mem_trip true stack t m (mkReq (rd a d) mid tag)).
  - unfold mem_trip. rewrite built_small.
    2:{ unfold small_read, g_len; cbn [q_gp q_master q_tag rd g_addr g_data g_be_len g_be is_wr g_cmd]. repeat split; (assumption || lia || reflexivity). }
    cbn [rbind q_gp rd g_addr q_master q_tag].
    destruct (rx_built false a 1 mid tag 0 15 []) as [x [E [Ed [Er [Ea [Em [Et Ex]]]]]]]; auto; try reflexivity; try lia; try discriminate.
    rewrite E. cbn [rbind]. unfold dma_payload. rewrite Er, Ed, Ea, Em, Et. cbn [negb rbind].
    change (4 * 1) with (N.of_nat 4). change (N.to_nat (N.of_nat 4)) with 4%nat.
    replace (a / 4 * 4) with (a - a mod 4) by lia.
    rewrite (E4 (firstn 4 stack) 4%nat); auto; [apply firstn_length_le; exact Ls|lia].
  - rewrite C64_read_partial; auto.
    + unfold rd. rewrite (E4 d (length d) eq_refl) by lia.
      unfold t. cbn [g_addr g_data]. rewrite firstn_length_le by exact Ls.
      cbn [status_eqb]. do 4 f_equal. unfold slice.
      assert (Hs : exists k, N.to_nat (a mod 4) = k /\ (k + length d <= 4)%nat /\ a = a - a mod 4 + N.of_nat k).
      { exists (N.to_nat (a mod 4)). repeat split; lia. }
      destruct Hs as [k [Ek [Hk Hk']]]. rewrite Ek. remember (a - a mod 4) as b eqn:Eb. clear Eb. clear E4 Hu. subst a.
      rewrite (map_ext (fun i => m (b + N.of_nat k + N.of_nat i)) (fun i => m (b + N.of_nat (k + i)))) by (intro i; f_equal; lia).
      rewrite <- (map_map (fun i => (k + i)%nat) (fun i => m (b + N.of_nat i))).
      rewrite skipn_map, firstn_map. f_equal.
      destruct k as [|[|[|[|]]]]; [..|lia]; destruct (length d) as [|[|[|[|[|]]]]]; try lia; reflexivity.
    + intros s g. unfold t. cbn [fst snd]. now rewrite map_length, seq_length.
    + intros s g. unfold t. cbn [fst snd].
      apply Forall_forall. intros x Hx. apply in_map_iff in Hx. destruct Hx as [i [<- _]]. apply Bm.
Qed.

Example C64_case :
  after [] (mem_trip true [0; 0; 0; 0] (atomic_memory (fun _ => false)) (flat 0) (mkReq (rd 0x100000011 [9; 9]) 1 2)) =
  Some ([], ([0x11; 0x12], St_OK)).
Proof. vm_compute. reflexivity. Qed.

(** Refuted: reads of more than one word.  Only the first data word of a
    completion is kept; the requester stops on an assertion. *)
Theorem C64_long_read_refuted : forall (S : Type) stack (t : target S) s a d m tag,
  a < u64 -> a mod 4 = 0 -> (4 < length d <= 4096)%nat -> N.of_nat (length d) mod 4 = 0 ->
  m < 65536 -> tag < 256 -> (4096 <= length stack)%nat -> keeps_length t ->
  (forall s g, bytes_ok (fst (snd (t s g)))) ->
  mem_trip true stack t s (mkReq (rd a d) m tag) = AssertFail.
Proof.
  intros S stack t s a d m tag A A4 L L4 M T Ls Kl Bt. apply trip_long; auto.
  - unfold whole, g_len; cbn [q_gp q_master q_tag rd g_addr g_data g_be_len g_be]. repeat split; (assumption || lia || reflexivity).
  - unfold g_len. cbn [q_gp rd g_data]. lia.
Qed.
(** Refuted: if the buffer of the request, which is swapped in place, is not
    swapped back, no read ever succeeds. *)
Theorem C64_swapped_header_refuted : forall (S : Type) stack (t : target S) s a d m tag s' d' st,
  a < u64 -> (0 < length d)%nat -> a mod 4 + N.of_nat (length d) <= 4 -> m < 65536 -> tag < 256 ->
  (4 <= length stack)%nat -> keeps_length t -> (forall s g, bytes_ok (fst (snd (t s g)))) ->
  mem_trip false stack t s (mkReq (rd a d) m tag) = Ok (s', (d', st)) -> st = St_GENERIC.
Proof.
  intros S stack t s a d m tag s' d' st A L O M T Ls Kl Bt H.
  apply (trip_swapped stack t s (mkReq (rd a d) m tag) (d', st) s'); auto.
  unfold small_read, g_len; cbn [q_gp q_master q_tag rd g_addr g_data g_be_len g_be is_wr g_cmd]. repeat split; (assumption || lia || reflexivity).
Qed.
(** Refuted: a read across a word boundary gives zeros for the second word. *)
Theorem C64_crossing_refuted :
  after [] (mem_trip true [0; 0; 0; 0] (atomic_memory (fun _ => false)) (flat 0) (mkReq (rd 0x13 [9; 9]) 1 2)) =
  Some ([], ([0x13; 0], St_OK)).
Proof. vm_compute. reflexivity. Qed.
(** Refuted: an error at the target stops the simulation. *)
Theorem C64_error_refuted : forall d, 
  mem_trip true (repeat 0 4096) (fun (s : unit) g => (s, (g_data g, St_ADDRESS))) tt (mkReq (rd 0 [d]) 0 0) = AssertFail.
Proof. intro d. vm_compute. reflexivity. Qed.

(** ** C65: configuration requests *)
(** Any register access inside one word: bus, device, function and register from
    the ECAM address, one enable bit per enabled byte, bytes in their lanes. *)
Theorem C65_request_packet : forall q,
  (0 < length (g_data (q_gp q)))%nat -> g_addr (q_gp q) mod 4 + g_len (q_gp q) <= 4 ->
  q_master q < 65536 -> q_tag q < 256 -> bytes_ok (g_data (q_gp q)) ->
  let a := g_addr (q_gp q) in
  exists be,
    (forall i, be_bit be i = true <->
       a mod 4 <= i < a mod 4 + g_len (q_gp q) /\
       (g_be_len (q_gp q) = 0 \/ be_at (g_be (q_gp q)) (i - a mod 4) = true)) /\
    rmap wire (cfg_words q) =
    Ok (cfg_packet (is_wr (q_gp q)) (q_master q) (q_tag q) be
          (a / 2 ^ 20 mod 2 ^ 8) (a / 2 ^ 15 mod 2 ^ 5) (a / 2 ^ 12 mod 2 ^ 3) (a / 2 ^ 8 mod 2 ^ 4) (a / 2 ^ 2 mod 2 ^ 6)
          (if is_wr (q_gp q) then in_lanes (N.to_nat (a mod 4)) (g_data (q_gp q)) else [])).
Proof.
  intros q L0 L M T B a. exists (cfg_be (q_gp q)). split.
  - intro i. unfold be_bit. rewrite cfg_be_bits. unfold cfg_start, cfg_dlen, has_be. fold a. fold a in L.
    rewrite !andb_true_iff, orb_true_iff, negb_involutive, N.leb_le, N.ltb_lt, N.eqb_eq.
    replace (N.min (g_len (q_gp q)) 4) with (g_len (q_gp q)) by lia. tauto.
  - apply cfg_layout; [|exact B]. unfold in_word, g_len in *. repeat split; (assumption || lia).
Qed.

(** The completion of a read gives the bytes of the register, of a write success. *)
Theorem C65_completions : forall q ws comp bytes low,
  (0 < length (g_data (q_gp q)))%nat -> g_addr (q_gp q) mod 4 + g_len (q_gp q) <= 4 ->
  q_master q < 65536 -> q_tag q < 256 -> bytes_ok (g_data (q_gp q)) ->
  comp < 65536 -> low < 128 -> cfg_words q = Ok ws ->
  (is_wr (q_gp q) = false -> forall d, length d = 4%nat -> bytes_ok d ->
     rx_completion q ws (cpl_packet comp 0 bytes (q_master q) (q_tag q) low 1 d) =
     Ok (slice (N.to_nat (g_addr (q_gp q) mod 4)) (length (g_data (q_gp q))) d, St_OK)) /\
  (is_wr (q_gp q) = true ->
     rx_completion q ws (cpl_nodata comp 0 bytes (q_master q) (q_tag q) low) = Ok (g_data (q_gp q), St_OK)).
Proof.
  intros q ws comp bytes low L0 L M T B C Lo E.
  assert (W : in_word q) by (unfold in_word, g_len in *; repeat split; (assumption || lia)).
  rewrite (cfg_words_ok q W B) in E. apply Ok_inj in E. subst ws. split.
  - intros Wr d Ld Bd. apply cfg_read_completion; auto. reflexivity.
  - intro Wr. apply cfg_write_completion; auto. reflexivity.
Qed.

(** A completion with another requester or tag is not taken for the answer. *)
Theorem C65_other_completion : forall q ws comp st bytes low rid tag,
  (0 < length (g_data (q_gp q)))%nat -> g_addr (q_gp q) mod 4 + g_len (q_gp q) <= 4 ->
  q_master q < 65536 -> q_tag q < 256 -> bytes_ok (g_data (q_gp q)) ->
  comp < 65536 -> st < 8 -> low < 128 -> rid < 65536 -> tag < 256 -> cfg_words q = Ok ws ->
  (rid, tag) <> (q_master q, q_tag q) ->
  rx_completion q ws (cpl_nodata comp st bytes rid tag low) = AssertFail.
Proof.
  intros q ws comp st bytes low rid tag L0 L M T B C St Lo Hr Ht E Hne.
  assert (W : in_word q) by (unfold in_word, g_len in *; repeat split; (assumption || lia)).
  rewrite (cfg_words_ok q W B) in E. apply Ok_inj in E. subst ws. apply cfg_other_completion; auto.
Qed.

Example C65_case :
  rmap wire (cfg_words (mkReq (wr 0x1234566 [0xaa; 0xbb]) 0x108 3)) =
    Ok [0x44; 0; 0; 1;  1; 8; 3; 0x0c;  0x12; 0x34; 5; 0x64;  0; 0; 0xaa; 0xbb] /\
  rmap (fun ws => rx_completion (mkReq (rd 0x1234566 [0; 0]) 0x108 3) ws
          (cpl_packet 0x1234 0 4 0x108 3 0 1 [1; 2; 3; 4])) (cfg_words (mkReq (rd 0x1234566 [0; 0]) 0x108 3)) =
    Ok (Ok ([3; 4], St_OK)).
Proof. split; vm_compute; reflexivity. Qed.

(** Refuted: the completion status is not looked at; accesses across a word stop
    the simulation or are undefined; of more than four bytes only four are sent. *)
Theorem C65_status_refuted : forall q ws comp st bytes low,
  (0 < length (g_data (q_gp q)))%nat -> g_addr (q_gp q) mod 4 + g_len (q_gp q) <= 4 ->
  q_master q < 65536 -> q_tag q < 256 -> bytes_ok (g_data (q_gp q)) -> is_wr (q_gp q) = true ->
  comp < 65536 -> st < 8 -> low < 128 -> cfg_words q = Ok ws ->
  rx_completion q ws (cpl_nodata comp st bytes (q_master q) (q_tag q) low) = Ok (g_data (q_gp q), St_OK).
Proof.
  intros q ws comp st bytes low L0 L M T B Wr C St Lo E.
  assert (W : in_word q) by (unfold in_word, g_len in *; repeat split; (assumption || lia)).
  rewrite (cfg_words_ok q W B) in E. apply Ok_inj in E. subst ws. apply cfg_write_completion; auto.
Qed.
Theorem C65_crossing_refuted :
  cfg_words (mkReq (wr 0x103 [1; 2]) 0 0) = AssertFail /\
  cfg_words (mkReq (mkGp C_WRITE 0x103 [1; 2] (Some [BE_ON; BE_OFF]) 2 St_INCOMPLETE) 0 0) = UB.
Proof. split; vm_compute; reflexivity. Qed.
Theorem C65_long_refuted :
  cfg_words (mkReq (wr 0x100 [1; 2; 3; 4; 5; 6; 7; 8]) 0 0) = cfg_words (mkReq (wr 0x100 [1; 2; 3; 4]) 0 0) /\
  rbind (cfg_words (mkReq (wr 0x100 [1; 2; 3; 4; 5; 6; 7; 8]) 0 0)) (fun ws =>
    rx_completion (mkReq (wr 0x100 [1; 2; 3; 4; 5; 6; 7; 8]) 0 0) ws (cpl_nodata 0 0 4 0 0 0)) =
  Ok ([1; 2; 3; 4; 5; 6; 7; 8], St_OK).
Proof. split; vm_compute; reflexivity. Qed.

Print Assumptions C63_request_packet.
Print Assumptions C63_write.
Print Assumptions C63_read_request.
Print Assumptions C63_completion_packet.
Print Assumptions C63_unaligned_refuted.
Print Assumptions C63_short_refuted.
Print Assumptions C63_byte_enable_refuted.
Print Assumptions C63_odd_length_refuted.
Print Assumptions C63_stops_refuted.
Print Assumptions C63_lower_address_refuted.
Print Assumptions C64_read_partial.
Print Assumptions C64_read_memory_partial.
Print Assumptions C64_long_read_refuted.
Print Assumptions C64_swapped_header_refuted.
Print Assumptions C64_crossing_refuted.
Print Assumptions C64_error_refuted.
Print Assumptions C65_request_packet.
Print Assumptions C65_completions.
Print Assumptions C65_other_completion.
Print Assumptions C65_status_refuted.
Print Assumptions C65_crossing_refuted.
Print Assumptions C65_long_refuted.
