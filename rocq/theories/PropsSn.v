(** C99-C101: the CHI slave node (tlm-modules/sn-chi.h). *)
From Coq Require Import Permutation.
From Verif Require Import Base BaseFacts LeFacts TlmModel SnModel SnSpec SnProofs SnProofs2.
Open Scope N_scope.

(** C99: AtomicStore and AtomicLoad with ADD and CLR, in both byte orders, on the
    lanes of the address: memory gets the result, nothing else changes, and a load
    returns the old bytes.  Missing: the other six operations (below). *)
Theorem C99_store_load_partial acc m t st o :
  let q := t_req t in let n := q_len q in
  q_op q = op_base st + aop_code o -> o = A_ADD \/ o = A_CLR -> op_len n ->
  q_addr q mod 64 + n <= 64 -> buffers t -> mem_ok m ->
  acc C_READ (q_addr q) n = true -> acc C_WRITE (q_addr q) n = true ->
  exists m' d,
    exec acc m t = Ok (m', [mkAccess C_READ (q_addr q) n; mkAccess C_WRITE (q_addr q) n], d) /\
    same_outside m m' (q_addr q) n /\ mem_ok m' /\
    atomic_result o n (word (q_big q) (bytes_at m (q_addr q) n))
      (word (q_big q) (lanes (t_data t) (q_addr q mod 64) n))
      (word (q_big q) (bytes_at m' (q_addr q) n)) /\
    (if st then d = None
     else exists d', d = Some d' /\ returns d' m (q_addr q) n /\ addressed q d' /\ d_uc d' = false).
Proof.
  intros q n Op Ho Ln Hin [Hb _] M A1 A2.
  destruct (kinds q o st Op) as (K1 & K2 & K3 & K4).
  rewrite (exec_atomic acc m t K1). unfold handle_atomic. fold q. fold n.
  assert (Hn : n <= 8) by (unfold op_len in Ln; lia). unfold LINE.
  replace (64 <? n) with false by lia. rewrite A1. cbn [negb].
  assert (Hoff : line_off (q_addr q) = q_addr q mod 64) by apply line_off_mod.
  assert (Fx : exists f, afun o (N.to_nat n) = Some f)
    by (destruct Ho as [-> | ->]; eexists; reflexivity).
  destruct Fx as [f F].
  set (dat := rd m (q_addr q) n).
  assert (Ld : length dat = N.to_nat n) by apply rd_length.
  assert (Bd : bytes_ok dat) by (apply rd_bytes; exact M).
  assert (FR : forall a b, a < 2 ^ (8 * n) -> atomic_result o n a b (f a b))
    by (intros a b Hab; apply (afun_result o n f a b F Hab)).
  destruct (store_load_ok t o f Hb) with (dat := dat) as (dat' & E & L' & B' & W);
    fold q; fold n; try assumption.
  { rewrite Hoff. exact Hin. }
  { apply (sub_op q o st Op). }
  { intros a b Hab. rewrite pow_256_2 in *. apply (FR a b Hab). }
  change (length dat' = N.to_nat n) in L'.
  fold q in E, W. rewrite K2, K3. replace (st || negb st) with true by (destruct st; reflexivity).
  rewrite E, A2. cbn [negb].
  assert (AR : atomic_result o n (word (q_big q) dat)
                 (word (q_big q) (lanes (t_data t) (q_addr q mod 64) n)) (word (q_big q) dat')).
  { rewrite W. fold n. rewrite Hoff. apply FR.
    rewrite <- pow_256_2. replace n with (N.of_nat (length dat)) by lia. apply word_bound. exact Bd. }
  destruct st; cbn [rbind rmap].
  - eexists. exists None. split; [reflexivity|]. split; [intros x Hx; apply wr_out; rewrite L'; lia|].
    split; [apply wr_ok; assumption|].
    unfold bytes_at. fold (rd m (q_addr q) n). fold dat.
    fold (rd (wr m (q_addr q) dat' (fun _ => true)) (q_addr q) n).
    rewrite (rd_wr m (q_addr q) dat' n L'). split; [exact AR | reflexivity].
  - destruct (original_ok q m n) as (d & be & E1 & R);
      [rewrite K4; reflexivity | rewrite Hoff; exact Hin | apply N.le_refl |].
    fold n in E1. fold dat in E1. rewrite E1. cbn [rbind].
    eexists. eexists. split; [reflexivity|]. split; [intros x Hx; apply wr_out; rewrite L'; lia|].
    split; [apply wr_ok; assumption|].
    unfold bytes_at. fold (rd m (q_addr q) n). fold dat.
    fold (rd (wr m (q_addr q) dat' (fun _ => true)) (q_addr q) n).
    rewrite (rd_wr m (q_addr q) dat' n L'). split; [exact AR|].
    eexists. split; [reflexivity|]. split; [exact R|].
    split; [repeat split|]. cbn [dat_msg d_uc]. rewrite K1. reflexivity.
Qed.

(** AtomicSwap: the operand replaces the bytes, the old bytes are returned. *)
Theorem C99_swap acc m t :
  let q := t_req t in let n := q_len q in
  q_op q = 56 -> q_addr q mod 64 + n <= 64 -> buffers t ->
  acc C_READ (q_addr q) n = true -> acc C_WRITE (q_addr q) n = true ->
  exists m' d,
    exec acc m t = Ok (m', [mkAccess C_READ (q_addr q) n; mkAccess C_WRITE (q_addr q) n], Some d) /\
    same_outside m m' (q_addr q) n /\
    bytes_at m' (q_addr q) n = lanes (t_data t) (q_addr q mod 64) n /\
    returns d m (q_addr q) n /\ addressed q d /\ d_uc d = false.
Proof.
  intros q n Op Hin [Hb _] A1 A2.
  assert (K1 : is_atomic q = true) by (unfold is_atomic; rewrite Op; reflexivity).
  assert (K2 : is_store q = false) by (unfold is_store; rewrite Op; reflexivity).
  assert (K3 : is_load q = false) by (unfold is_load; rewrite Op; reflexivity).
  assert (K4 : is_compare q = false) by (unfold is_compare; rewrite Op; reflexivity).
  assert (K5 : is_swap q = true) by (unfold is_swap; rewrite Op; reflexivity).
  rewrite (exec_atomic acc m t K1). unfold handle_atomic. fold q. fold n.
  unfold LINE. replace (64 <? n) with false by lia. rewrite A1. cbn [negb]. rewrite K2, K3, K5. cbn [orb].
  assert (Hoff : line_off (q_addr q) = q_addr q mod 64) by apply line_off_mod.
  destruct (original_ok q m n) as (d & be & E1 & R);
    [rewrite K4; reflexivity | rewrite Hoff; exact Hin | apply N.le_refl |].
  fold n in E1. rewrite E1. cbn [rbind rmap].
  rewrite do_swap_ok by (try assumption; fold q; rewrite Hoff; exact Hin). fold q. fold n.
  cbn [rbind]. rewrite A2, Hoff. cbn [negb].
  eexists. eexists. split; [reflexivity|].
  split; [intros x Hx; apply wr_out; rewrite lanes_length; lia|].
  split; [apply (rd_wr m (q_addr q) _ n), lanes_length|]. split; [exact R|].
  split; [repeat split|]. cbn [dat_msg d_uc]. rewrite K1. reflexivity.
Qed.

(** AtomicCompare: when the bytes at the address equal the compare data they are
    replaced by the swap data, otherwise they stay; nothing else changes; the old
    bytes are returned. *)
Theorem C99_compare acc m t :
  let q := t_req t in let n := q_len q in let h := n / 2 in let off := q_addr q mod 64 in
  q_op q = 57 -> cmp_len n -> off mod n = 0 \/ off mod n = h -> buffers t ->
  acc C_READ (q_addr q) n = true -> acc C_WRITE (q_addr q) n = true ->
  exists m' log d,
    exec acc m t = Ok (m', log, Some d) /\
    same_outside m m' (q_addr q) h /\
    (bytes_at m (q_addr q) h = lanes (t_data t) off h ->
       bytes_at m' (q_addr q) h = lanes (t_data t) (other_half off n) h) /\
    (bytes_at m (q_addr q) h <> lanes (t_data t) off h -> forall x, m' x = m x) /\
    returns d m (q_addr q) h /\ addressed q d /\ d_uc d = false.
Proof.
  intros q n h off Op Ln C [Hb _] A1 A2.
  assert (K1 : is_atomic q = true) by (unfold is_atomic; rewrite Op; reflexivity).
  assert (K2 : is_store q = false) by (unfold is_store; rewrite Op; reflexivity).
  assert (K3 : is_load q = false) by (unfold is_load; rewrite Op; reflexivity).
  assert (K4 : is_compare q = true) by (unfold is_compare; rewrite Op; reflexivity).
  assert (K5 : is_swap q = false) by (unfold is_swap; rewrite Op; reflexivity).
  rewrite (exec_atomic acc m t K1). unfold handle_atomic. fold q. fold n.
  unfold LINE. assert (n <= 32) by (unfold cmp_len in Ln; lia).
  replace (64 <? n) with false by lia. rewrite A1. cbn [negb]. rewrite K2, K3, K5. cbn [orb].
  assert (Hoff : line_off (q_addr q) = off) by apply line_off_mod.
  assert (O : off < 64) by (apply N.mod_lt; discriminate).
  destruct (half_bounds off n Ln O C) as [B1 B2].
  assert (Hh : h + h = n) by (unfold h; destruct Ln as [->|[->|[->|[->| ->]]]]; reflexivity).
  destruct (original_ok q m h) as (d & be & E1 & R);
    [rewrite K4; reflexivity | rewrite Hoff; exact B1 | fold n; lia |].
  fold n in E1. rewrite E1. cbn [rbind rmap].
  set (dat := rd m (q_addr q) n) in *.
  assert (Ld : length dat = N.to_nat n) by apply rd_length.
  rewrite do_compare_ok; fold q; fold n; rewrite ?Hoff; try assumption. fold h.
  clear C Ln B1 B2 O. clearbody h off.
  assert (Ef : firstn (N.to_nat h) dat = bytes_at m (q_addr q) h).
  { apply list_nth_eq.
    - rewrite firstn_length, Ld. unfold bytes_at. rewrite map_length, seq_length. lia.
    - intros i Hi. rewrite firstn_length in Hi. change (firstn (N.to_nat h) dat) with (slice 0 (N.to_nat h) dat).
      rewrite TlmFacts.nth_slice by lia. unfold dat. rewrite rd_nth by lia.
      unfold bytes_at. rewrite nth_map_seq by lia. reflexivity. }
  rewrite Ef. cbn [rbind]. rewrite A2. cbn [negb].
  eexists. eexists. eexists. split; [reflexivity|].
  set (l1 := bytes_at m (q_addr q) h) in *.
  assert (Same : forall x, wr m (q_addr q) dat (fun _ => true) x = m x).
  { intros x. unfold wr. rewrite Ld.
    destruct ((q_addr q <=? x) && (x <? q_addr q + N.of_nat (N.to_nat n))) eqn:E; [|reflexivity].
    unfold dat. cbn [andb]. rewrite rd_nth by lia. f_equal. lia. }
  assert (Rest : addressed q (dat_msg q d (Some be)) /\ d_uc (dat_msg q d (Some be)) = false).
  { split; [repeat split|]. cbn [dat_msg d_uc]. rewrite K1. reflexivity. }
  destruct (list_eq_dec N.eq_dec l1 (lanes (t_data t) off h)) as [Eq|Ne].
  - assert (Lx : length (lanes (t_data t) (other_half off n) h ++ skipn (N.to_nat h) dat) = N.to_nat n).
    { rewrite app_length, lanes_length, skipn_length. lia. }
    split.
    + intros x Hx. unfold wr. rewrite Lx.
      destruct ((q_addr q <=? x) && (x <? q_addr q + N.of_nat (N.to_nat n))) eqn:E; [|reflexivity].
      cbn [andb]. rewrite app_nth2 by (rewrite lanes_length; lia). rewrite lanes_length.
      assert (SK : forall k, nth k (skipn (N.to_nat h) dat) 0 = nth (N.to_nat h + k) dat 0).
      { intros k. rewrite <- (firstn_skipn (N.to_nat h) dat) at 2.
        rewrite app_nth2 by (rewrite firstn_length; lia). f_equal. rewrite firstn_length. lia. }
      rewrite SK. unfold dat. rewrite rd_nth by lia. f_equal. lia.
    + split; [|split; [|split; [exact R | exact Rest]]].
      * intros _. apply list_nth_eq.
        { unfold bytes_at. rewrite map_length, seq_length, lanes_length. reflexivity. }
        intros i Hi. unfold bytes_at in Hi |- *. rewrite map_length, seq_length in Hi.
        rewrite nth_map_seq by exact Hi. rewrite wr_in by lia.
        rewrite app_nth1 by (rewrite lanes_length; lia). f_equal. lia.
      * intros F. destruct (F Eq).
  - split; [intros x _; apply Same|].
    split; [intros F; destruct (Ne F)|]. split; [intros _; exact Same|]. split; [exact R | exact Rest].
Qed.

(** A 16-bit load-add in big-endian byte order at lanes 6 and 7: 0x01ff + 0x0002. *)
Definition q_ex (op addr len : N) (big : bool) : sreq := mkSreq op addr len false 0 big 3 17 5 9.
Definition line_ex (l : list (nat * N)) : list N :=
  map (fun i => match find (fun p => Nat.eqb (fst p) i) l with Some (_, v) => v | None => 0 end) (seq 0 64).
Definition mem_ex : mem := fun x => if x =? 70 then 1 else if x =? 71 then 255 else x mod 256.
Example C99_store_load_case :
  match exec (fun _ _ _ => true) mem_ex
          (mkStx (q_ex 48 70 2 true) (line_ex [(7%nat, 2)]) (repeat 255 64) 64) with
  | Ok (m', _, Some d) =>
    bytes_at m' 69 4 = [69; 2; 1; 72] /\ lanes (d_data d) 5 4 = [0; 1; 255; 0]
  | _ => False
  end.
Proof. vm_compute. repeat split. Qed.
Example C99_swap_case :
  match exec (fun _ _ _ => true) mem_ex
          (mkStx (q_ex 56 70 4 false) (line_ex [(6%nat, 10); (7%nat, 11); (8%nat, 12)]) (repeat 255 64) 64) with
  | Ok (m', _, Some d) =>
    bytes_at m' 69 6 = [69; 10; 11; 12; 0; 74] /\ lanes (d_data d) 5 6 = [0; 1; 255; 72; 73; 0]
  | _ => False
  end.
Proof. vm_compute. repeat split. Qed.
(** Compare data in the upper half (lanes 6 and 7), swap data in lanes 4 and 5. *)
Example C99_compare_case :
  match exec (fun _ _ _ => true) mem_ex
          (mkStx (q_ex 57 70 4 false) (line_ex [(4%nat, 33); (5%nat, 44); (6%nat, 1); (7%nat, 255)]) (repeat 255 64) 64) with
  | Ok (m', _, Some d) =>
    bytes_at m' 68 6 = [68; 69; 33; 44; 72; 73] /\ lanes (d_data d) 5 4 = [0; 1; 255; 0]
  | _ => False
  end.
Proof. vm_compute. repeat split. Qed.

(** EOR, SET, SMAX, SMIN, UMAX and UMIN do nothing: the constants of the
    sub-opcodes are written as octal and decimal numbers, and three bits of the
    opcode never match them.  For every operand the memory is left as it was, and
    for every one of the six operations there are operands for which that is not
    the result. *)
Theorem C99_operations_refuted :
  (forall acc m t st o, let q := t_req t in let n := q_len q in
   q_op q = op_base st + aop_code o -> o <> A_ADD -> o <> A_CLR -> op_len n ->
   q_addr q mod 64 + n <= 64 -> buffers t ->
   acc C_READ (q_addr q) n = true -> acc C_WRITE (q_addr q) n = true ->
   exists m' log d, exec acc m t = Ok (m', log, d) /\ forall x, m' x = m x) /\
  (forall o, o <> A_ADD -> o <> A_CLR ->
   exists a b, a < 256 /\ b < 256 /\ ~ atomic_result o 1 a b a).
Proof.
  split.
  - intros acc m t st o q n Op N1 N2 Ln Hin [Hb _] A1 A2.
    destruct (kinds q o st Op) as (K1 & K2 & K3 & K4).
    rewrite (exec_atomic acc m t K1). unfold handle_atomic. fold q. fold n.
    assert (Hn : n <= 8) by (unfold op_len in Ln; lia). unfold LINE.
    replace (64 <? n) with false by lia. rewrite A1. cbn [negb].
    assert (Hoff : line_off (q_addr q) = q_addr q mod 64) by apply line_off_mod.
    set (dat := rd m (q_addr q) n).
    assert (Ld : length dat = N.to_nat n) by apply rd_length.
    assert (Sub : atomic_sub q = aop_code o) by apply (sub_op q o st Op).
    assert (E : store_load t dat = Ok dat).
    { unfold store_load. fold q. fold n. rewrite Sub.
      assert (R : 2 <= aop_code o < 8) by (clear - N1 N2; destruct o; cbn; first [lia | congruence]).
      rewrite !process_other by exact R. destruct (q_big q); [|reflexivity].
      rewrite skipn_length, Hb.
      replace ((64 - N.to_nat (line_off (q_addr q)) <? N.to_nat n)%nat) with false by (rewrite Hoff; lia).
      cbn [rmap rbind]. rewrite firstn_all2 by (rewrite rev_length; lia).
      rewrite skipn_all2 by (rewrite rev_length; lia). rewrite rev_involutive, app_nil_r. reflexivity. }
    assert (Same : forall x, wr m (q_addr q) dat (fun _ => true) x = m x).
    { intros x. unfold wr. rewrite Ld.
      destruct ((q_addr q <=? x) && (x <? q_addr q + N.of_nat (N.to_nat n))) eqn:Ex; [|reflexivity].
      unfold dat. cbn [andb]. rewrite rd_nth by lia. f_equal. lia. }
    rewrite K2, K3. replace (st || negb st) with true by (destruct st; reflexivity).
    rewrite E, A2. cbn [negb]. destruct st; cbn [rbind rmap].
    + do 3 eexists. split; [reflexivity | exact Same].
    + destruct (original_ok q m n) as (d & be & E1 & R);
        [rewrite K4; reflexivity | rewrite Hoff; exact Hin | apply N.le_refl |].
      fold n in E1. fold dat in E1. rewrite E1. cbn [rbind].
      do 3 eexists. split; [reflexivity | exact Same].
  - intros o N1 N2. destruct o; try congruence.
    + exists 0, 1. repeat split. intros [_ H]. specialize (H 0). discriminate H.
    + exists 0, 1. repeat split. intros [_ H]. specialize (H 0). discriminate H.
    + exists 0, 1. repeat split. intros [_ H]. vm_compute in H. discriminate H.
    + exists 1, 0. repeat split. intros [_ H]. vm_compute in H. discriminate H.
    + exists 0, 1. repeat split. intros [_ H]. vm_compute in H. discriminate H.
    + exists 1, 0. repeat split. intros [_ H]. vm_compute in H. discriminate H.
Qed.

(** With the library's own constants Req::AtomicLoad + Req::Atomic::EOR is
    AtomicSwap and Req::AtomicLoad + Req::Atomic::SET is AtomicCompare: an EOR of
    12 and 10 stores 10. *)
Theorem C99_constants_refuted :
  OP_AtomicLoad + SUB_EOR = OP_AtomicSwap /\ OP_AtomicLoad + SUB_SET = OP_AtomicCompare /\
  exists m t, q_op (t_req t) = OP_AtomicLoad + SUB_EOR /\ buffers t /\
    bytes_at m 0 1 = [12] /\ lanes (t_data t) 0 1 = [10] /\
    (exists m' log d, exec (fun _ _ _ => true) m t = Ok (m', log, d) /\ bytes_at m' 0 1 = [10]) /\
    atomic_result A_EOR 1 12 10 6.
Proof.
  split; [reflexivity|]. split; [reflexivity|].
  exists (fun _ => 12), (mkStx (q_ex 56 0 1 false) (line_ex [(0%nat, 10)]) (repeat 255 64) 64).
  split; [reflexivity|]. split; [split; reflexivity|]. split; [reflexivity|]. split; [reflexivity|].
  split; [do 3 eexists; split; reflexivity|].
  split; [reflexivity|]. intros i. change 6 with (N.lxor 12 10). apply N.lxor_spec.
Qed.

(** A compare whose compare data is in the upper half of its window reads and
    writes beyond the window: with a target that ends where the window ends the
    program stops. *)
Theorem C99_compare_extent_refuted :
  exists acc m t, let q := t_req t in
    q_op q = 57 /\ buffers t /\ q_addr q mod 64 mod q_len q = q_len q / 2 /\
    (forall c a n, a + n <= 16 -> acc c a n = true) /\ q_addr q + q_len q / 2 <= 16 /\
    exec acc m t = AssertFail.
Proof.
  exists (fun _ a n => a + n <=? 16), (fun _ => 0),
    (mkStx (q_ex 57 8 16 false) (repeat 0 64) (repeat 255 64) 64).
  cbn [t_req q_ex q_op q_addr q_len]. split; [reflexivity|]. split; [split; reflexivity|].
  split; [reflexivity|]. split; [intros c a n H; apply N.leb_le; exact H|].
  split; [vm_compute; discriminate | reflexivity].
Qed.

(** *** C100: reads and writes *)

(** A read whose window starts a line: memory is left alone, the first bytes of
    the message are those of the window.  Missing: windows elsewhere in a line
    (below). *)
Theorem C100_read_partial acc m t :
  let q := t_req t in let n := q_len q in let a := q_addr q - q_addr q mod n in
  q_op q = 4 \/ q_op q = 17 -> 0 < n <= 64 -> a mod 64 = 0 -> buffers t ->
  acc C_READ a n = true ->
  exists d, exec acc m t = Ok (m, [mkAccess C_READ a n], Some d) /\
    length (d_data d) = 64%nat /\ firstn (N.to_nat n) (d_data d) = bytes_at m a n /\
    d_be d = None /\ addressed q d /\ d_uc d = true /\ d_sep d = (q_op q =? 17).
Proof.
  intros q n a Op Hn Ha [Hb _] A.
  assert (Ea : aligned q = a).
  { unfold aligned, a. fold n. assert (N0 : n <> 0) by lia. clear - N0.
    pose proof (N.div_mod (q_addr q) n N0). set (k := q_addr q / n) in *. set (r := q_addr q mod n) in *.
    clearbody k r. nia. }
  assert (K1 : is_atomic q = false) by (unfold is_atomic; destruct Op as [-> | ->]; reflexivity).
  assert (K2 : is_read q = true) by (unfold is_read; destruct Op as [-> | ->]; reflexivity).
  unfold exec. fold q. unfold slave_win. rewrite K2, K1, Ea. fold n.
  rewrite line_off_mod, Ha. unfold LINE. replace (64 <? 0 + n) with false by lia.
  rewrite A. cbn [negb N.eqb]. eexists. split; [reflexivity|]. cbn [dat_msg d_data d_be d_uc d_sep].
  split; [rewrite overlay_length; rewrite ?rd_length, Hb; lia|].
  split; [rewrite overlay_at0; apply firstn_app_len, rd_length|].
  split; [reflexivity|]. split; [repeat split|]. rewrite K1. split; reflexivity.
Qed.

(** A read of the upper half of a line copies 64 bytes from the middle of a
    64-byte buffer. *)
Theorem C100_read_refuted :
  exists m t, let q := t_req t in
    q_op q = 4 /\ q_len q = 32 /\ q_addr q mod 32 = 0 /\ buffers t /\
    exec (fun _ _ _ => true) m t = UB.
Proof.
  exists (fun _ => 0), (mkStx (q_ex 4 32 32 false) (repeat 0 64) (repeat 0 64) 0).
  cbn [t_req q_ex q_op q_len q_addr]. split; [reflexivity|]. split; [reflexivity|]. split; [reflexivity|].
  split; [split; reflexivity | reflexivity].
Qed.

(** A write: the chunks of the line arrive in any order and complete the request
    with the last one; then every enabled byte from the address to the end of the
    naturally aligned window is stored, every other byte of memory stays, whatever
    the uninitialised buffers held. *)
Definition wlen (n : N) : Prop := n = 1 \/ n = 2 \/ n = 4 \/ n = 8 \/ n = 16 \/ n = 32 \/ n = 64.
Theorem C100_write acc m q jd jb w cs :
  let n := q_len q in let e := q_addr q - q_addr q mod n + n in
  q_op q = 28 \/ q_op q = 29 -> wlen n -> length jd = 64%nat -> length jb = 64%nat ->
  (0 < w)%nat -> (64 mod w = 0)%nat -> line_chunks w cs ->
  acc C_WRITE (q_addr q) (e - q_addr q) = true ->
  exists t0 t m', new_txn q jd jb = Ok t0 /\ copy_all t0 cs = Ok t /\ all_received t = true /\
    (forall k tk, (k < length cs)%nat -> copy_all t0 (firstn k cs) = Ok tk -> all_received tk = false) /\
    exec acc m t = Ok (m', [mkAccess C_WRITE (q_addr q) (e - q_addr q)], None) /\
    forall x, exists v en,
      line_byte w cs (N.to_nat (x mod 64)) = Some (v, en) /\
      m' x = if (q_addr q <=? x) && (x <? e) && en then v else m x.
Proof.
  intros n e Op Ln Lj1 Lj2 Hw Dv LC A.
  assert (N0 : n <> 0) by (unfold wlen in Ln; lia).
  assert (K1 : is_atomic q = false) by (unfold is_atomic; destruct Op as [-> | ->]; reflexivity).
  assert (K2 : is_read q = false) by (unfold is_read; destruct Op as [-> | ->]; reflexivity).
  assert (K3 : is_write q = true) by (unfold is_write; destruct Op as [-> | ->]; reflexivity).
  destruct (line_chunks_facts w cs Hw Dv LC) as (F1 & F2 & F3 & F4 & F5).
  set (t0 := mkStx q jd jb 0).
  assert (B0 : buffers t0) by (split; assumption).
  destruct (copy_all_ok w cs Hw t0 B0 F1 F2 F3) as (t & E & Rq & [B1 B2] & Cnt & P).
  assert (Ew : slave_win q = (q_addr q, e - q_addr q)).
  { unfold slave_win. rewrite K2. f_equal. unfold aligned. fold n. unfold e.
    pose proof (N.div_mod (q_addr q) n N0). pose proof (N.mod_lt (q_addr q) n N0).
    set (k := q_addr q / n) in *. set (r := q_addr q mod n) in *. clearbody k r. clear - H H0. nia. }
  (* the window is inside the line *)
  assert (Hin : q_addr q mod 64 + (e - q_addr q) <= 64 /\ q_addr q <= e).
  { unfold e. pose proof (N.div_mod (q_addr q) 64 ltac:(discriminate)) as D1.
    pose proof (N.mod_lt (q_addr q) 64 ltac:(discriminate)) as M1.
    pose proof (N.div_mod (q_addr q) n N0) as D2. pose proof (N.mod_lt (q_addr q) n N0) as M2.
    set (a := q_addr q) in *. set (k1 := a / 64) in *. set (r1 := a mod 64) in *.
    set (k2 := a / n) in *. set (r2 := a mod n) in *. clearbody a k1 r1 k2 r2. clear - D1 M1 D2 M2 Ln.
    clearbody n. destruct Ln as [->|[->|[->|[->|[->|[->| ->]]]]]]; lia. }
  destruct Hin as [Hin He].
  exists t0, t. eexists. split.
  { unfold new_txn. fold n. replace (n =? 0) with false by lia. rewrite andb_false_r. reflexivity. }
  split; [exact E|]. split.
  { unfold all_received. rewrite Cnt, F4. reflexivity. }
  split.
  { intros k tk Hk Ek. destruct (copy_all_ok w (firstn k cs) Hw t0 B0) as (t1 & E1 & _ & _ & C1 & _).
    - rewrite <- (firstn_skipn k cs) in F1. apply Forall_app in F1. apply F1.
    - rewrite <- (firstn_skipn k cs), map_app in F2. clear - F2.
      induction (map c_id (firstn k cs)) as [|x l IH]; [constructor|].
      cbn [app] in F2. inversion F2; subst. constructor; [|apply IH; assumption].
      intros G. apply H1. apply in_or_app. left. exact G.
    - rewrite <- (firstn_skipn k cs) in F3. apply Forall_app in F3. apply F3.
    - rewrite E1 in Ek. apply Ok_inj in Ek. subst tk. unfold all_received. rewrite C1.
      cbn [t_cnt t0]. rewrite firstn_length. unfold LINE. apply N.eqb_neq.
      replace (Nat.min k (length cs)) with k by lia. clear - Hk F4 Hw. nia. }
  split.
  { unfold exec. rewrite Rq. cbn [t_req t0]. rewrite Ew, K1, K2, K3, line_off_mod. unfold LINE.
    replace (64 <? q_addr q mod 64 + (e - q_addr q)) with false by lia. rewrite A. cbn [negb]. reflexivity. }
  intros x. set (i := N.to_nat (x mod 64)).
  assert (Hi : (i < 64)%nat) by (unfold i; pose proof (N.mod_lt x 64 ltac:(discriminate)); lia).
  destruct (line_byte_some w cs i (F5 i Hi)) as (v & en & Eb).
  exists v, en. split; [exact Eb|]. specialize (P i Hi). rewrite Eb in P. destruct P as [P1 P2].
  unfold wr.
  assert (Ls : length (slice (N.to_nat (q_addr q mod 64)) (N.to_nat (e - q_addr q)) (t_data t)) = N.to_nat (e - q_addr q))
    by (unfold slice; rewrite firstn_length, skipn_length, B1; clear - Hin; lia).
  rewrite Ls.
  replace (x <? q_addr q + N.of_nat (N.to_nat (e - q_addr q))) with (x <? e) by (clear - He; lia).
  destruct ((q_addr q <=? x) && (x <? e)) eqn:W; [|reflexivity]. cbn [andb].
  assert (Ei : (N.to_nat (q_addr q mod 64) + N.to_nat (x - q_addr q))%nat = i).
  { unfold i. apply andb_true_iff in W. destruct W as [W1 W2]. apply N.leb_le in W1. apply N.ltb_lt in W2.
    assert (Ex : x mod 64 = q_addr q mod 64 + (x - q_addr q)).
    { symmetry. apply (N.mod_unique x 64 (q_addr q / 64)).
      - clear - W1 W2 Hin. lia.
      - pose proof (N.div_mod (q_addr q) 64 ltac:(discriminate)). lia. }
    rewrite Ex. lia. }
  rewrite Ei, P2, TlmFacts.nth_slice by (clear - W; lia). rewrite Ei, P1.
  destruct en; reflexivity.
Qed.
Definition chunk_ex (id : N) (f : nat -> N) (be : list N) : chunk :=
  mkChunk 0 id (map f (seq 0 32)) be.
(** A 16-byte write at 0x12c, two chunks in reverse order, byte 45 disabled. *)
Example C100_write_case :
  match rbind (new_txn (q_ex 28 300 16 false) (repeat 99 64) (repeat 99 64)) (fun t0 =>
        rbind (copy_all t0 [chunk_ex 1 (fun i => 100 + N.of_nat i) (map (fun i => if Nat.eqb i 13 then 0 else 255) (seq 0 32));
                            chunk_ex 0 (fun i => 1 + N.of_nat i) []]) (exec (fun _ _ _ => true) (fun _ => 7))) with
  | Ok (m', log, _) => bytes_at m' 299 7 = [7; 112; 7; 114; 115; 7; 7] /\ log = [mkAccess C_WRITE 300 4]
  | _ => False
  end.
Proof. vm_compute. repeat split. Qed.
Example C100_read_case :
  match exec (fun _ _ _ => true) (fun x => x) (mkStx (q_ex 17 130 4 false) (repeat 99 64) (repeat 99 64) 0) with
  | Ok (_, _, Some d) => firstn 6 (d_data d) = [128; 129; 130; 131; 99; 99] /\ d_sep d = true
  | _ => False
  end.
Proof. vm_compute. repeat split. Qed.

(** In CHI the DataID is bits 5 and 4 of the address of a packet (2.10.4): the
    packets of 32 bytes are numbered 0 and 2.  With these numbers the second
    packet is dropped and the write never completes. *)
Theorem C100_data_id_refuted :
  exists t0 c0 c2, buffers t0 /\ t_cnt t0 = 0 /\ c_id c0 = 0 /\ c_id c2 = 2 /\
    length (c_data c0) = 32%nat /\ length (c_data c2) = 32%nat /\
    exists t, copy_all t0 [c0; c2] = Ok t /\ all_received t = false /\ lanes (t_data t) 32 32 = lanes (t_data t0) 32 32.
Proof.
  exists (mkStx (q_ex 29 0 64 false) (repeat 99 64) (repeat 99 64) 0),
    (chunk_ex 0 (fun _ => 1) []), (chunk_ex 2 (fun _ => 2) []).
  split; [split; reflexivity|]. split; [reflexivity|]. split; [reflexivity|]. split; [reflexivity|].
  split; [reflexivity|]. split; [reflexivity|]. eexists. split; [reflexivity|]. split; reflexivity.
Qed.

(** *** C101: requests and their answers *)

(** In every execution: requests are taken in the order of arrival; the answers on
    the response channel are, in that order, exactly those owed to the requests
    taken so far (apart from retries, which are exactly the two messages for every
    request sent back); every request taken is waiting, waiting for its data,
    queued or done, once; every request done has had its data message, in order;
    the identifiers are shared out without overlap. *)
Theorem C101_answers acc m ls s : sn_run acc (sn_init m) ls = Ok s ->
  (exists started, taken false ls = started ++ map t_req (s_reqq s) /\
     map rsp_head (filter (fun r => negb (is_retry_rsp r)) (s_rsp s)) = flat_map heads started /\
     Permutation started (map t_req (map snd (s_txn s)) ++ map t_req (s_txq s) ++ s_done s)) /\
  map rsp_head (filter is_retry_rsp (s_rsp s)) =
    flat_map (fun q => [(R_RetryAck, q_src q, q_txn q); (R_PCrdGrant, q_src q, q_txn q)]) (retried false ls) /\
  map dat_head (s_dat s) =
    flat_map (fun q => if owes_data q then [(q_retnid q, q_rettxn q, q_src q, q_txn q)] else []) (s_done s) /\
  NoDup (map fst (s_txn s)) /\ Forall (fun id => id < 256) (map fst (s_txn s)).
Proof.
  intros H. destruct (run_inv acc ls (sn_init m) s [] [] (sinv_init m) H) as [Hf Hr Hi Hd].
  split; [exact Hf|]. split; [exact Hr|]. split; [exact Hd|].
  assert (ND : NoDup (s_free s ++ map fst (s_txn s)))
    by (apply (Permutation_NoDup (Permutation_sym Hi)), of_nat_seq_nodup).
  split.
  - induction (s_free s) as [|x l IH]; [exact ND|]. cbn [app] in *. apply NoDup_cons_iff in ND.
    clear - ND. destruct ND as [_ ND]. revert ND. induction l as [|y l IHl]; [auto|].
    cbn [app]. intros ND. apply NoDup_cons_iff in ND. apply IHl, ND.
  - apply Forall_forall. intros id Hid.
    assert (G : In id (map N.of_nat (seq 0 256))).
    { apply (Permutation_in _ Hi). apply in_or_app. right. exact Hid. }
    apply in_map_iff in G. destruct G as (j & <- & Hj). apply in_seq in Hj. clear - Hj. lia.
Qed.

(** The DBID of an answer is not in use and leads the data to this request; the
    node holds back a request only while 256 others wait for their data. *)
Theorem C101_dbid acc m ls s t rest :
  sn_run acc (sn_init m) ls = Ok s -> s_reqq s = t :: rest ->
  (exists k, answer (t_req t) = [k] /\ (k = R_DBIDResp \/ k = R_CompDBIDResp)) ->
  match s_free s with
  | [] => order s = s /\ length (s_txn s) = 256%nat
  | id :: _ =>
    find_txn id (s_txn s) = None /\ find_txn id (s_txn (order s)) = Some t /\ s_reqq (order s) = rest /\
    exists k, s_rsp (order s) = s_rsp s ++ [mkSrsp k (q_src (t_req t)) (q_txn (t_req t)) id]
  end.
Proof.
  intros H Q (k & An & Kk). destruct (run_inv acc ls (sn_init m) s [] [] (sinv_init m) H) as [_ _ Hi _].
  assert (O : exists k, order s = grant s t rest k).
  { rewrite answer_alt in An. unfold order. rewrite Q. destruct (is_read (t_req t)).
    - destruct (wants_receipt (t_req t)); [|discriminate An]. injection An as <-. destruct Kk; discriminate.
    - destruct (is_atomic (t_req t) && negb (is_store (t_req t))); [eexists; reflexivity|].
      destruct (is_cmo (t_req t)); [|eexists; reflexivity].
      injection An as <-. destruct Kk; discriminate. }
  destruct O as [k' O]. rewrite O. unfold grant. destruct (s_free s) as [|id free] eqn:Fr.
  - split; [reflexivity|]. apply Permutation_length in Hi. cbn [app] in Hi.
    rewrite !map_length, seq_length in Hi. exact Hi.
  - assert (NI : ~ In id (map fst (s_txn s))).
    { assert (ND : NoDup ((id :: free) ++ map fst (s_txn s)))
        by (apply (Permutation_NoDup (Permutation_sym Hi)), of_nat_seq_nodup).
      cbn [app] in ND. apply NoDup_cons_iff in ND. intros G. apply (proj1 ND). apply in_or_app. right. exact G. }
    assert (FN : forall l, ~ In id (map fst l) -> find_txn id l = None).
    { clear. induction l as [|[i x] l IH]; intros N; [reflexivity|]. cbn [find_txn map fst] in *.
      replace (i =? id) with false; [apply IH; intros G; apply N; right; exact G|].
      symmetry. apply N.eqb_neq. intros G. apply N. left. exact G. }
    cbn [s_txn s_reqq s_rsp]. split; [apply FN, NI|]. split.
    + assert (FA : forall l, find_txn id l = None -> find_txn id (l ++ [(id, t)]) = Some t).
      { clear. induction l as [|[i x] l IH]; intros N; cbn [app find_txn] in *.
        - rewrite N.eqb_refl. reflexivity.
        - destruct (i =? id); [discriminate N | apply IH, N]. }
      apply FA, FN, NI.
    + split; [reflexivity|]. exists k'. reflexivity.
Qed.

(** Data with an identifier changes only the request that was given it. *)
Theorem C101_data s c s' id : rxdat s c = Ok s' -> id <> c_txn c ->
  find_txn id (s_txn s') = find_txn id (s_txn s).
Proof.
  intros H Ne. unfold rxdat in H. destruct (find_txn (c_txn c) (s_txn s)) as [t|] eqn:F.
  2: { apply Ok_inj in H. rewrite <- H. reflexivity. }
  destruct (copy_chunk t c) as [t'| | |]; cbn [rbind] in H; try discriminate H.
  destruct (find_split _ _ _ F) as (a & b & El & Na).
  assert (G : forall x, find_txn id (a ++ (c_txn c, x) :: b) = find_txn id (a ++ b)).
  { intros x. clear - Ne. induction a as [|[i y] a IH]; cbn [app find_txn].
    - replace (c_txn c =? id) with false by (symmetry; apply N.eqb_neq; congruence). reflexivity.
    - rewrite IH. reflexivity. }
  destruct (all_received t'); apply Ok_inj in H; rewrite <- H; cbn [s_txn]; rewrite El.
  - rewrite del_split by exact Na. rewrite G. reflexivity.
  - rewrite set_split by exact Na. rewrite !G. reflexivity.
Qed.

(** A retried request, an atomic load, a read and a cache maintenance request. *)
Definition q_r (op txn : N) (retry : bool) (ord : N) : sreq := mkSreq op 0 64 retry ord false 3 txn 5 (txn + 100).
Definition j64 : list N := repeat 99 64.
Definition run_ex : list slabel :=
  [LReq (q_r 4 1 true 1) j64 j64; LReq (q_r 56 2 false 0) j64 j64; LOrder; LReq (q_r 4 1 false 1) j64 j64;
   LReq (q_r 10 3 false 0) j64 j64; LOrder; LOrder; LDat (mkChunk 0 0 (repeat 5 64) []); LExec; LExec].
Example C101_answers_case :
  match sn_run (fun _ _ _ => true) (sn_init (fun x => x)) run_ex with
  | Ok s =>
    map rsp_head (s_rsp s) =
      [(R_RetryAck, 3, 1); (R_PCrdGrant, 3, 1); (R_DBIDResp, 3, 2); (R_ReadReceipt, 3, 1); (R_Comp, 3, 3)] /\
    map d_txn (s_dat s) = [101; 102] /\ bytes_at (s_mem s) 62 4 = [5; 5; 64; 65]
  | _ => False
  end.
Proof. vm_compute. repeat split. Qed.

(** PrefetchTgt (0x3a) has neither response nor data in CHI.  The node answers it
    with CompDBIDResp and keeps an identifier for data that does not come: after
    256 of them a write is not answered any more. *)
Theorem C101_prefetch_refuted :
  exists ls s q, Forall (fun l => match l with LReq p _ _ => q_op p = 58 | LOrder => True | _ => False end) ls /\
    sn_run (fun _ _ _ => true) (sn_init (fun _ => 0)) (ls ++ [LReq q [] []]) = Ok s /\
    q_op q = 29 /\ order s = s /\ run_tx (fun _ _ _ => true) s = Ok s /\
    existsb (fun r => rs_txn r =? q_txn q) (s_rsp s) = false.
Proof.
  exists (concat (repeat [LReq (q_r 58 1 false 0) [] []; LOrder] 256)).
  eexists. exists (q_r 29 2 false 0). split.
  - apply Forall_forall. intros l Hl. apply in_concat in Hl. destruct Hl as (x & Hx & Hl).
    apply repeat_spec in Hx. subst x. destruct Hl as [<- | [<- | []]]; [reflexivity | exact I].
  - split; [vm_compute; reflexivity|]. split; [reflexivity|]. split; [vm_compute; reflexivity|].
    split; vm_compute; reflexivity.
Qed.

Print Assumptions C99_store_load_partial.
Print Assumptions C99_swap.
Print Assumptions C99_compare.
Print Assumptions C99_operations_refuted.
Print Assumptions C99_constants_refuted.
Print Assumptions C99_compare_extent_refuted.
Print Assumptions C100_read_partial.
Print Assumptions C100_read_refuted.
Print Assumptions C100_write.
Print Assumptions C100_data_id_refuted.
Print Assumptions C101_answers.
Print Assumptions C101_dbid.
Print Assumptions C101_data.
Print Assumptions C101_prefetch_refuted.
