(** Lemmas about the model of the CHI slave node: bytes, reads, writes, atomics. *)
From Coq Require Import Permutation.
From Verif Require Import Base BaseFacts LeFacts TlmModel SnModel SnSpec.
From Verif Require CachelineProofs TlmFacts QdmaBits.
Open Scope N_scope.

Lemma line_off_mod a : line_off a = a mod 64.
Proof. unfold line_off, LINE. change (64 - 1) with (N.ones 6). rewrite N.land_ones. reflexivity. Qed.

Lemma word_le_dec l : word_le l = le_dec l.
Proof.
  induction l as [|b l IH]; [reflexivity|]. rewrite QdmaBits.le_dec_cons. cbn [word_le]. rewrite IH. reflexivity.
Qed.

Lemma nth_map_seq {A} (f : nat -> A) n i d : (i < n)%nat -> nth i (map f (seq 0 n)) d = f i.
Proof.
  intros H. rewrite (nth_indep _ d (f 0%nat)) by (rewrite map_length, seq_length; exact H).
  rewrite map_nth. rewrite seq_nth by exact H. reflexivity.
Qed.

Lemma list_nth_eq (a b : list N) : length a = length b ->
  (forall i, (i < length a)%nat -> nth i a 0 = nth i b 0) -> a = b.
Proof. intros L H. apply nth_ext with 0 0; assumption. Qed.

Lemma rd_length m a n : length (rd m a n) = N.to_nat n.
Proof. unfold rd. rewrite map_length, seq_length. reflexivity. Qed.
Lemma rd_nth m a n i : (i < N.to_nat n)%nat -> nth i (rd m a n) 0 = m (a + N.of_nat i).
Proof. intros H. unfold rd. rewrite nth_map_seq by exact H. reflexivity. Qed.
Lemma rd_bytes m a n : mem_ok m -> bytes_ok (rd m a n).
Proof.
  intros M. unfold rd, bytes_ok. apply Forall_map. apply Forall_forall. intros i _. apply M.
Qed.

Lemma wr_in m a d x : a <= x -> x < a + N.of_nat (length d) ->
  wr m a d (fun _ => true) x = nth (N.to_nat (x - a)) d 0.
Proof.
  intros H1 H2. unfold wr. replace (a <=? x) with true by lia.
  replace (x <? a + N.of_nat (length d)) with true by lia. reflexivity.
Qed.
Lemma wr_out m a d be x : x < a \/ a + N.of_nat (length d) <= x -> wr m a d be x = m x.
Proof.
  intros H. unfold wr. replace ((a <=? x) && (x <? a + N.of_nat (length d))) with false by lia. reflexivity.
Qed.
Lemma rd_wr m a d n : length d = N.to_nat n -> rd (wr m a d (fun _ => true)) a n = d.
Proof.
  intros L. apply list_nth_eq; [rewrite rd_length; lia|].
  intros i Hi. rewrite rd_length in Hi. rewrite rd_nth by exact Hi.
  rewrite wr_in by lia. f_equal. lia.
Qed.
Lemma wr_ok m a d be : mem_ok m -> bytes_ok d -> mem_ok (wr m a d be).
Proof.
  intros M D x. unfold wr.
  destruct ((a <=? x) && (x <? a + N.of_nat (length d)) && be (N.to_nat (x - a))) eqn:E; [|apply M].
  unfold bytes_ok in D. rewrite Forall_forall in D. apply D. apply nth_In. lia.
Qed.

Lemma bytes_firstn n l : bytes_ok l -> bytes_ok (firstn n l).
Proof.
  intros B. rewrite <- (firstn_skipn n l) in B. unfold bytes_ok in *. apply Forall_app in B. apply B.
Qed.
Lemma bytes_skipn n l : bytes_ok l -> bytes_ok (skipn n l).
Proof.
  intros B. rewrite <- (firstn_skipn n l) in B. unfold bytes_ok in *. apply Forall_app in B. apply B.
Qed.
Lemma bytes_slice p n l : bytes_ok l -> bytes_ok (slice p n l).
Proof. intros B. apply bytes_firstn, bytes_skipn, B. Qed.
Lemma bytes_rev l : bytes_ok l -> bytes_ok (rev l).
Proof. unfold bytes_ok. intros B. apply Forall_rev. exact B. Qed.

Lemma lanes_slice l off n : off + n <= N.of_nat (length l) ->
  lanes l off n = slice (N.to_nat off) (N.to_nat n) l.
Proof.
  intros H. apply list_nth_eq.
  - unfold lanes, slice. rewrite map_length, seq_length, firstn_length, skipn_length. lia.
  - intros i Hi. unfold lanes in Hi |- *. rewrite map_length, seq_length in Hi.
    rewrite nth_map_seq by exact Hi. rewrite TlmFacts.nth_slice by exact Hi. reflexivity.
Qed.

(** *** Operations on values *)
Lemma pow_256_2 n : 256 ^ n = 2 ^ (8 * n).
Proof. rewrite N.pow_mul_r. reflexivity. Qed.

Lemma ldiff_bound a b k : a < 2 ^ k -> N.ldiff a b < 2 ^ k.
Proof.
  intros H. apply N.le_lt_trans with a; [|exact H].
  pose proof (N.add_nocarry_lt_pow2) as _.
  assert (E : a = N.lor (N.land a b) (N.ldiff a b)) by (rewrite N.lor_comm; symmetry; apply N.lor_ldiff_and).
  assert (Z : N.land (N.land a b) (N.ldiff a b) = 0).
  { apply N.bits_inj_0. intros i. rewrite !N.land_spec, N.ldiff_spec.
    destruct (N.testbit a i), (N.testbit b i); reflexivity. }
  rewrite <- N.lxor_lor in E by exact Z. rewrite <- N.add_nocarry_lxor in E by exact Z. lia.
Qed.

(** The operations whose sub-opcode is recognised. *)
Definition afun (o : aop) (n : nat) : option (N -> N -> N) :=
  match o with
  | A_ADD => Some (at_add n)
  | A_CLR => Some at_clr
  | _ => None
  end.

Lemma afun_result o n f a b : afun o (N.to_nat n) = Some f -> a < 2 ^ (8 * n) -> atomic_result o n a b (f a b).
Proof.
  intros F A. destruct o; cbn [afun] in F; try discriminate F; injection F as <-; unfold atomic_result.
  - unfold at_add. rewrite N2Nat.id, pow_256_2.
    assert (P : 2 ^ (8 * n) <> 0) by (apply N.pow_nonzero; discriminate).
    split; [apply N.mod_lt; exact P|].
    exists ((a + b) / 2 ^ (8 * n)). rewrite (N.div_mod (a + b) _ P) at 1. lia.
  - split; [apply ldiff_bound; exact A|]. intros i. apply N.ldiff_spec.
Qed.

Lemma do_op_ok f dat opd n : op_len n -> length dat = N.to_nat n -> (N.to_nat n <= length opd)%nat ->
  do_op f dat opd n =
  Ok (le_enc (N.to_nat n) (f (le_dec dat) (le_dec (firstn (N.to_nat n) opd)))).
Proof.
  intros L D O. unfold do_op.
  replace (existsb (N.eqb n) [1; 2; 4; 8]) with true
    by (destruct L as [->|[->|[->| ->]]]; reflexivity).
  replace ((length opd <? N.to_nat n)%nat) with false by lia.
  rewrite (firstn_all2 dat) by lia. rewrite (skipn_all2 dat) by lia. rewrite app_nil_r. reflexivity.
Qed.

Lemma process_ok o f dat opd n : afun o (N.to_nat n) = Some f -> op_len n ->
  length dat = N.to_nat n -> (N.to_nat n <= length opd)%nat ->
  process (aop_code o) dat opd n =
  Ok (le_enc (N.to_nat n) (f (le_dec dat) (le_dec (firstn (N.to_nat n) opd)))).
Proof.
  intros F L D O. destruct o; cbn [afun] in F; try discriminate F; injection F as <-;
    unfold process; cbn [aop_code].
  - change (0 =? SUB_ADD) with true. cbv iota. apply do_op_ok; assumption.
  - change (1 =? SUB_ADD) with false. change (1 =? SUB_CLR) with true. cbv iota. apply do_op_ok; assumption.
Qed.

(** The sub-opcodes from 2 to 7 select nothing. *)
Lemma process_other sub dat opd n : 2 <= sub < 8 -> process sub dat opd n = Ok dat.
Proof.
  intros H. assert (C : sub = 2 \/ sub = 3 \/ sub = 4 \/ sub = 5 \/ sub = 6 \/ sub = 7) by lia.
  destruct C as [->|[->|[->|[->|[->| ->]]]]]; reflexivity.
Qed.

Lemma word_bound big l : bytes_ok l -> word big l < 256 ^ N.of_nat (length l).
Proof.
  intros B. unfold word. rewrite word_le_dec. destruct big.
  - rewrite <- (rev_length l). apply le_dec_bound, bytes_rev, B.
  - apply le_dec_bound, B.
Qed.

Lemma store_load_ok t o f : let q := t_req t in let n := q_len q in
  length (t_data t) = 64%nat -> line_off (q_addr q) + n <= 64 ->
  atomic_sub q = aop_code o -> afun o (N.to_nat n) = Some f -> op_len n ->
  forall dat, length dat = N.to_nat n -> bytes_ok dat ->
  (forall a b, a < 256 ^ n -> f a b < 256 ^ n) ->
  exists dat', store_load t dat = Ok dat' /\ length dat' = N.to_nat n /\ bytes_ok dat' /\
    word (q_big q) dat' =
    f (word (q_big q) dat) (word (q_big q) (lanes (t_data t) (line_off (q_addr q)) n)).
Proof.
  intros q n L64 Hin Sub F Ln dat Ld Bd Fb. unfold store_load. fold q. fold n. rewrite Sub.
  set (opd := skipn (N.to_nat (line_off (q_addr q))) (t_data t)).
  assert (Lo : (N.to_nat n <= length opd)%nat) by (unfold opd; rewrite skipn_length; lia).
  assert (Sl : lanes (t_data t) (line_off (q_addr q)) n = firstn (N.to_nat n) opd)
    by (apply lanes_slice; rewrite L64; exact Hin).
  rewrite Sl. destruct (q_big q).
  - replace ((length opd <? N.to_nat n)%nat) with false by lia.
    assert (Lf : length (firstn (N.to_nat n) opd) = N.to_nat n) by (rewrite firstn_length; lia).
    rewrite (process_ok o f) by
      (assumption || (rewrite rev_length; exact Ld) || (rewrite app_length, rev_length, Lf; lia)).
    unfold rmap, rbind. eexists. split; [reflexivity|].
    set (v := le_enc (N.to_nat n) _).
    assert (Lv : length v = N.to_nat n) by apply le_enc_length.
    rewrite (firstn_all2 v) by lia. rewrite (skipn_all2 v) by lia. rewrite app_nil_r.
    split; [rewrite rev_length; exact Lv|].
    split; [apply bytes_rev, le_enc_bytes|].
    unfold word. rewrite rev_involutive, !word_le_dec. unfold v.
    rewrite le_dec_enc, N2Nat.id. rewrite firstn_app_len by (rewrite rev_length; exact Lf).
    apply N.mod_small. apply Fb.
    replace n with (N.of_nat (length (rev dat))) by (rewrite rev_length; lia).
    apply le_dec_bound, bytes_rev, Bd.
  - rewrite (process_ok o f) by assumption. eexists. split; [reflexivity|].
    split; [apply le_enc_length|]. split; [apply le_enc_bytes|].
    unfold word. rewrite !word_le_dec, le_dec_enc, N2Nat.id.
    apply N.mod_small. apply Fb. replace n with (N.of_nat (length dat)) by lia. apply le_dec_bound, Bd.
Qed.

(** *** The data message with the original value *)
Lemma original_ok q m n : n = (if is_compare q then q_len q / 2 else q_len q) ->
  line_off (q_addr q) + n <= 64 -> n <= q_len q ->
  exists d be, original q (rd m (q_addr q) (q_len q)) = Ok (d, be) /\
  returns (dat_msg q d (Some be)) m (q_addr q) n.
Proof.
  intros Hn Hin Hle. unfold original. rewrite <- Hn. unfold LINE.
  replace (64 <? n) with false by lia. replace (64 <? line_off (q_addr q) + n) with false by lia.
  eexists. eexists. split; [reflexivity|].
  set (off := N.to_nat (line_off (q_addr q))).
  set (dd := firstn (N.to_nat n) (rd m (q_addr q) (q_len q))).
  assert (Ld : length dd = N.to_nat n) by (unfold dd; rewrite firstn_length, rd_length; lia).
  exists (overlay off (repeat BE_ON (N.to_nat n)) (repeat BE_OFF 64)).
  unfold dat_msg; cbn [d_be d_data]. split; [reflexivity|].
  assert (E64 : forall v : N, length (repeat v 64) = 64%nat) by (intros; apply repeat_length).
  split; [rewrite overlay_length; rewrite ?E64; unfold off; lia|].
  split; [rewrite overlay_length; rewrite ?E64, ?repeat_length; unfold off; lia|].
  intros i Hi. cbv zeta.
  set (inside := (q_addr q mod 64 <=? N.of_nat i) && (N.of_nat i <? q_addr q mod 64 + n)).
  rewrite !CachelineProofs.overlay_nth by (rewrite ?E64, ?repeat_length; unfold off; lia).
  rewrite repeat_length, Ld.
  assert (Ei : (off <=? i)%nat && (i <? off + N.to_nat n)%nat = inside).
  { unfold inside, off. rewrite <- line_off_mod. lia. }
  rewrite Ei. unfold inside in *.
  assert (Z : forall v, nth i (repeat v 64) 0 = v).
  { intros v. rewrite (nth_indep _ 0 v) by (rewrite E64; exact Hi). apply nth_repeat. }
  rewrite !Z.
  destruct ((q_addr q mod 64 <=? N.of_nat i) && (N.of_nat i <? q_addr q mod 64 + n)) eqn:E;
    (split; [|try reflexivity]).
  - unfold dd. replace (nth (i - off) (firstn (N.to_nat n) (rd m (q_addr q) (q_len q))) 0)
      with (nth (i - off) (slice 0 (N.to_nat n) (rd m (q_addr q) (q_len q))) 0) by reflexivity.
    assert (Hio : (i - off < N.to_nat n)%nat) by (unfold off; rewrite line_off_mod; lia).
    rewrite TlmFacts.nth_slice by exact Hio. rewrite rd_nth by lia. f_equal.
    unfold off. rewrite line_off_mod. lia.
  - assert (Hio : (i - off < N.to_nat n)%nat) by (unfold off; rewrite line_off_mod; lia).
    rewrite (nth_indep _ 0 BE_ON) by (rewrite repeat_length; exact Hio). apply nth_repeat.
  - reflexivity.
Qed.

(** *** Swap and compare *)
Lemma do_swap_ok t : let q := t_req t in length (t_data t) = 64%nat ->
  line_off (q_addr q) + q_len q <= 64 ->
  do_swap t = Ok (lanes (t_data t) (line_off (q_addr q)) (q_len q)).
Proof.
  intros q L H. unfold do_swap. fold q. unfold LINE.
  replace (64 <? line_off (q_addr q) + q_len q) with false by lia.
  rewrite lanes_slice by (rewrite L; exact H). reflexivity.
Qed.

Lemma lanes_length l off n : length (lanes l off n) = N.to_nat n.
Proof. unfold lanes. rewrite map_length, seq_length. reflexivity. Qed.

Lemma swap_off_ok q : let off := line_off (q_addr q) in let n := q_len q in
  n <> 0 -> n mod 2 = 0 -> (off mod n = 0 \/ off mod n = n / 2) -> swap_off q = Ok (other_half off n).
Proof.
  intros off n N0 Even C. unfold swap_off. fold off n. unfold other_half.
  replace (n =? 0) with false by lia.
  destruct C as [E|E]; rewrite E.
  - rewrite N.eqb_refl, !N.sub_0_r. reflexivity.
  - assert (0 < n / 2) by (pose proof (N.div_mod n 2); lia).
    replace (n / 2 =? 0) with false by lia.
    pose proof (N.mod_le off n N0). replace (off <? n / 2) with false by lia.
    f_equal. lia.
Qed.

Lemma half_bounds off n : cmp_len n -> off < 64 -> (off mod n = 0 \/ off mod n = n / 2) ->
  off + n / 2 <= 64 /\ other_half off n + n / 2 <= 64.
Proof.
  intros Hn Ho C. unfold other_half. pose proof (N.div_mod off n ltac:(unfold cmp_len in Hn; lia)) as D.
  destruct Hn as [->|[->|[->|[->| ->]]]];
    match goal with |- context [?n / 2] => let h := eval vm_compute in (n / 2) in change (n / 2) with h in * end;
    set (k := off / _) in *; clearbody k; lia.
Qed.

Lemma do_compare_ok t dat : let q := t_req t in let off := line_off (q_addr q) in let n := q_len q in
  length (t_data t) = 64%nat -> cmp_len n -> (off mod n = 0 \/ off mod n = n / 2) ->
  length dat = N.to_nat n ->
  do_compare t dat =
  Ok (if list_eq_dec N.eq_dec (firstn (N.to_nat (n / 2)) dat) (lanes (t_data t) off (n / 2))
      then lanes (t_data t) (other_half off n) (n / 2) ++ skipn (N.to_nat (n / 2)) dat else dat).
Proof.
  intros q off n L Hn C Ld. unfold do_compare. fold q. fold off. fold n.
  rewrite (swap_off_ok q); fold off n;
    [| unfold cmp_len in Hn; lia | destruct Hn as [->|[->|[->|[->| ->]]]]; reflexivity | exact C ].
  assert (O : off < 64) by (unfold off; rewrite line_off_mod; apply N.mod_lt; discriminate).
  destruct (half_bounds off n Hn O C) as [B1 B2]. unfold rbind, LINE.
  replace (64 <? off + n / 2) with false by lia.
  replace (64 <? other_half off n + n / 2) with false by lia.
  rewrite !lanes_slice by (rewrite L; assumption). set (h := N.to_nat (n / 2)).
  destruct (list_eq_dec N.eq_dec (firstn h dat) (slice (N.to_nat off) h (t_data t))); reflexivity.
Qed.

(** *** Opcodes *)
Lemma sub_store q o : q_op q = 40 + aop_code o -> atomic_sub q = aop_code o.
Proof. intros E. unfold atomic_sub. rewrite E. destruct o; reflexivity. Qed.
Lemma sub_load q o : q_op q = 48 + aop_code o -> atomic_sub q = aop_code o.
Proof. intros E. unfold atomic_sub. rewrite E. destruct o; reflexivity. Qed.

Lemma sub_op q o st : q_op q = op_base st + aop_code o -> atomic_sub q = aop_code o.
Proof. destruct st; [apply sub_store | apply sub_load]. Qed.
Lemma kinds q o st : q_op q = op_base st + aop_code o ->
  is_atomic q = true /\ is_store q = st /\ is_load q = negb st /\ is_compare q = false.
Proof.
  intros E. unfold is_atomic, is_store, is_load, is_compare. rewrite E.
  destruct st, o; repeat split; reflexivity.
Qed.

Lemma exec_atomic acc m t : is_atomic (t_req t) = true -> exec acc m t = handle_atomic acc m t.
Proof. intros A. unfold exec. destruct (slave_win (t_req t)). rewrite A. reflexivity. Qed.
