(** A doorbell's thread: descriptors in order, then status and interrupt. *)
From Verif Require Import Base LeFacts BaseFacts QdmaModel QdmaSpec QdmaBits QdmaDefs.
From Coq Require Import ZifyN ZifyNat ZifyBool.
Open Scope N_scope.

Lemma upd_same {A} (f : N -> A) k v : upd f k v k = v.
Proof. unfold upd. now rewrite N.eqb_refl. Qed.
Lemma upd_other {A} (f : N -> A) k v x : x <> k -> upd f k v x = f x.
Proof. intro D. unfold upd. now destruct (N.eqb_spec x k). Qed.
Lemma ctx_same s q sel v : q_ctx (set_ctx s q sel v) q sel = v.
Proof. unfold set_ctx. cbn [q_ctx]. now rewrite !upd_same. Qed.
Lemma ctx_other s q sel v a b : (a, b) <> (q, sel) -> q_ctx (set_ctx s q sel v) a b = q_ctx s a b.
Proof.
  intro D. unfold set_ctx. cbn [q_ctx]. unfold upd at 1. destruct (N.eqb_spec a q) as [->|E]; [|reflexivity].
  apply upd_other. congruence.
Qed.

(** ** The ring of descriptors *)
Definition nxt (size c : N) : N := if c =? size - 1 then 0 else c + 1.
Lemma posted_eq c p size : c < size -> p < size ->
  posted c p size = if c <=? p then p - c else p + size - c.
Proof.
  intros C P. unfold posted. destruct (N.leb_spec c p).
  - replace (p + size - c) with (p - c + 1 * size) by lia. rewrite N.mod_add by lia.
    apply N.mod_small. lia.
  - apply N.mod_small. lia.
Qed.
Lemma batch_nil c size : c < size -> batch c c size = [].
Proof. intro C. unfold batch. rewrite posted_eq, N.leb_refl, N.sub_diag by assumption. reflexivity. Qed.
Lemma nxt_lt size c : c < size -> nxt size c < size.
Proof. unfold nxt. destruct (N.eqb_spec c (size - 1)); lia. Qed.
Lemma batch_cons c p size : c < size -> p < size -> c <> p ->
  batch c p size = c :: batch (nxt size c) p size.
Proof.
  intros C P D. unfold batch.
  assert (E : N.to_nat (posted c p size) = S (N.to_nat (posted (nxt size c) p size))).
  { rewrite !posted_eq by (try apply nxt_lt; assumption). unfold nxt.
    destruct (N.eqb_spec c (size - 1)), (N.leb_spec c p); 
      destruct (N.leb_spec 0 p), (N.leb_spec (c + 1) p); lia. }
  rewrite E. cbn [seq map]. f_equal.
  - unfold nth_posted. rewrite N.add_0_r. now apply N.mod_small.
  - rewrite <- seq_shift, map_map. apply map_ext. intro k. unfold nth_posted, nxt.
    destruct (N.eqb_spec c (size - 1)).
    + replace (c + N.of_nat (S k)) with (0 + N.of_nat k + 1 * size) by lia.
      now rewrite N.mod_add by lia.
    + f_equal. lia.
Qed.

(** ** One descriptor *)
Section Thread.
Variables (cpm4 : bool) (junk : N) (hbad cbad : N -> bool).

Definition keeps (s s1 : st) : Prop :=
  q_regs s1 = q_regs s /\ q_ctx s1 = q_ctx s /\ q_ring s1 = q_ring s /\ q_msix s1 = q_msix s.

Lemma words_whole n : n mod 4 = 0 -> 4 * N.of_nat (words_of n) = n.
Proof. intro W. unfold words_of. dm. Qed.

Lemma step_top s t s1 t1 : t_ph t = Top ->
  sw_pidx (sw_of s t) <> hw_cidx (hw_of s t) ->
  let base := g_base (sw_of s t) in
  let i := hw_cidx (hw_of s t) in
  d_cnt (q_host s) (base + t_dsz t * i) mod 4 = 0 ->
  step cpm4 junk hbad cbad s t = Ok (s1, t1) ->
  t1 = at_phase t Copied /\ 32 <= t_dsz t /\ keeps s s1 /\
  same2 (q_host s1, q_card s1) (one (t_h2c t) base (t_dsz t) (q_host s, q_card s) i).
Proof.
  intros P NE base i W H. unfold step in H. rewrite P in H.
  destruct (N.eqb_spec (sw_pidx (sw_of s t)) (hw_cidx (hw_of s t))) as [E|_]; [contradiction|].
  fold i in H. rewrite sw_base_field in H. fold base in H.
  set (a := base + t_dsz t * i) in *. unfold fetch in H.
  destruct (existsb _ _); [discriminate|]. cbn [rbind] in H.
  destruct (N.ltb_spec (t_dsz t) 32) as [L|L]; [discriminate|].
  rewrite !le_fld_rd in H by lia.
  change (N.of_nat 0) with 0 in H. rewrite N.add_0_r in H.
  change (N.of_nat 8) with 8 in H. change (N.of_nat 16) with 16 in H.
  rewrite N.land_ones in H.
  assert (B : 4 * N.of_nat (words_of (d_cnt (q_host s) a)) = d_cnt (q_host s) a) by now apply words_whole.
  assert (B2 : d_cnt (q_host s) a < 2 ^ 28) by (apply N.mod_lt; discriminate).
  fold (d_cnt (q_host s) a) (d_src (q_host s) a) (d_dst (q_host s) a) in H.
  change (2 ^ 28) with 268435456 in B2.
  assert (BB : 4 * N.of_nat (words_of (d_cnt (q_host s) a)) <= 2 ^ 64)
    by (change (2 ^ 64) with 18446744073709551616; lia).
  unfold one. fold a.
  destruct (t_h2c t).
  - destruct (copy _ _ _ _ _ _ _) as [m'| | |] eqn:C; try discriminate. cbn [rmap rbind] in H.
    injection H as <- <-. split; [reflexivity|]. split; [lia|]. split; [repeat split|].
    split; cbn [fst snd q_host q_card set_card]; [reflexivity|].
    intro x. rewrite (copy_moved _ _ _ _ _ _ _ _ BB C x).
    now rewrite B.
  - destruct (copy _ _ _ _ _ _ _) as [m'| | |] eqn:C; try discriminate. cbn [rmap rbind] in H.
    injection H as <- <-. split; [reflexivity|]. split; [lia|]. split; [repeat split|].
    split; cbn [fst snd q_host q_card set_host]; [|reflexivity].
    intro x. rewrite (copy_moved _ _ _ _ _ _ _ _ BB C x).
    now rewrite B.
Qed.

(** What follows the last descriptor. *)
Definition finish (s : st) (t : thr) : res (st * thr) :=
  rbind (write_status hbad s t) (fun s =>
  if negb (sw_irq_arm (sw_of s t) && sw_irq_enabled (sw_of s t))
  then Ok (s, at_phase t Top)
  else if aggregated cpm4 s (t_q t) (t_h2c t)
  then rmap (fun s => (s, at_phase t Top)) (aggregate cpm4 junk hbad s t)
  else rmap (fun s => (s, at_phase t Top)) (notify s (get_vec cpm4 s (t_q t) (t_h2c t)))).

Definition advance (s : st) (t : thr) (c : N) : st :=
  set_ctx s (t_q t) (hw_sel (t_h2c t)) (bf_set 0 16 (hw_of s t) c).

Lemma hw_advance s t c : hw_of (advance s t c) t = bf_set 0 16 (hw_of s t) c.
Proof. unfold hw_of, advance. apply ctx_same. Qed.
Lemma sel_differ h : sw_sel h <> hw_sel h.
Proof. now destruct h. Qed.
Lemma sw_advance s t c : sw_of (advance s t c) t = sw_of s t.
Proof. unfold sw_of, advance. apply ctx_other. pose proof (sel_differ (t_h2c t)). congruence. Qed.

Lemma step_copied s t : t_ph t = Copied -> t_ring t <= 16384 ->
  hw_cidx (hw_of s t) < t_ring t ->
  let c' := nxt (t_ring t) (hw_cidx (hw_of s t)) in
  step cpm4 junk hbad cbad s t =
    if negb (sw_pidx (sw_of s t) =? c') then Ok (advance s t c', at_phase t Top)
    else finish (advance s t c') t.
Proof.
  intros P R C c'. unfold step. rewrite P.
  assert (E : (if hw_cidx (hw_of s t) =? t_ring t - 1 then 0
               else (hw_cidx (hw_of s t) + 1) mod 65536) = c').
  { unfold c', nxt. destruct (N.eqb_spec (hw_cidx (hw_of s t)) (t_ring t - 1)); [reflexivity|].
    apply N.mod_small. lia. }
  rewrite E. fold (advance s t c'). rewrite sw_advance. reflexivity.
Qed.

End Thread.

(** ** Status *)
Lemma past_self a x : a64 (a + past a x) = a64 x.
Proof. unfold past, a64. change (2 ^ 64) with 18446744073709551616. dm. Qed.
Lemma past_at a k : k < 2 ^ 64 -> past a (a64 (a + k)) = k.
Proof. unfold past, a64. change (2 ^ 64) with 18446744073709551616. intro. dm. Qed.

Lemma le_enc_2' v : v < 65536 -> exists x y, le_enc 2 v = [x; y] /\ x + 256 * y = v.
Proof.
  intro V. pose proof (le_enc_length 2 v) as L. pose proof (le_dec_enc 2 v) as D.
  destruct (le_enc 2 v) as [|x [|y [|]]]; try discriminate L. exists x, y. split; [reflexivity|].
  rewrite !le_dec_cons in D. change (le_dec []) with 0 in D.
  change (256 ^ N.of_nat 2) with 65536 in D. rewrite N.mod_small in D by assumption. lia.
Qed.

Lemma status_spec hbad s t s1 : write_status hbad s t = Ok s1 ->
  8 <= t_dsz t -> t_dsz t < 2 ^ 64 -> t_pidx t < 65536 ->
  hw_cidx (hw_of s t) < 65536 ->
  exists m1, s1 = set_host s m1 /\
  if sw_writeback (sw_of s t)
  then status_at (q_host s) m1 (g_base (sw_of s t) + t_dsz t * t_ring t) (hw_cidx (hw_of s t)) (t_pidx t)
  else m1 = q_host s.
Proof.
  intros H D D64 TP HC. unfold write_status in H.
  destruct (sw_writeback (sw_of s t)).
  2:{ injection H as <-. exists (q_host s). split; [now destruct s|reflexivity]. }
  rewrite sw_base_field in H. set (a := g_base (sw_of s t) + t_dsz t * t_ring t) in *.
  unfold fetch in H. destruct (existsb _ _); [discriminate|]. cbn [rbind] in H.
  destruct (hbad (a64 a)); [discriminate|]. apply Ok_inj in H. subst s1.
  eexists. split; [reflexivity|].
  set (c := hw_cidx (hw_of s t)) in *. set (p := t_pidx t) in *.
  set (m := q_host s) in *. rewrite rd_a64.
  set (d := rd m a (N.to_nat (t_dsz t))).
  assert (LD : length d = N.to_nat (t_dsz t)) by apply rd_length.
  assert (ND : forall i, (i < N.to_nat (t_dsz t))%nat -> nth i d 0 = m (a64 (a + N.of_nat i)))
    by (intros; now apply nth_rd).
  assert (V : forall k, k < t_dsz t ->
    wr m (a64 a) (status_bytes d c p) (a64 (a + k)) = nth (N.to_nat k) (status_bytes d c p) 0).
  { intros k K. rewrite wr_placed. unfold placed. rewrite past_a64, past_at by lia.
    destruct (N.ltb_spec k (N.of_nat (length (status_bytes d c p)))) as [L|L]; [reflexivity|].
    exfalso. revert L. unfold status_bytes.
    rewrite !app_length, !le_enc_length, skipn_length. unfold slice.
    rewrite firstn_length, skipn_length. cbn [length]. rewrite LD. lia. }
  destruct (le_enc_2' c HC) as (c0 & c1 & EC & VC). destruct (le_enc_2' p TP) as (p0 & p1 & EP & VP).
  assert (SB : status_bytes d c p = [N.land (nth 0 d 0) 252; nth 1 d 0; c0; c1; p0; p1] ++ skipn 6 d).
  { unfold status_bytes. rewrite EC, EP.
    assert (S1 : slice 1 1 d = [nth 1 d 0]).
    { unfold slice. destruct d as [|d0 [|d1 d']]; cbn [length] in LD; try lia. reflexivity. }
    rewrite S1. reflexivity. }
  rewrite SB in *. clear SB.
  assert (V0 : wr m (a64 a) ([N.land (nth 0 d 0) 252; nth 1 d 0; c0; c1; p0; p1] ++ skipn 6 d) (a64 a)
               = N.land (m (a64 a)) 252).
  { pose proof (V 0 ltac:(lia)) as V0. rewrite N.add_0_r in V0. rewrite V0.
    change (nth (N.to_nat 0) _ 0) with (N.land (nth 0 d 0) 252).
    rewrite ND by lia. change (N.of_nat 0) with 0. now rewrite N.add_0_r. }
  unfold status_at. refine (conj _ (conj _ (conj _ (conj _ _)))).
  - fold (a64 a). rewrite V0. rewrite <- bf_field. unfold bf.
    apply N.bits_inj. intro j. rewrite N.bits_0, N.land_spec, N.shiftr_spec', N.land_spec, N.add_0_r.
    destruct (N.eqb_spec j 0) as [->|J0]; [now rewrite andb_false_r|].
    destruct (N.eqb_spec j 1) as [->|J1]; [now rewrite andb_false_r|].
    rewrite (N.ones_spec_high 2 j) by lia. now rewrite andb_false_r.
  - fold (a64 a). rewrite V0. rewrite <- !bf_field. unfold bf.
    apply N.bits_inj. intro j. rewrite !N.land_spec, !N.shiftr_spec', N.land_spec.
    destruct (N.lt_ge_cases j 6) as [L|L].
    + rewrite (N.ones_spec_low 6 j L), !andb_true_r.
      assert (T : N.testbit 252 (j + 2) = true).
      { assert (J : j = 0 \/ j = 1 \/ j = 2 \/ j = 3 \/ j = 4 \/ j = 5) by lia.
        destruct J as [->|[->|[->|[->|[->| ->]]]]]; reflexivity. }
      now rewrite T, andb_true_r.
    + now rewrite (N.ones_spec_high 6 j L), !andb_false_r.
  - cbn [value]. fold (a64 (a + 2)). replace (a + 2 + 1) with (a + 3) by lia. fold (a64 (a + 3)).
    rewrite !V by lia. change (nth (N.to_nat 2) _ 0) with c0. change (nth (N.to_nat 3) _ 0) with c1. lia.
  - cbn [value]. fold (a64 (a + 4)). replace (a + 4 + 1) with (a + 5) by lia. fold (a64 (a + 5)).
    rewrite !V by lia. change (nth (N.to_nat 4) _ 0) with p0. change (nth (N.to_nat 5) _ 0) with p1. lia.
  - intros x X N0 NX. set (k := past a x) in *.
    assert (XA : x = a64 (a + k)).
    { unfold k. rewrite past_self. symmetry. now apply N.mod_small. }
    destruct (N.lt_ge_cases k (t_dsz t)) as [K|K].
    + rewrite XA at 1. rewrite V by assumption.
      rewrite XA. replace (a64 (a + k)) with (a64 (a + N.of_nat (N.to_nat k))) by (f_equal; lia).
      rewrite <- ND by lia.
      destruct (N.to_nat k) as [|[|[|[|[|[|j]]]]]] eqn:KE; try lia; cbn [app nth].
      * reflexivity.
      * rewrite <- (firstn_skipn 6 d) at 2. rewrite app_nth2; rewrite firstn_length; [|lia].
        f_equal. lia.
    + rewrite wr_placed. unfold placed. rewrite past_a64. fold k.
      destruct (N.ltb_spec k (N.of_nat (length ([N.land (nth 0 d 0) 252; nth 1 d 0; c0; c1; p0; p1] ++ skipn 6 d)))) as [L|L]; [|reflexivity].
      exfalso. rewrite app_length, skipn_length, LD in L. cbn [length] in L. lia.
Qed.
