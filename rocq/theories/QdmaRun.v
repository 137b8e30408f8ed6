(** Interrupt entries, and whole runs of a doorbell's thread. *)
From Verif Require Import Base LeFacts BaseFacts QdmaModel QdmaSpec QdmaBits QdmaDefs QdmaProofs.
From Coq Require Import ZifyN ZifyNat ZifyBool.
Open Scope N_scope.

Ltac bfs := repeat (rewrite bf_set_other by lia); try rewrite bf_set_same.

Lemma entry_notice cpm4 junk q ty color cidx pidx :
  q < 2048 -> ty < 2 -> color < 2 -> cidx < 65536 -> pidx < 65536 ->
  read_notice cpm4 (mk_entry cpm4 junk q ty color cidx pidx)
    = mkNotice q (ty =? 1) cidx pidx /\
  color_of (mk_entry cpm4 junk q ty color cidx pidx) = (color =? 1).
Proof.
  intros Q T C CI PI. unfold read_notice, color_of. rewrite !flag_field, <- !bf_field. unfold mk_entry.
  destruct cpm4; cbn [fst snd at_qid at_type at_error]; split.
  - f_equal; bfs; try (apply N.mod_small; assumption).
    f_equal. apply N.mod_small. assumption.
  - bfs. f_equal. apply N.mod_small. assumption.
  - f_equal; bfs; try (apply N.mod_small; assumption).
    + apply N.mod_small. change (2 ^ 24) with 16777216. lia.
    + f_equal. apply N.mod_small. assumption.
  - bfs. f_equal. apply N.mod_small. assumption.
Qed.
Lemma entry_bound cpm4 junk q ty color cidx pidx : junk < 2 ^ 64 ->
  mk_entry cpm4 junk q ty color cidx pidx < 2 ^ 64.
Proof.
  intro J. unfold mk_entry. destruct cpm4; cbn [fst snd at_qid at_type at_error];
  repeat (apply bf_set_bound; [|lia]); assumption.
Qed.

Lemma ring_of_pidx cpm4 c p : ring_of cpm4 (bf_set (it_pidx_at cpm4) 12 c p) = ring_of cpm4 c.
Proof.
  unfold ring_of, it_pidx_at. destruct cpm4; rewrite !flag_field, <- !bf_field; f_equal; bfs; reflexivity.
Qed.
Lemma ring_of_color cpm4 c :
  ring_of cpm4 (bf_set (it_color_at cpm4) 1 c (if bit_on (it_color_at cpm4) c then 0 else 1)) =
  mkRing (rg_valid (ring_of cpm4 c)) (rg_vector (ring_of cpm4 c)) (negb (rg_color (ring_of cpm4 c)))
         (rg_base (ring_of cpm4 c)) (rg_slots (ring_of cpm4 c)).
Proof.
  unfold ring_of, it_color_at. destruct cpm4; rewrite bit_on_flag, !flag_field, <- !bf_field;
    cbn [rg_valid rg_vector rg_color rg_base rg_slots]; f_equal; bfs; try reflexivity.
  - destruct (bf 8 1 c =? 1); reflexivity.
  - destruct (bf 14 1 c =? 1); reflexivity.
Qed.
Lemma rg_fields cpm4 c :
  it_valid c = rg_valid (ring_of cpm4 c) /\ it_vector cpm4 c = rg_vector (ring_of cpm4 c) /\
  N.shiftl (it_baddr cpm4 c) 12 = rg_base (ring_of cpm4 c) /\
  (1 + it_page_size cpm4 c) * 512 = rg_slots (ring_of cpm4 c) /\
  (bf (it_color_at cpm4) 1 c =? 1) = rg_color (ring_of cpm4 c).
Proof.
  unfold it_valid, it_vector, it_baddr, it_page_size, it_color_at, ring_of.
  rewrite bit_on_flag, !bf_field, N.shiftl_mul_pow2. change (2 ^ 12) with 4096.
  destruct cpm4; cbn [rg_valid rg_vector rg_color rg_base rg_slots]; rewrite !flag_field; auto.
Qed.
Lemma vec_vector cpm4 s q h2c : get_vec cpm4 s q h2c = vector cpm4 s q h2c.
Proof. unfold get_vec, vector, software, sw_sel. rewrite !bf_field. reflexivity. Qed.
Lemma aggr_rings cpm4 s q h2c : aggregated cpm4 s q h2c = rings cpm4 s q h2c.
Proof. unfold aggregated, rings, software, sw_sel. rewrite !bit_on_flag. reflexivity. Qed.

Lemma write_entry_spec cpm4 hbad s r e s1 : write_entry cpm4 hbad s r e = Ok s1 ->
  let R := ring cpm4 s r in
  hbad (a64 (rg_base R + 8 * q_ring s r)) = false /\
  (forall x, q_host s1 x = placed (q_host s) (rg_base R + 8 * q_ring s r) (le_enc 8 e) x) /\
  q_ring s1 r = next_slot R (q_ring s r) /\
  (forall r', r' <> r -> q_ring s1 r' = q_ring s r') /\
  ring cpm4 s1 r = next_ring R (q_ring s r) /\
  (forall a b, (a, b) <> (r, 8) -> q_ctx s1 a b = q_ctx s a b) /\
  q_msix s1 = q_msix s /\ q_regs s1 = q_regs s /\ q_card s1 = q_card s.
Proof.
  intros H R. unfold write_entry in H. set (c := q_ctx s r SELC_INT_COAL) in *.
  destruct (rg_fields cpm4 c) as (_ & _ & EB & ES & _).
  assert (RR : R = ring_of cpm4 c) by reflexivity.
  rewrite EB, <- RR in H. set (a := rg_base R + 8 * q_ring s r) in *.
  destruct (hbad (a64 a)) eqn:HB; [discriminate|]. split; [reflexivity|].
  assert (WP : forall x, wr (q_host s) (a64 a) (le_enc 8 e) x = placed (q_host s) a (le_enc 8 e) x).
  { intro x. rewrite wr_placed. unfold placed. now rewrite past_a64. }
  assert (ET : ((q_ring s r + 1) * 8 =? (1 + it_page_size cpm4 c) * 4096)
               = (q_ring s r + 1 =? rg_slots R)).
  { rewrite RR, <- ES.
    destruct (N.eqb_spec ((q_ring s r + 1) * 8) ((1 + it_page_size cpm4 c) * 4096)),
      (N.eqb_spec (q_ring s r + 1) ((1 + it_page_size cpm4 c) * 512)); auto; lia. }
  rewrite ET in H. unfold next_slot, next_ring.
  destruct (q_ring s r + 1 =? rg_slots R) eqn:W; apply Ok_inj in H; subst s1.
  - split; [exact WP|]. split; [cbn [q_ring set_ctx set_ring set_host]; now rewrite upd_same|].
    split; [intros; cbn [q_ring set_ctx set_ring set_host]; now rewrite !upd_other|].
    split; [unfold ring; change 8 with SELC_INT_COAL; rewrite ctx_same; rewrite RR; apply ring_of_color|].
    split; [intros x y D; rewrite ctx_other by exact D; reflexivity|]. auto.
  - split; [exact WP|]. split; [cbn [q_ring set_ctx set_ring set_host]; now rewrite upd_same|].
    split; [intros; cbn [q_ring set_ctx set_ring set_host]; now rewrite !upd_other|].
    split; [reflexivity|]. split; [reflexivity|]. auto.
Qed.

Lemma aggregate_spec cpm4 junk hbad s t s' : aggregate cpm4 junk hbad s t = Ok s' ->
  t_q t < 2 -> junk < 2 ^ 64 ->
  let r := vector cpm4 s (t_q t) (t_h2c t) in
  r < 2 /\ rg_valid (ring cpm4 s r) = true /\
  entered cpm4 s s' r (t_q t) (t_h2c t) (hw_cidx (hw_of s t)) (t_pidx t mod 4096) (q_host s) /\
  q_regs s' = q_regs s /\ q_card s' = q_card s.
Proof.
  intros H Q J r. unfold aggregate in H. rewrite vec_vector in H. fold r in H.
  change QDMA_QUEUE_COUNT with 2 in H.
  destruct (N.leb_spec 2 r) as [L|L]; [discriminate|].
  set (c := bf_set (it_pidx_at cpm4) 12 (q_ctx s r SELC_INT_COAL) (t_pidx t)) in *.
  set (s1 := set_ctx s r SELC_INT_COAL c) in *.
  destruct (rg_fields cpm4 c) as (EV & EW & _ & _ & EC).
  assert (RC : ring_of cpm4 c = ring cpm4 s r) by apply ring_of_pidx.
  rewrite RC in *.
  assert (R1 : ring cpm4 s1 r = ring cpm4 s r).
  { unfold ring at 1. unfold s1. change 8 with SELC_INT_COAL. rewrite ctx_same. exact RC. }
  rewrite EV in H. destruct (rg_valid (ring cpm4 s r)) eqn:V; [|discriminate]. cbn [negb] in H.
  assert (HW : hw_of s1 t = hw_of s t).
  { unfold hw_of, s1. apply ctx_other. destruct (t_h2c t); unfold hw_sel, SELC_INT_COAL; congruence. }
  rewrite HW in H.
  set (e := mk_entry cpm4 junk (t_q t) (if t_h2c t then 0 else 1) (bf (it_color_at cpm4) 1 c)
              (hw_cidx (hw_of s t)) (bf (it_pidx_at cpm4) 12 c)) in *.
  destruct (write_entry cpm4 hbad s1 r e) as [s2| | |] eqn:WE; try discriminate. cbn [rbind] in H.
  pose proof (write_entry_spec _ _ _ _ _ _ WE) as (_ & W1 & W2 & W3 & W4 & W5 & W6 & W7 & W8).
  rewrite R1 in *.
  unfold notify in H. destruct (N.leb_spec NR_QDMA_IRQ (it_vector cpm4 (q_ctx s2 r SELC_INT_COAL))) as [L2|L2];
    [discriminate|]. apply Ok_inj in H. subst s'.
  assert (EN : read_notice cpm4 e = mkNotice (t_q t) (negb (t_h2c t)) (hw_cidx (hw_of s t)) (t_pidx t mod 4096)
    /\ color_of e = rg_color (ring cpm4 s r)).
  { pose proof (entry_notice cpm4 junk (t_q t) (if t_h2c t then 0 else 1) (bf (it_color_at cpm4) 1 c)
      (hw_cidx (hw_of s t)) (bf (it_pidx_at cpm4) 12 c)) as X.
    fold e in X. destruct X as [X1 X2].
    - lia.
    - destruct (t_h2c t); lia.
    - rewrite bf_field. apply field_bound.
    - unfold hw_cidx. rewrite bf_field. apply field_bound.
    - rewrite bf_field. apply N.lt_trans with (2 ^ 12); [apply field_bound|reflexivity].
    - split; [|rewrite X2; exact EC]. rewrite X1. f_equal.
      + now destruct (t_h2c t).
      + unfold c. now rewrite bf_set_same. }
  destruct EN as [E1 E2].
  split; [exact L|]. split; [reflexivity|]. split; [|split; [exact W7|exact W8]].
  unfold entered. cbn [q_host q_ring q_ctx q_msix].
  split; [exists e; refine (conj E1 (conj E2 (conj _ _))); [now apply entry_bound|exact W1]|].
  split; [exact W2|]. split; [exact W3|]. split; [exact W4|]. split.
  - intros a b D. rewrite W5 by exact D. unfold s1. apply ctx_other. exact D.
  - rewrite W6. f_equal. f_equal.
    destruct (rg_fields cpm4 (q_ctx s2 r SELC_INT_COAL)) as (_ & X & _). rewrite X.
    change (ring_of cpm4 (q_ctx s2 r SELC_INT_COAL)) with (ring cpm4 s2 r). rewrite W4.
    unfold next_ring. now destruct (q_ring s1 r + 1 =? rg_slots (ring cpm4 s r)).
Qed.

Definition fits (s : st) (t : thr) : Prop :=
  t_q t < 2 /\ t_ring t = g_size (sw_of s t) /\ t_dsz t = g_dsz (sw_of s t).

Lemma dsz_bound c : 8 <= g_dsz c /\ g_dsz c <= 64.
Proof.
  unfold g_dsz. pose proof (field_bound c 48 2) as B. change (2 ^ 2) with 4 in B.
  set (x := field c 48 2) in *. clearbody x.
  assert (X : x = 0 \/ x = 1 \/ x = 2 \/ x = 3) by lia.
  destruct X as [->|[->|[->| ->]]]; cbv; split; discriminate.
Qed.
Lemma size_bound c : 64 <= g_size c /\ g_size c <= 16384.
Proof.
  unfold g_size. pose proof (field_bound c 44 4) as B. change (2 ^ 4) with 16 in B.
  set (x := field c 44 4) in *. clearbody x. unfold descriptors.
  assert (X : (N.to_nat x < 16)%nat) by lia. generalize dependent (N.to_nat x). intros n X. clear B x.
  do 16 (destruct n as [|n]; [cbv; split; discriminate|]). lia.
Qed.

Lemma finish_spec cpm4 junk hbad s t s' t' : finish cpm4 junk hbad s t = Ok (s', t') ->
  fits s t -> junk < 2 ^ 64 -> t_pidx t < 65536 -> hw_cidx (hw_of s t) = t_pidx t ->
  t' = at_phase t Top /\ completed cpm4 s s' (t_q t) (t_h2c t) (t_pidx t).
Proof.
  intros H (F1 & F2 & F3) J P HC. unfold finish in H.
  destruct (write_status hbad s t) as [s1| | |] eqn:WS; try discriminate. cbn [rbind] in H.
  destruct (dsz_bound (sw_of s t)) as [D1 D2].
  destruct (status_spec _ _ _ _ WS) as (m1 & -> & SM).
  { rewrite F3. exact D1. } { rewrite F3. change (2 ^ 64) with 18446744073709551616. lia. }
  { exact P. } { rewrite HC. exact P. }
  assert (SW : sw_of (set_host s m1) t = software s (t_q t) (t_h2c t)) by reflexivity.
  assert (HWE : hw_of (set_host s m1) t = hw_of s t) by reflexivity.
  assert (WB : sw_writeback (sw_of s t) = g_writeback (software s (t_q t) (t_h2c t))).
  { unfold sw_writeback. rewrite bit_on_flag. reflexivity. }
  assert (IR : sw_irq_arm (sw_of s t) && sw_irq_enabled (sw_of s t)
               = g_interrupt (software s (t_q t) (t_h2c t))).
  { unfold sw_irq_arm, sw_irq_enabled, g_interrupt. rewrite !bit_on_flag. reflexivity. }
  rewrite WB, HC, F2, F3 in SM. change (sw_of s t) with (software s (t_q t) (t_h2c t)) in SM.
  change (sw_of (set_host s m1) t) with (sw_of s t) in H. rewrite IR in H.
  unfold completed. destruct (g_interrupt (software s (t_q t) (t_h2c t))); cbn [negb] in H.
  2:{ apply Ok_inj in H. injection H as <- <-. split; [reflexivity|].
      split; [reflexivity|]. split; [reflexivity|]. exists m1. split; [exact SM|]. repeat split. }
  rewrite aggr_rings in H. change (rings cpm4 (set_host s m1) (t_q t) (t_h2c t)) with (rings cpm4 s (t_q t) (t_h2c t)) in H.
  destruct (rings cpm4 s (t_q t) (t_h2c t)).
  - destruct (aggregate cpm4 junk hbad (set_host s m1) t) as [s2| | |] eqn:AG; try discriminate.
    cbn [rmap] in H. apply Ok_inj in H. injection H as <- <-. split; [reflexivity|].
    destruct (aggregate_spec _ _ _ _ _ _ AG F1 J) as (A1 & A2 & A3 & A4 & A5).
    split; [exact A4|]. split; [exact A5|]. exists m1. split; [exact SM|].
    split; [exact A2|]. rewrite HWE, HC in A3. exact A3.
  - rewrite vec_vector in H. unfold notify in H.
    destruct (N.leb_spec NR_QDMA_IRQ (vector cpm4 (set_host s m1) (t_q t) (t_h2c t))); [discriminate|].
    cbn [rmap] in H. apply Ok_inj in H. injection H as <- <-. split; [reflexivity|].
    split; [reflexivity|]. split; [reflexivity|]. exists m1. split; [exact SM|]. repeat split.
Qed.

(** ** Whole runs *)
(** [s1]: the state when the last descriptor has been processed. *)
Definition processed (s s1 : st) (t : thr) (l : list N) (p : N) : Prop :=
  q_regs s1 = q_regs s /\ q_ring s1 = q_ring s /\ q_msix s1 = q_msix s /\
  (forall a b, (a, b) <> (t_q t, hw_sel (t_h2c t)) -> q_ctx s1 a b = q_ctx s a b) /\
  hw_cidx (hw_of s1 t) = p /\
  same2 (q_host s1, q_card s1)
    (all (t_h2c t) (g_base (sw_of s t)) (t_dsz t) l (q_host s, q_card s)).

Lemma run_done cpm4 junk hbad cbad n s t s' : t_ph t = Done ->
  run cpm4 junk hbad cbad n s t = Ok s' -> s' = s.
Proof. intros P H. destruct n; cbn [run] in H; rewrite P in H; now injection H. Qed.
Lemma run_step cpm4 junk hbad cbad n s t s' : t_ph t <> Done ->
  run cpm4 junk hbad cbad n s t = Ok s' ->
  exists n' s1 t1, n = S n' /\ step cpm4 junk hbad cbad s t = Ok (s1, t1) /\
    run cpm4 junk hbad cbad n' s1 t1 = Ok s'.
Proof.
  intros P H. destruct n as [|n]; cbn [run] in H.
  - destruct (t_ph t); try discriminate. now elim P.
  - destruct (step cpm4 junk hbad cbad s t) as [[s1 t1]| | |] eqn:S;
      destruct (t_ph t); try discriminate; try (now elim P);
      cbn [rbind fst snd] in H; exists n, s1, t1; auto.
Qed.

Lemma run_spec cpm4 junk hbad cbad : junk < 2 ^ 64 ->
  forall l n s t s',
  let p := t_pidx t in let sw := sw_of s t in
  t_ph t = Top -> fits s t -> sw_pidx sw = p -> p < t_ring t ->
  hw_cidx (hw_of s t) < t_ring t ->
  batch (hw_cidx (hw_of s t)) p (t_ring t) = l ->
  whole_words (t_h2c t) (g_base sw) (t_dsz t) l (q_host s, q_card s) ->
  run cpm4 junk hbad cbad n s t = Ok s' ->
  exists s1, processed s s1 t l p /\
    (l = [] -> s' = s1) /\
    (l <> [] -> 32 <= t_dsz t /\ completed cpm4 s1 s' (t_q t) (t_h2c t) p).
Proof.
  intro J. induction l as [|i l IH]; intros n s t s' p sw PH F SP PR HR B W H.
  - assert (C : hw_cidx (hw_of s t) = p).
    { destruct (N.eqb_spec (hw_cidx (hw_of s t)) p) as [E|E]; [exact E|].
      rewrite batch_cons in B by assumption. discriminate. }
    assert (X0 : t_ph t <> Done) by (rewrite PH; discriminate).
    destruct (run_step _ _ _ _ _ _ _ _ X0 H) as (n' & s1 & t1 & -> & ST & RN).
    unfold step in ST. rewrite PH in ST. fold sw in ST. rewrite SP, C, N.eqb_refl in ST.
    apply Ok_inj in ST. injection ST as <- <-. apply run_done in RN; [|reflexivity]. subst s'.
    exists s. split; [repeat split; assumption|]. split; [reflexivity|]. intro X. now elim X.
  - assert (NE : hw_cidx (hw_of s t) <> p).
    { intro E. rewrite E, batch_nil in B by assumption. discriminate. }
    rewrite batch_cons in B by assumption. injection B as BI BL.
    assert (X0 : t_ph t <> Done) by (rewrite PH; discriminate).
    destruct (run_step _ _ _ _ _ _ _ _ X0 H) as (n' & s1 & t1 & -> & ST & RN).
    destruct W as [W0 W].
    destruct (step_top cpm4 junk hbad cbad s t s1 t1 PH) as (-> & D32 & (K1 & K2 & K3 & K4) & SM).
    { fold sw. rewrite SP. intro X. now elim NE. }
    { rewrite BI. exact W0. }
    { exact ST. }
    fold sw in SM. rewrite BI in SM.
    set (t1 := at_phase t Copied) in *.
    assert (X1 : t_ph t1 <> Done) by discriminate.
    destruct (run_step _ _ _ _ _ _ _ _ X1 RN) as (n2 & s2 & t2 & -> & ST2 & RN2).
    assert (HW1 : hw_of s1 t1 = hw_of s t) by (unfold hw_of; now rewrite K2).
    assert (SW1 : sw_of s1 t1 = sw) by (unfold sw_of; now rewrite K2).
    pose proof (size_bound sw) as SB. destruct F as (F1 & F2 & F3). fold sw in F2, F3.
    rewrite step_copied in ST2.
    2: reflexivity. 2:{ change (t_ring t1) with (t_ring t). rewrite F2. apply SB. }
    2:{ rewrite HW1. exact HR. }
    change (t_ring t1) with (t_ring t) in ST2. rewrite HW1, SW1, SP in ST2.
    set (c' := nxt (t_ring t) (hw_cidx (hw_of s t))) in *.
    assert (CL : c' < t_ring t) by now apply nxt_lt.
    set (a := advance s1 t1 c') in *.
    assert (HA : hw_of a t = bf_set 0 16 (hw_of s t) c').
    { unfold a. change (hw_of (advance s1 t1 c') t) with (hw_of (advance s1 t1 c') t1).
      rewrite hw_advance, HW1. reflexivity. }
    assert (CA : hw_cidx (hw_of a t) = c').
    { rewrite HA. unfold hw_cidx. rewrite bf_set_same. apply N.mod_small. change (2 ^ 16) with 65536. lia. }
    assert (SA : sw_of a t = sw).
    { unfold a. change (sw_of (advance s1 t1 c') t) with (sw_of (advance s1 t1 c') t1). now rewrite sw_advance. }
    assert (XA : forall x y, (x, y) <> (t_q t, hw_sel (t_h2c t)) -> q_ctx a x y = q_ctx s x y).
    { intros x y D. unfold a, advance. rewrite ctx_other by exact D. now rewrite K2. }
    assert (MA : same2 (q_host a, q_card a) (one (t_h2c t) (g_base sw) (t_dsz t) (q_host s, q_card s) i)) by exact SM.
    destruct (N.eqb_spec p c') as [PC|PC]; cbn [negb] in ST2.
    + assert (L0 : l = []) by (rewrite <- BL, <- PC; now apply batch_nil).
      destruct (finish_spec cpm4 junk hbad a t1 s2 t2 ST2) as [-> CO].
      { unfold fits. change (sw_of a t1) with (sw_of a t). rewrite SA. auto. }
      { exact J. } { change (t_pidx t1) with p. lia. }
      { change (hw_of a t1) with (hw_of a t). rewrite CA. now symmetry. }
      change (t_q t1) with (t_q t) in CO. change (t_h2c t1) with (t_h2c t) in CO.
      change (t_pidx t1) with p in CO.
      (* the loop test leaves *)
      set (t3 := at_phase t1 Top) in *.
      assert (X3 : t_ph t3 <> Done) by discriminate.
      destruct (run_step _ _ _ _ _ _ _ _ X3 RN2) as (n3 & s3 & t4 & -> & ST3 & RN3).
      assert (SAME : sw_of s2 t = sw_of a t /\ hw_of s2 t = hw_of a t).
      { unfold completed in CO. destruct CO as (_ & _ & m1 & _ & CO).
        change (software a (t_q t) (t_h2c t)) with (sw_of a t) in CO.
        destruct (g_interrupt (sw_of a t)).
        - destruct (rings cpm4 a (t_q t) (t_h2c t)).
          + destruct CO as (_ & _ & _ & _ & _ & E & _). unfold sw_of, hw_of.
            split; apply E; destruct (t_h2c t); unfold sw_sel, hw_sel; congruence.
          + destruct CO as (_ & _ & E & _). unfold sw_of, hw_of. now rewrite E.
        - destruct CO as (_ & _ & E & _). unfold sw_of, hw_of. now rewrite E. }
      destruct SAME as [SE HE].
      unfold step in ST3. cbn [t_ph t3 at_phase] in ST3.
      change (sw_of s2 t3) with (sw_of s2 t) in ST3. change (hw_of s2 t3) with (hw_of s2 t) in ST3.
      rewrite SE, HE, SA, CA, SP, <- PC, N.eqb_refl in ST3. apply Ok_inj in ST3. injection ST3 as <- <-.
      apply run_done in RN3; [|reflexivity]. subst s'.
      exists a. split.
      { unfold processed. refine (conj K1 (conj K3 (conj K4 (conj XA (conj _ _))))).
        - rewrite CA. now symmetry.
        - rewrite L0. exact MA. }
      split; [discriminate|]. intros _. split; [exact D32|exact CO].
    + apply Ok_inj in ST2. injection ST2 as <- <-.
      destruct (IH n2 a (at_phase t1 Top) s') as (s3 & P3 & N1 & N2).
      * reflexivity.
      * unfold fits. change (sw_of a (at_phase t1 Top)) with (sw_of a t). rewrite SA. auto.
      * change (sw_of a (at_phase t1 Top)) with (sw_of a t). rewrite SA. exact SP.
      * exact PR.
      * change (hw_of a (at_phase t1 Top)) with (hw_of a t). rewrite CA. exact CL.
      * change (hw_of a (at_phase t1 Top)) with (hw_of a t). rewrite CA. exact BL.
      * change (sw_of a (at_phase t1 Top)) with (sw_of a t). rewrite SA.
        eapply whole_ext; [apply same2_sym, MA|exact W].
      * exact RN2.
      * change (t_q (at_phase t1 Top)) with (t_q t) in *. change (t_h2c (at_phase t1 Top)) with (t_h2c t) in *.
        change (t_pidx (at_phase t1 Top)) with p in *. change (t_dsz (at_phase t1 Top)) with (t_dsz t) in *.
        destruct P3 as (Q1 & Q2 & Q3 & Q4 & Q5 & Q6). exists s3.
        assert (LN : l <> []).
        { intro L0. rewrite L0 in BL. rewrite batch_cons in BL; [discriminate|assumption|assumption|].
          intro X. now elim PC. }
        split; [|split; [discriminate|intros _; now apply N2]].
        unfold processed. refine (conj _ (conj _ (conj _ (conj _ (conj _ _))))).
        -- rewrite Q1. exact K1.
        -- rewrite Q2. exact K3.
        -- rewrite Q3. exact K4.
        -- intros x y D. rewrite (Q4 x y D). now apply XA.
        -- exact Q5.
        -- eapply same2_trans; [exact Q6|]. change (sw_of a (at_phase t1 Top)) with (sw_of a t). rewrite SA.
           cbn [all fold_left]. apply all_ext. exact MA.
Qed.
