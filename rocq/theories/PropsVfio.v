(** C113: the bridge from TLM to a device behind VFIO. *)
From Coq Require Import ZArith.
From Verif Require Import Base VfioModel VfioSpec VfioProofs.
From Coq Require Import Lia ZifyN ZifyNat ZifyBool.
Open Scope N_scope.

(** A transaction that the bridge supports and that lies in the mapping *)
Definition fits (c : cfg) (t : trans) : Prop :=
  t_be t = false /\ (t_sw t = 0 \/ N.of_nat (length (t_data t)) <= t_sw t)
  /\ t_addr t + c_offset c + N.of_nat (length (t_data t)) <= c_size c /\ c_size c < u64.

Lemma fits_run c m t : fits c t ->
  b_transport c m t =
  if t_write t
  then Ok (mkTrans (t_addr t) true (t_data t) false (t_sw t) OkResp true,
           fst (to_io (c_base c) m (t_addr t + c_offset c) (t_data t)),
           snd (to_io (c_base c) m (t_addr t + c_offset c) (t_data t)),
           N.of_nat (length (t_data t)) <? 8)
  else Ok (mkTrans (t_addr t) false
             (fst (from_io (c_big c) (c_base c) m (t_addr t + c_offset c) (length (t_data t))))
             false (t_sw t) OkResp true, m,
           snd (from_io (c_big c) (c_base c) m (t_addr t + c_offset c) (length (t_data t))),
           N.of_nat (length (t_data t)) <? 8).
Proof.
  intros (Hb & Hs & Ha & Hu). unfold b_transport. rewrite Hb.
  replace (negb (t_sw t =? 0) && (t_sw t <? N.of_nat (length (t_data t)))) with false by lia.
  cbn zeta. rewrite (N.mod_small (t_addr t + c_offset c)) by lia.
  replace (c_size c <? t_addr t + c_offset c + N.of_nat (length (t_data t))) with false by lia.
  destruct (t_write t).
  - destruct (to_io _ _ _ _). reflexivity.
  - destruct (from_io _ _ _ _ _). reflexivity.
Qed.

(** A write puts its bytes, and only those, at its address plus the offset of the bridge.
    Interrupts are acknowledged by transactions of less than 8 bytes. *)
Theorem C113_write : forall c m t, fits c t -> t_write t = true ->
  exists t' m' ops a, b_transport c m t = Ok (t', m', ops, a)
  /\ t_status t' = OkResp /\ t_data t' = t_data t /\ t_dmi t' = true
  /\ (a = true <-> N.of_nat (length (t_data t)) < 8)
  /\ written m m' (t_addr t + c_offset c) (t_data t).
Proof.
  intros c m t Hf Hw. rewrite (fits_run c m t Hf), Hw. do 4 eexists. split; [reflexivity|].
  split; [reflexivity|]. split; [reflexivity|]. split; [reflexivity|]. split; [lia|].
  rewrite to_io_mem. split.
  - intros i Hi. rewrite put_at.
    replace (_ && _) with true by lia. f_equal. lia.
  - intros x Hx. rewrite put_at. replace (_ && _) with false by lia. reflexivity.
Qed.

(** On a little endian host a read gets the bytes from there, as many as it asked for, and
    changes nothing. *)
Theorem C113_read : forall c m t, fits c t -> t_write t = false -> c_big c = false ->
  (forall i, m i < 256) ->
  exists t' ops a, b_transport c m t = Ok (t', m, ops, a)
  /\ t_status t' = OkResp /\ length (t_data t') = length (t_data t) /\ t_dmi t' = true
  /\ (a = true <-> N.of_nat (length (t_data t)) < 8)
  /\ read_from m (t_addr t + c_offset c) (t_data t').
Proof.
  intros c m t Hf Hw Hl Hm. rewrite (fits_run c m t Hf), Hw, Hl. do 3 eexists.
  split; [reflexivity|]. cbn [t_status t_data t_dmi]. rewrite from_io_data by exact Hm.
  split; [reflexivity|]. split; [apply get_length|]. split; [reflexivity|]. split; [lia|].
  intros i Hi. rewrite get_length in Hi. apply get_nth. exact Hi.
Qed.

(** Aligned accesses of 1, 2, 4 and 8 bytes reach the device as one access of that size (the
    mapping begins at a page). *)
Theorem C113_single : forall c m t, fits c t -> c_base c mod 4096 = 0 ->
  In (N.of_nat (length (t_data t))) [1; 2; 4; 8] ->
  (t_addr t + c_offset c) mod N.of_nat (length (t_data t)) = 0 ->
  exists t' m' a, b_transport c m t =
    Ok (t', m', [Single (t_write t) (t_addr t + c_offset c) (N.of_nat (length (t_data t)))], a).
Proof.
  intros c m t Hf Hb Hn Ha. rewrite (fits_run c m t Hf).
  assert (S : single (c_base c + (t_addr t + c_offset c)) (N.of_nat (length (t_data t))) = true)
    by (apply single_ok; [exact Hn|apply align_sum; assumption]).
  destruct (t_write t); unfold to_io, from_io.
  - rewrite S. do 3 eexists. reflexivity.
  - rewrite S. destruct (N.of_nat (length (t_data t)) =? 1) eqn:E.
    + replace (N.of_nat (length (t_data t))) with 1 by lia. do 3 eexists. reflexivity.
    + do 3 eexists. reflexivity.
Qed.

(** Whatever the length, what the device sees is in the direction and at the bytes of the
    transaction. *)
Theorem C113_touches : forall c m t t' m' ops a, fits c t ->
  b_transport c m t = Ok (t', m', ops, a) ->
  let off := t_addr t + c_offset c in let len := N.of_nat (length (t_data t)) in
  ops = [Single (t_write t) off len] \/ ops = [Copy (t_write t) off len].
Proof.
  intros c m t t' m' ops a Hf. rewrite (fits_run c m t Hf).
  assert (K : forall (A B C D : Type) (w x : A) (y y' : B) (z z' : C) (u u' : D),
            Ok (w, y, z, u) = Ok (x, y', z', u') -> z = z') by (intros; congruence).
  destruct (t_write t); intros H; apply K in H; subst ops; cbn zeta; unfold to_io, from_io.
  - destruct (single _ _); [left|right]; reflexivity.
  - destruct (N.of_nat (length (t_data t)) =? 1) eqn:E.
    + left. replace (N.of_nat (length (t_data t))) with 1 by lia. reflexivity.
    + destruct (single _ _); [left|right]; reflexivity.
Qed.

(** Byte enables and streaming are refused, and the device sees nothing. *)
Theorem C113_refused : forall c m t,
  t_be t = true \/ (0 < t_sw t /\ t_sw t < N.of_nat (length (t_data t))) ->
  exists t', b_transport c m t = Ok (t', m, [], false) /\ t_data t' = t_data t
  /\ t_dmi t' = t_dmi t
  /\ t_status t' = if t_be t then ByteEnableError else BurstError.
Proof.
  intros c m t H. unfold b_transport. destruct (t_be t) eqn:E.
  - eexists. repeat split.
  - destruct H as [H|H]; [discriminate|].
    replace (negb (t_sw t =? 0) && (t_sw t <? N.of_nat (length (t_data t)))) with true by lia.
    eexists. repeat split.
Qed.

Definition c0 : cfg := mkCfg 8192 64 16 false.
Definition m0 : mem := fun i => (i * 7 + 3) mod 256.

(** A write of 4 bytes and a read of 3 bytes behind an offset of 16 *)
Example C113_case :
  (exists m', b_transport c0 m0 (mkTrans 4 true [1; 2; 3; 4] false 4 Incomplete false)
     = Ok (mkTrans 4 true [1; 2; 3; 4] false 4 OkResp true, m', [Single true 20 4], true)
     /\ get m' 19 6 = [136; 1; 2; 3; 4; 171])
  /\ b_transport c0 m0 (mkTrans 5 false [0; 0; 0] false 0 Incomplete false)
     = Ok (mkTrans 5 false [150; 157; 164] false 0 OkResp true, m0, [Copy false 21 3], true).
Proof. split; [eexists; split|]; vm_compute; reflexivity. Qed.

(** Accesses beyond the mapping are not answered with an error: they are made, outside of the
    mapping (l.277-279 has no return). *)
Theorem C113_range_refuted : forall c m t, t_be t = false -> t_sw t = 0 ->
  t_addr t + c_offset c < u64 ->
  c_size c < t_addr t + c_offset c + N.of_nat (length (t_data t)) -> b_transport c m t = UB.
Proof.
  intros c m t Hb Hs Hu H. unfold b_transport. rewrite Hb, Hs. cbn [N.eqb negb andb].
  cbn zeta. rewrite (N.mod_small (t_addr t + c_offset c)) by lia.
  replace (c_size c <? _) with true by lia. reflexivity.
Qed.

Example C113_range_case :
  b_transport c0 m0 (mkTrans 46 true [1; 2; 3; 4] false 0 Incomplete false) = UB.
Proof. vm_compute. reflexivity. Qed.

(** On a big endian host aligned reads of 2 and 4 bytes lose their bytes. *)
Theorem C113_big_endian_refuted : exists c m t t' ops a, fits c t /\ c_big c = true
  /\ (forall i, m i < 256) /\ b_transport c m t = Ok (t', m, ops, a)
  /\ t_status t' = OkResp /\ ~ read_from m (t_addr t + c_offset c) (t_data t').
Proof.
  exists (mkCfg 8192 64 16 true), m0, (mkTrans 4 false [0; 0; 0; 0] false 0 Incomplete false).
  do 3 eexists. split; [unfold fits; cbn; unfold u64; lia|]. split; [reflexivity|].
  split; [intros i; unfold m0; apply N.mod_lt; lia|].
  split; [reflexivity|]. split; [reflexivity|].
  intros H. specialize (H 0%nat). vm_compute in H. specialize (H (le_S _ _ (le_S _ _ (le_S _ _ (le_n _))))).
  discriminate.
Qed.

(** DMI: the region is the mapping from its first byte on, whatever the offset; with no offset
    an address is the host address that transactions of this address access. *)
Theorem C113_dmi : forall c, 0 < c_size c < u64 ->
  forall x, (d_start (get_dmi c) <= x <= d_end (get_dmi c) <-> x < c_size c)
  /\ d_ptr (get_dmi c) + (x - d_start (get_dmi c)) = c_base c + x
  /\ (c_offset c = 0 ->
      d_ptr (get_dmi c) + (x - d_start (get_dmi c)) = c_base c + (x + c_offset c)).
Proof.
  intros c Hs x. unfold get_dmi. cbn [d_start d_end d_ptr].
  replace (c_size c + u64 - 1) with (c_size c - 1 + 1 * u64) by lia.
  rewrite N.mod_add by discriminate. rewrite N.mod_small by lia. repeat split; lia.
Qed.

(** With an offset, DMI goes to another place of the device than transactions do, for each
    address, and the region goes past the end of the mapping as transactions see it. *)
Theorem C113_dmi_refuted : forall c, c_offset c <> 0 -> forall x,
  d_ptr (get_dmi c) + (x - d_start (get_dmi c)) <> c_base c + (x + c_offset c).
Proof. intros c Ho x. unfold get_dmi. cbn [d_start d_ptr]. lia. Qed.

Example C113_dmi_case :
  (d_ptr (get_dmi c0) + 4, c_base c0 + (4 + c_offset c0), d_end (get_dmi c0)) = (8196, 8212, 63).
Proof. vm_compute. reflexivity. Qed.

(** The data and byte enable buffers of the payloads of tlm_mm_vfio lie in the mapping and have
    no byte in common, as long as the sizes fit 32 bits. *)
Theorem C113_buffers : forall map nr size i j, nr * size * 2 < u32 -> i < nr -> j < nr ->
  let inside a := map <= a /\ a + size <= map + mm_mapped nr size in
  inside (mm_data map nr size i) /\ inside (mm_be map nr size i)
  /\ apart (mm_data map nr size i) (mm_be map nr size j) size
  /\ (i <> j -> apart (mm_data map nr size i) (mm_data map nr size j) size
                /\ apart (mm_be map nr size i) (mm_be map nr size j) size).
Proof.
  intros map nr size i j Hs Hi Hj. cbn zeta.
  assert (P : forall k, k < nr -> k * size + size <= nr * size) by (intros; nia).
  pose proof (P i Hi) as Pi. pose proof (P j Hj) as Pj.
  assert (O : i <> j -> i * size + size <= j * size \/ j * size + size <= i * size) by
    (intros; assert (i < j \/ j < i) as [?|?] by lia; [left|right]; nia).
  unfold mm_data, mm_be, mm_mapped, mm_size, apart.
  rewrite (N.mod_small (i * size)), (N.mod_small (j * size)), (N.mod_small (nr * size + i * size)),
    (N.mod_small (nr * size + j * size)), (N.mod_small (nr * size * 2)) by lia.
  generalize dependent (i * size). generalize dependent (j * size).
  generalize dependent (nr * size). intros. lia.
Qed.

Example C113_buffers_case :
  (mm_data 4096 3 256 2, mm_be 4096 3 256 0, mm_be 4096 3 256 2, mm_mapped 3 256)
  = (4608, 4864, 5376, 3072).
Proof. vm_compute. reflexivity. Qed.

(** The destructor unmaps half of what was mapped. *)
Theorem C113_unmap_refuted : forall nr size, 0 < nr -> 0 < size -> nr * size * 2 < u32 ->
  mm_unmapped nr size * 2 = mm_mapped nr size /\ mm_unmapped nr size < mm_mapped nr size.
Proof.
  intros nr size Hn Hs H. unfold mm_unmapped, mm_mapped, mm_size.
  rewrite N.mod_small by exact H. nia.
Qed.

(** Interrupts: while the line of the device is up, the interrupt is on its way, in every state
    that any interleaving reaches: three steps of the thread and one of irq_proxy show it. *)
Theorem C113_seen : forall es, level (run init es) = true ->
  out (run init (es ++ [Poll; Poll; Poll; Proxy])) = true.
Proof.
  intros es H. rewrite run_app. pose proof (inv_run es init inv_init) as I.
  destruct (run init es) as [l m c p v e o]. cbn [level] in H. subst l.
  unfold inv in I. cbn [level masked cnt ph irq_val ev out] in I. destruct I as (I1 & I2 & I3).
  specialize (I2 (I1 eq_refl)).
  destruct p, c, v, e, o; cbn; try reflexivity; intuition discriminate.
Qed.

(** A pulse of a line that is not masked is shown, although the line is down again before the
    thread wakes. *)
Theorem C113_pulse : forall es, masked (run init es) = false ->
  out (run init (es ++ [Line true; Line false; Poll; Poll; Poll; Proxy])) = true.
Proof.
  intros es H. rewrite run_app. destruct (run init es) as [l m c p v e o].
  cbn [masked] in H. subst m. destruct p, c, v, e, o; reflexivity.
Qed.

(** The line does not rise *)
Definition no_rise (e : event) : Prop := match e with Line b => b = false | _ => True end.

Lemma run_keeps (P : st -> Prop) (Q : event -> Prop) :
  (forall s e, P s -> Q e -> P (step s e)) ->
  forall es s, Forall Q es -> P s -> P (run s es).
Proof.
  intros K. induction es as [|e es IH]; intros s H Hp; [exact Hp|].
  inversion H; subst. cbn [run fold_left]. apply IH; [assumption|]. now apply K.
Qed.

(** When the line is down, one transaction of less than 8 bytes takes the interrupt away once
    the thread has caught up, and it stays away until the line rises. *)
Theorem C113_acked : forall es n es', level (run init es) = false -> n < 8 ->
  Forall no_rise es' ->
  let s := run init (es ++ [Poll; Poll; Poll; Access n; Proxy] ++ es') in
  out s = false /\ masked s = false.
Proof.
  intros es n es' H Hn H'. cbn zeta. rewrite !run_app. pose proof (inv_run es init inv_init) as I.
  set (quiet := fun s => level s = false /\ masked s = false /\ cnt s = false /\ ph s = PRead
                         /\ irq_val s = false /\ out s = false).
  assert (Q0 : quiet (run (run init es) [Poll; Poll; Poll; Access n; Proxy])).
  { destruct (run init es) as [l m c p v e o]. cbn [level] in H. subst l.
    unfold inv in I. cbn [level masked cnt ph irq_val ev out] in I. destruct I as (I1 & I2 & I3).
    unfold quiet. cbn [run fold_left step]. unfold access. replace (n <? 8) with true by lia.
    destruct m, p, c, v, e, o; cbn; try (repeat split; reflexivity); intuition discriminate. }
  assert (Q : quiet (run (run (run init es) [Poll; Poll; Poll; Access n; Proxy]) es')).
  { apply (run_keeps quiet no_rise); [|exact H'|exact Q0].
    intros [l m c p v e o] x (E1 & E2 & E3 & E4 & E5 & E6) Hx.
    cbn [level masked cnt ph irq_val out] in *. subst.
    destruct x as [b| |k|]; cbn [no_rise] in Hx; subst; unfold quiet; cbn [step].
    - cbn. repeat split.
    - cbn. repeat split.
    - unfold access, irq_ack. cbn [irq_val]. destruct (k <? 8); repeat split.
    - destruct e; repeat split. }
  destruct Q as (_ & E2 & _ & _ & _ & E6). split; assumption.
Qed.

(** No transaction of less than 8 bytes: an interrupt stays, though the line went down, whatever
    else happens. *)
Definition not_short (e : event) : Prop := match e with Access n => 8 <= n | _ => True end.

Theorem C113_long_refuted : forall es, Forall not_short es ->
  out (run init ([Line true; Poll; Poll; Poll; Proxy; Line false] ++ es)) = true.
Proof.
  intros es H. rewrite run_app.
  assert (K : forall es s, Forall not_short es -> out s = true -> irq_val s = true ->
                out (run s es) = true).
  { clear. induction es as [|e es IH]; intros s H Ho Hv; [exact Ho|].
    inversion H; subst. cbn [run fold_left]. apply IH; [assumption| |];
      destruct e as [b| |n|]; cbn [step not_short] in *;
      unfold set_line, poll, access, unmask, proxy;
      try (replace (n <? 8) with false by lia);
      repeat match goal with |- context [if ?b then _ else _] => destruct b end;
      try destruct (ph s); repeat match goal with |- context [if ?b then _ else _] => destruct b end;
      cbn; assumption || reflexivity. }
  apply K; [exact H|reflexivity|reflexivity].
Qed.

(** An interrupt is counted once: until it is acknowledged the thread blocks in its read,
    whatever the line does. *)
Theorem C113_once : forall es, Forall not_short es ->
  let s := run init ([Poll; Line true; Poll; Poll] ++ es) in
  cnt s = false /\ ph s = PRead /\ irq_val s = true.
Proof.
  intros es H. cbn zeta. rewrite run_app.
  assert (P : (fun s => masked s = true /\ cnt s = false /\ ph s = PRead /\ irq_val s = true)
              (run (run init [Poll; Line true; Poll; Poll]) es)).
  { apply (run_keeps (fun s => masked s = true /\ cnt s = false /\ ph s = PRead
                                 /\ irq_val s = true) not_short); [|exact H|repeat split].
    intros [l m c p v e o] x (E1 & E2 & E3 & E4) Hx.
    cbn [masked cnt ph irq_val] in *. subst.
    destruct x as [b| |k|]; cbn [not_short] in Hx; cbn [step].
    - destruct b; repeat split.
    - repeat split.
    - unfold access. replace (k <? 8) with false by lia. repeat split.
    - destruct e; repeat split. }
  exact (proj2 P).
Qed.

(** The line rises again while the first interrupt is acknowledged *)
Example C113_irq_case :
  let es := [Line true; Poll; Poll; Poll; Proxy; Line false; Line true; Access 4; Proxy] in
  (out (run init es), cnt (run init es), masked (run init es)) = (false, true, true)
  /\ out (run init (es ++ [Poll; Poll; Poll; Proxy])) = true.
Proof. vm_compute. split; reflexivity. Qed.

Print Assumptions C113_write.
Print Assumptions C113_read.
Print Assumptions C113_single.
Print Assumptions C113_touches.
Print Assumptions C113_refused.
Print Assumptions C113_range_refuted.
Print Assumptions C113_big_endian_refuted.
Print Assumptions C113_dmi.
Print Assumptions C113_dmi_refuted.
Print Assumptions C113_buffers.
Print Assumptions C113_unmap_refuted.
Print Assumptions C113_seen.
Print Assumptions C113_pulse.
Print Assumptions C113_acked.
Print Assumptions C113_long_refuted.
Print Assumptions C113_once.
