(** Without bus errors a doorbell's thread comes to an end. *)
From Verif Require Import Base LeFacts BaseFacts QdmaModel QdmaSpec QdmaBits QdmaDefs QdmaProofs QdmaRun.
From Coq Require Import ZifyN ZifyNat ZifyBool.
Open Scope N_scope.

Section Live.
Variables (cpm4 : bool) (junk : N) (hbad cbad : N -> bool).
Hypothesis (HB : forall a, hbad a = false) (CB : forall a, cbad a = false).

Lemma copy_ok sb db from n : (forall a, sb a = false) -> (forall a, db a = false) ->
  forall to src dst, exists m, copy sb db from to src dst n = Ok m.
Proof.
  intros S D. induction n as [|n IH]; intros; cbn [copy]; [eauto|]. rewrite S, D. apply IH.
Qed.
Lemma fetch_ok m a d : fetch hbad m a d = Ok (rd m a (N.to_nat d)).
Proof.
  unfold fetch. assert (E : existsb (fun i => hbad (a64 (a + 4 * N.of_nat i))) (seq 0 (N.to_nat (d / 4))) = false).
  { induction (seq 0 (N.to_nat (d / 4))) as [|x l IH]; cbn [existsb]; [reflexivity|]. now rewrite HB, IH. }
  now rewrite E.
Qed.

Lemma top_ok s t : t_ph t = Top -> 32 <= t_dsz t ->
  sw_pidx (sw_of s t) <> hw_cidx (hw_of s t) ->
  exists s1, step cpm4 junk hbad cbad s t = Ok (s1, at_phase t Copied) /\ keeps s s1.
Proof.
  intros P D NE. unfold step. rewrite P.
  destruct (N.eqb_spec (sw_pidx (sw_of s t)) (hw_cidx (hw_of s t))); [contradiction|].
  rewrite fetch_ok. cbn [rbind]. destruct (N.ltb_spec (t_dsz t) 32); [lia|].
  set (d := rd _ _ _).
  destruct (t_h2c t).
  - destruct (copy_ok hbad cbad (q_host s) (words_of (N.land (le_fld 8 8 d) (N.ones 28))) HB CB
      (q_card s) (le_fld 0 8 d) (le_fld 16 8 d)) as [m ->].
    cbn [rmap rbind]. eexists. split; [reflexivity|]. repeat split.
  - destruct (copy_ok cbad hbad (q_card s) (words_of (N.land (le_fld 8 8 d) (N.ones 28))) CB HB
      (q_host s) (le_fld 0 8 d) (le_fld 16 8 d)) as [m ->].
    cbn [rmap rbind]. eexists. split; [reflexivity|]. repeat split.
Qed.

Lemma write_entry_ok s r e : exists s1, write_entry cpm4 hbad s r e = Ok s1.
Proof. unfold write_entry. rewrite HB. destruct (_ =? _); eauto. Qed.

Lemma finish_ok s t : irq_ready cpm4 s (t_q t) (t_h2c t) ->
  exists s1, finish cpm4 junk hbad s t = Ok (s1, at_phase t Top).
Proof.
  intro I. unfold finish.
  assert (W : exists m1, write_status hbad s t = Ok (set_host s m1)).
  { unfold write_status. destruct (sw_writeback (sw_of s t)).
    - rewrite fetch_ok. cbn [rbind]. rewrite HB. eauto.
    - exists (q_host s). now destruct s. }
  destruct W as [m1 ->]. cbn [rbind].
  assert (IR : sw_irq_arm (sw_of (set_host s m1) t) && sw_irq_enabled (sw_of (set_host s m1) t)
               = g_interrupt (software s (t_q t) (t_h2c t))).
  { unfold sw_irq_arm, sw_irq_enabled, g_interrupt. rewrite !bit_on_flag. reflexivity. }
  rewrite IR. unfold irq_ready in I.
  destruct (g_interrupt (software s (t_q t) (t_h2c t))); cbn [negb]; [|eauto]. specialize (I eq_refl).
  rewrite aggr_rings. change (rings cpm4 (set_host s m1) (t_q t) (t_h2c t)) with (rings cpm4 s (t_q t) (t_h2c t)).
  destruct (rings cpm4 s (t_q t) (t_h2c t)).
  - destruct I as (I1 & I2 & I3). unfold aggregate. rewrite vec_vector.
    change (vector cpm4 (set_host s m1) (t_q t) (t_h2c t)) with (vector cpm4 s (t_q t) (t_h2c t)).
    set (r := vector cpm4 s (t_q t) (t_h2c t)) in *. change QDMA_QUEUE_COUNT with 2.
    destruct (N.leb_spec 2 r); [lia|].
    change (q_ctx (set_host s m1) r SELC_INT_COAL) with (q_ctx s r 8).
    set (c := bf_set (it_pidx_at cpm4) 12 (q_ctx s r 8) (t_pidx t)).
    set (s1 := set_ctx _ _ _ c).
    assert (RC : ring_of cpm4 c = ring cpm4 s r) by apply ring_of_pidx.
    destruct (rg_fields cpm4 c) as (EV & _). rewrite EV, RC, I2. cbn [negb].
    set (e := mk_entry _ _ _ _ _ _ _). destruct (write_entry_ok s1 r e) as [s2 W]. rewrite W. cbn [rbind].
    pose proof (write_entry_spec _ _ _ _ _ _ W) as (_ & _ & _ & _ & W4 & _).
    assert (R1 : ring cpm4 s1 r = ring cpm4 s r).
    { unfold ring at 1. unfold s1. change 8 with SELC_INT_COAL. rewrite ctx_same. exact RC. }
    rewrite R1 in W4.
    assert (V2 : it_vector cpm4 (q_ctx s2 r SELC_INT_COAL) < 8).
    { destruct (rg_fields cpm4 (q_ctx s2 r SELC_INT_COAL)) as (_ & X & _). rewrite X.
      change (ring_of cpm4 (q_ctx s2 r SELC_INT_COAL)) with (ring cpm4 s2 r). rewrite W4.
      unfold next_ring. now destruct (_ =? _). }
    unfold notify. change NR_QDMA_IRQ with 8.
    destruct (N.leb_spec 8 (it_vector cpm4 (q_ctx s2 r SELC_INT_COAL))) as [LL|LL]; [exfalso; clear - LL V2; lia|].
    cbn [rmap]. eexists. reflexivity.
  - rewrite vec_vector. change (vector cpm4 (set_host s m1) (t_q t) (t_h2c t)) with (vector cpm4 s (t_q t) (t_h2c t)).
    unfold notify. change NR_QDMA_IRQ with 8.
    destruct (N.leb_spec 8 (vector cpm4 s (t_q t) (t_h2c t))); [lia|]. cbn [rmap]. eexists. reflexivity.
Qed.

Lemma irq_ready_ext s s' q h2c :
  (forall a b, (a, b) <> (q, hw_sel h2c) -> q_ctx s' a b = q_ctx s a b) ->
  irq_ready cpm4 s q h2c -> irq_ready cpm4 s' q h2c.
Proof.
  intros E I. unfold irq_ready in *.
  assert (S : software s' q h2c = software s q h2c)
    by (unfold software; apply E; destruct h2c; unfold hw_sel; congruence).
  assert (V : q_ctx s' q 12 = q_ctx s q 12) by (apply E; destruct h2c; unfold hw_sel; congruence).
  assert (VE : vector cpm4 s' q h2c = vector cpm4 s q h2c) by (unfold vector; now rewrite S, V).
  assert (RE : rings cpm4 s' q h2c = rings cpm4 s q h2c) by (unfold rings; now rewrite S, V).
  rewrite S, VE, RE. unfold ring in *. rewrite E by (destruct h2c; unfold hw_sel; congruence). exact I.
Qed.

Lemma run_S n s t s1 t1 s' : t_ph t <> Done -> step cpm4 junk hbad cbad s t = Ok (s1, t1) ->
  run cpm4 junk hbad cbad n s1 t1 = Ok s' -> run cpm4 junk hbad cbad (S n) s t = Ok s'.
Proof. intros P S R. cbn [run]. rewrite S. cbn [rbind fst snd]. destruct (t_ph t); try assumption. now elim P. Qed.

Lemma run_ok : junk < 2 ^ 64 -> forall l s t,
  let p := t_pidx t in let sw := sw_of s t in
  t_ph t = Top -> fits s t -> sw_pidx sw = p -> p < t_ring t ->
  hw_cidx (hw_of s t) < t_ring t ->
  batch (hw_cidx (hw_of s t)) p (t_ring t) = l ->
  32 <= t_dsz t -> irq_ready cpm4 s (t_q t) (t_h2c t) ->
  exists n s', run cpm4 junk hbad cbad n s t = Ok s'.
Proof.
  intro J. induction l as [|i l IH]; intros s t p sw PH F SP PR HR B D I.
  - assert (C : hw_cidx (hw_of s t) = p).
    { destruct (N.eqb_spec (hw_cidx (hw_of s t)) p) as [E|E]; [exact E|].
      rewrite batch_cons in B by assumption. discriminate. }
    exists 1%nat, s. cbn [run]. rewrite PH. unfold step. rewrite PH. fold sw.
    rewrite SP, C, N.eqb_refl. reflexivity.
  - assert (NE : hw_cidx (hw_of s t) <> p).
    { intro E. rewrite E, batch_nil in B by assumption. discriminate. }
    rewrite batch_cons in B by assumption. injection B as BI BL.
    destruct (top_ok s t PH D) as (s1 & ST & (K1 & K2 & K3 & K4)).
    { fold sw. rewrite SP. intro X. now elim NE. }
    set (t1 := at_phase t Copied) in *.
    assert (HW1 : hw_of s1 t1 = hw_of s t) by (unfold hw_of; now rewrite K2).
    assert (SW1 : sw_of s1 t1 = sw) by (unfold sw_of; now rewrite K2).
    pose proof (size_bound sw) as SB. destruct F as (F1 & F2 & F3). fold sw in F2, F3.
    pose proof (step_copied cpm4 junk hbad cbad s1 t1 eq_refl) as ST2.
    change (t_ring t1) with (t_ring t) in ST2. rewrite HW1, SW1, SP in ST2.
    specialize (ST2 ltac:(rewrite F2; apply SB) HR). cbv zeta in ST2.
    set (c' := nxt (t_ring t) (hw_cidx (hw_of s t))) in *.
    assert (CL : c' < t_ring t) by now apply nxt_lt.
    set (a := advance s1 t1 c') in *.
    assert (CA : hw_cidx (hw_of a t) = c').
    { unfold a. change (hw_of (advance s1 t1 c') t) with (hw_of (advance s1 t1 c') t1).
      rewrite hw_advance, HW1. unfold hw_cidx. rewrite bf_set_same. apply N.mod_small. change (2 ^ 16) with 65536. lia. }
    assert (SA : sw_of a t = sw).
    { unfold a. change (sw_of (advance s1 t1 c') t) with (sw_of (advance s1 t1 c') t1). now rewrite sw_advance. }
    assert (XA : forall x y, (x, y) <> (t_q t, hw_sel (t_h2c t)) -> q_ctx a x y = q_ctx s x y).
    { intros x y XD. unfold a, advance. rewrite ctx_other by exact XD. now rewrite K2. }
    assert (IA : irq_ready cpm4 a (t_q t) (t_h2c t)) by (eapply irq_ready_ext; [exact XA|exact I]).
    destruct (N.eqb_spec p c') as [PC|PC]; cbn [negb] in ST2.
    + destruct (finish_ok a t1 IA) as [s2 FO]. rewrite FO in ST2.
      destruct (finish_spec cpm4 junk hbad a t1 s2 _ FO) as [_ CO].
      { unfold fits. change (sw_of a t1) with (sw_of a t). rewrite SA. auto. }
      { exact J. } { change (t_pidx t1) with p. lia. }
      { change (hw_of a t1) with (hw_of a t). rewrite CA. now symmetry. }
      change (t_q t1) with (t_q t) in CO. change (t_h2c t1) with (t_h2c t) in CO.
      assert (SAME : sw_of s2 t = sw_of a t /\ hw_of s2 t = hw_of a t).
      { unfold completed in CO. destruct CO as (_ & _ & m1 & _ & CO).
        change (software a (t_q t) (t_h2c t)) with (sw_of a t) in CO.
        destruct (g_interrupt (sw_of a t)).
        - destruct (rings cpm4 a (t_q t) (t_h2c t)).
          + destruct CO as (_ & _ & _ & _ & _ & E & _). unfold sw_of, hw_of.
            split; apply E; destruct (t_h2c t); unfold sw_sel, hw_sel; congruence.
          + destruct CO as (_ & _ & E & _). unfold sw_of, hw_of. now rewrite E.
        - destruct CO as (_ & _ & E & _). unfold sw_of, hw_of. now rewrite E. }
      destruct SAME as [SE HE].
      assert (P0 : t_ph t <> Done) by (rewrite PH; discriminate).
      assert (P1 : t_ph t1 <> Done) by discriminate.
      set (t2 := at_phase t1 Top) in *. assert (P2 : t_ph t2 <> Done) by discriminate.
      exists 3%nat, s2. apply (run_S _ _ _ _ _ _ P0 ST). apply (run_S _ _ _ _ _ _ P1 ST2).
      assert (ST3 : step cpm4 junk hbad cbad s2 t2 = Ok (s2, at_phase t2 Done)).
      { unfold step. change (t_ph t2) with Top.
        change (sw_of s2 t2) with (sw_of s2 t). change (hw_of s2 t2) with (hw_of s2 t).
        rewrite SE, HE, SA, CA, SP, <- PC, N.eqb_refl. reflexivity. }
      apply (run_S _ _ _ _ _ _ P2 ST3). reflexivity.
    + destruct (IH a (at_phase t1 Top)) as (n & s' & R).
      * reflexivity.
      * unfold fits. change (sw_of a (at_phase t1 Top)) with (sw_of a t). rewrite SA. auto.
      * change (sw_of a (at_phase t1 Top)) with (sw_of a t). rewrite SA. exact SP.
      * exact PR.
      * change (hw_of a (at_phase t1 Top)) with (hw_of a t). rewrite CA. exact CL.
      * change (hw_of a (at_phase t1 Top)) with (hw_of a t). rewrite CA. exact BL.
      * exact D.
      * exact IA.
      * assert (P0 : t_ph t <> Done) by (rewrite PH; discriminate).
        assert (P1 : t_ph t1 <> Done) by discriminate.
        exists (S (S n)), s'. apply (run_S _ _ _ _ _ _ P0 ST). exact (run_S _ _ _ _ _ _ P1 ST2 R).
Qed.
End Live.
