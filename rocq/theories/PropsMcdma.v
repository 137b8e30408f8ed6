(** Properties of the Xilinx MCDMA model (mcdma.cc): transmit chains (C74),
    received packets (C75), interrupts (C76), starting a channel (C77). *)
From Verif Require Import Base BaseFacts LeFacts TlmModel TlmSpec TlmFacts RegapiModel RegapiSpec RegapiProofs
  McdmaModel McdmaSpec McdmaProofs McdmaTx McdmaRx McdmaIrq McdmaStart.
Open Scope N_scope.

(** * C74: transmit chains *)

(** Whatever the interleaving, each channel has sent the packets of a first part
    of its chain, in order and with the bytes of memory; a descriptor is marked
    completed only after its packet was sent, nothing else owned changes, and
    when the engine waits all chains are done.  Partial: data up to 128 KiB, no
    bus errors, fresh descriptors. *)
Theorem C74_delivery_partial bad nch chains m0 s0 n w s : (nch <= 16)%nat ->
  posted bad nch chains m0 -> ready nch chains m0 s0 -> runs bad nch chains m0 s0 n w s ->
  exists sent k,
    (forall c, of_channel c (t_out s) = of_channel c (t_out s0) ++ map (packet_of m0 c) (firstn (sent c) (chains c))) /\
    (forall c, (c < nch)%nat -> (k c <= sent c <= S (k c))%nat /\ (sent c <= length (chains c))%nat) /\
    marked nch chains m0 k (t_mem s) /\
    (t_pc s = P_wait -> forall c, (c < nch)%nat -> k c = length (chains c)).
Proof.
  intros Hn HP [Rm Rs Rr Rb Rp Ra] HR.
  assert (I0 : inv nch chains m0 (t_out s0) (fun _ => 0%nat) s0)
    by (apply armed_inv; auto; unfold BUFSZ; clear - Rb; lia).
  destruct (runs_ok bad nch chains m0 (t_out s0) Hn HP s0 n w s HR _ I0) as [k [I _]].
  pose proof (i_pc _ _ _ _ _ _ I) as P.
  assert (AD : forall c, pushed (t_pc s) c = 1%nat -> (k c < length (chains c))%nat).
  { intros c Hc. destruct (t_pc s) as [| |c0 x a|c0 x bd|c0 x bd|c0 x bd|c0 x bd d|c0 x bd|c0 x bd a|c0 x bd];
      cbn [pushed] in Hc; try discriminate; destruct (Nat.eqb_spec c c0) as [X|X]; try discriminate; rewrite X;
      destruct P as [[_ [B _]] _]; exact B. }
  assert (LP : forall c, (stored (t_pc s) c <= pushed (t_pc s) c <= 1)%nat).
  { intro c. destruct (t_pc s); cbn [stored pushed]; try (clear; lia); destruct (Nat.eqb c _); clear; lia. }
  exists (fun c => k c + pushed (t_pc s) c)%nat, (fun c => k c + stored (t_pc s) c)%nat.
  refine (conj (i_out _ _ _ _ _ _ I) (conj _ (conj (i_mark _ _ _ _ _ _ I) _))).
  - intros c Hc. specialize (LP c). destruct (i_chan _ _ _ _ _ _ I c Hc) as [L _].
    split; [clear - LP; lia|]. specialize (AD c). destruct (pushed (t_pc s) c) as [|[|z]]; [clear - L; lia| |clear - LP; lia].
    specialize (AD eq_refl). clear - AD. lia.
  - intros E c Hc. rewrite E in P |- *. cbn [pc_ok stored] in P |- *. rewrite (P c Hc). apply Nat.add_0_r.
Qed.

(** The engine always gets on, and stops: at most ten steps per descriptor and
    per notification. *)
Theorem C74_progress_partial bad nch chains m0 s0 n w s : (nch <= 16)%nat ->
  posted bad nch chains m0 -> ready nch chains m0 s0 -> runs bad nch chains m0 s0 n w s ->
  (n <= 10 * (total nch chains + 1 + w))%nat /\
  (t_pc s <> P_wait -> exists s', step bad nch L_thread s = Ok s').
Proof.
  intros Hn HP [Rm Rs Rr Rb Rp Ra] HR.
  assert (I0 : inv nch chains m0 (t_out s0) (fun _ => 0%nat) s0)
    by (apply armed_inv; auto; unfold BUFSZ; clear - Rb; lia).
  destruct (runs_ok bad nch chains m0 (t_out s0) Hn HP s0 n w s HR _ I0) as [k [I L]].
  split.
  - rewrite Rp in L. cbn [rank] in L.
    assert (E : left_over nch chains (fun _ => 0%nat) = total nch chains).
    { unfold left_over, total. f_equal. apply map_ext. intro c. apply Nat.sub_0_r. }
    rewrite E in L. clear - L. lia.
  - intro W. destruct (thread_ok bad nch chains m0 (t_out s0) Hn HP k s I W) as [k' [s' [E _]]]. exists s'. exact E.
Qed.

(** What the engine tolerates meanwhile: interrupt updates, register reads,
    acknowledging channel 1, memory accesses elsewhere. *)
Theorem C74_tolerates bad nch chains m0 s l s' : (nch <= 16)%nat -> regs_ok (t_regs s) -> mem_ok (t_mem s) ->
  match l with
  | L_irqs => True
  | L_bus g => bytes_ok (g_data g) /\ (g_cmd g = C_READ \/ exists v, v < u32 /\ g = write32 68 v)
  | L_mem m => mem_ok m /\ forall x, owned nch chains m0 x -> m x = t_mem s x
  | _ => False
  end ->
  step bad nch l s = Ok s' -> quiet nch chains m0 s s'.
Proof.
  intros Hn Hr Hm Hl E. destruct l as [|g|c d| | |m]; try contradiction.
  - destruct Hl as [B [R|[v [Hv ->]]]].
    + cbn [step] in E. destruct (bus_cases g s Hr B) as [s1 [d [E1 [O [_ [Em [Eb [Eo [_ [_ [_ [r1 [d1 [st1 [T C]]]]]]]]]]]]]]].
      pose proof E1 as E2. rewrite E1 in E. cbn [rmap fst] in E. apply ok_inj in E. subst s'.
      destruct (transport_cases (t_regs s) g Hr B) as [r2 [d2 [st2 [T2 [_ C2]]]]]. 
      unfold bus in E2. rewrite T2 in E2. cbn [rbind] in E2. rewrite R in E2. cbn [negb andb] in E2.
      assert (E3 : s1 = with_irqs (with_regs s r2) true) by congruence.
      assert (Er : r2 = t_regs s).
      { destruct C2 as [->|[i [Hi [_ [_ [Hx ->]]]]]]; [reflexivity|]. rewrite R.
        pose proof mcdma_small as SM. rewrite forallb_forall in SM. specialize (SM i Hi). unfold small_info in SM.
        apply andb_true_iff in SM. destruct SM as [_ SM]. apply N.eqb_eq in SM.
        unfold reg_new. rewrite SM, N.ldiff_0_r. apply (nth_ext _ _ 0 0).
        - rewrite set_reg_length; [reflexivity|]. rewrite (regs_ok_len _ Hr). exact Hx.
        - intros j _. change (nth j (set_reg (t_regs s) (N.to_nat (ri_addr i / 4)) (reg (t_regs s) (N.to_nat (ri_addr i / 4)))) 0)
            with (reg (set_reg (t_regs s) (N.to_nat (ri_addr i / 4)) (reg (t_regs s) (N.to_nat (ri_addr i / 4)))) j).
          rewrite reg_set by (rewrite (regs_ok_len _ Hr); exact Hx).
          destruct (Nat.eqb_spec j (N.to_nat (ri_addr i / 4))) as [->|]; reflexivity. }
      subst s1 r2. refine (conj _ (conj eq_refl (conj eq_refl (conj Hr (conj Hm (conj (fun _ _ => eq_refl) (fun _ _ => eq_refl))))))). now left.
    + destruct (ack_first bad nch s v Hr Hv) as [s1 [E1 [O [_ [Ec [Ep [Em [Eb [Eo _]]]]]]]]].
      cbn [exec] in E1. rewrite E in E1. cbn [rbind] in E1. apply ok_inj in E1. subst s1.
      refine (conj _ (conj Eo (conj Eb (conj O (conj _ (conj _ _)))))); [now left|now rewrite Em|auto|intros; now rewrite Em].
  - cbn [step] in E. destruct (t_irqs s); apply ok_inj in E; subst s'.
    + destruct (irq_regs_spec nch (t_regs s) Hr Hn) as [O [F _]].
      refine (conj _ (conj eq_refl (conj eq_refl (conj O (conj Hm (conj _ (fun _ _ => eq_refl))))))); [now left|].
      intros c Hc. apply ctl_frame. intros j Hj. apply F; unfold R_MM2S_INTR, R_S2MM_INTR; clear - Hj Hc Hn; lia.
    + refine (conj _ (conj eq_refl (conj eq_refl (conj Hr (conj Hm (conj (fun _ _ => eq_refl) (fun _ _ => eq_refl))))))). now left.
  - destruct Hl as [M1 M2]. cbn [step] in E. apply ok_inj in E. subst s'.
    refine (conj _ (conj eq_refl (conj eq_refl (conj Hr (conj M1 (conj (fun _ _ => eq_refl) M2)))))). now left.
Qed.

(** * C75: received packets *)

(** Packets for a channel fill the descriptors in order, one each: data at the
    buffer, completed with first, last and the length, nothing else written;
    packets beyond the last descriptor are lost.  Partial: fresh descriptors
    large enough, no bus errors, targets that do not wait. *)
Theorem C75_receive_partial bad nch c ds l s : (nch <= 16)%nat -> (c < nch)%nat ->
  regs_ok (t_regs s) -> mem_ok (t_mem s) -> rx_posted bad l (t_mem s) -> rx_armed (t_regs s) c l ->
  fitting (t_mem s) l ds ->
  exists s', exec bad nch (map (L_rx c) ds) s = Ok s' /\ all_received (t_mem s) l ds (t_mem s') /\
    rx_armed (t_regs s') c (skipn (length ds) l) /\
    (forall c', c' <> c -> rctl (t_regs s') c' = rctl (t_regs s) c') /\
    (forall c', (c' < 16)%nat -> ctl (t_regs s') c' = ctl (t_regs s) c') /\
    t_pc s' = t_pc s /\ t_out s' = t_out s.
Proof.
  intros Hn Hc Hr Hm P A F.
  destruct (rx_all bad nch c Hn Hc ds l s Hr Hm P A F) as [s' [E [R [_ [_ [[K1 [K2 _]] [A' [B' C']]]]]]]].
  exists s'. auto 10.
Qed.

(** * C76: interrupts *)

(** In every run after a reset, and whatever is written: once update_irqs has run,
    the MM2S line is high exactly when a channel has an enabled flag set, and
    the interrupt register says which.  The same holds for S2MM if nobody writes
    its interrupt register.  Partial: no second reset. *)
Definition line_ok (nch : nat) (regs : list N) (ix : nat) (req : list N -> nat -> bool) (line : bool) : Prop :=
  line = existsb (req regs) (seq 0 nch) /\
  forall c, (c < nch)%nat -> N.testbit (nth ix regs 0) (N.of_nat c) = req regs c.
Theorem C76_lines_partial bad nch b ls s s0 s' : (nch <= 16)%nat -> regs_ok (t_regs s) ->
  t_pc s = P_wait \/ t_pc s = P_ready -> t_mm2s s = false -> t_s2mm s = false ->
  step bad nch L_reset s = Ok s0 -> Forall (no_reset b) ls -> exec bad nch (ls ++ [L_irqs]) s0 = Ok s' ->
  line_ok nch (t_regs s') 10 mm2s_requests (t_mm2s s') /\
  (b = true -> line_ok nch (t_regs s') 328 s2mm_requests (t_s2mm s')).
Proof.
  intros Hn Hr Hp L1 L2 E0 F E.
  assert (I0 : irq_inv b nch s0) by (apply (reset_inv nch s); auto; destruct Hp as [->| ->]; exact I).
  assert (D : t_irqs s' = false).
  { clear - E. revert s0 E. induction ls as [|l ls IH]; intros s0 E.
    - cbn [app exec step rbind] in E. destruct (t_irqs s0) eqn:X; apply ok_inj in E; subst s'; [reflexivity|exact X].
    - cbn [app exec] in E. destruct (step bad nch l s0) as [s1| | |]; cbn [rbind] in E; try discriminate. now apply (IH s1). }
  assert (I1 : irq_inv b nch s').
  { apply (exec_inv bad b nch (ls ++ [L_irqs]) s0); auto. apply Forall_app. split; [exact F|]. repeat constructor. }
  split; [exact (q_mline _ _ _ I1 D)|]. intro Eb. exact (q_sline _ _ _ I1 Eb D).
Qed.

(** Whenever the engine moves a channel on to its next descriptor, the channel's
    interrupt flag is set and update_irqs is due. *)
Theorem C76_complete bad nch s s' c : (nch <= 16)%nat -> (c < nch)%nat -> regs_ok (t_regs s) ->
  match t_pc s with
  | P_load x _ _ | P_loaded x _ _ | P_data x _ _ | P_got x _ _ | P_push x _ _ _ | P_pushed x _ _ | P_store x _ _ _
  | P_stored x _ _ => (x < nch)%nat
  | _ => True
  end ->
  step bad nch L_thread s = Ok s' -> k_cur (ctl (t_regs s') c) <> k_cur (ctl (t_regs s) c) ->
  ioc (t_regs s') c = true /\ t_irqs s' = true.
Proof.
  intros Hn Hc Hr P E D. cbn [step] in E. unfold thread in E. cbn zeta in E.
  destruct (t_pc s) as [| |c0 n a|c0 n bd|c0 n bd|c0 n bd|c0 n bd d|c0 n bd|c0 n bd a|c0 n bd] eqn:Ep.
  - apply ok_inj in E. subst s'. now elim D.
  - apply ok_inj in E. subst s'. now elim D.
  - destruct (load_desc bad (t_mem s) a) as [bd| | |]; cbn [rmap] in E; try discriminate. apply ok_inj in E. subst s'. now elim D.
  - destruct (bd_done MM2S_STATUS bd); apply ok_inj in E; subst s'; [|now elim D].
    exfalso. apply D. cbn [t_regs with_pc with_regs ctl k_cur].
    destruct (set_idle_spec (t_regs s) (MM2S_SR c0) MM2S_IDLE_SHIFT true Hr) as [_ [F _]]; [unfold MM2S_SR, NREGS; clear - P Hn; lia|reflexivity|].
    unfold mm2s_set_idle. unfold reg in F. rewrite !F by (unfold MM2S_SR; clear; lia). reflexivity.
  - destruct (length (t_buf s) <? bd_len bd)%nat; [discriminate|].
    destruct (dma_access bad C_READ (t_mem s) (firstn (bd_len bd) (t_buf s)) (bd_buffer bd)) as [x [d y]].
    apply ok_inj in E. subst s'. now elim D.
  - apply ok_inj in E. subst s'. now elim D.
  - apply ok_inj in E. subst s'. now elim D.
  - apply ok_inj in E. subst s'. now elim D.
  - apply ok_inj in E. subst s'. now elim D.
  - destruct (finish_spec (t_regs s) (MM2S_CR c0) (MM2S_SR c0) (MM2S_CUR_LSB c0) (MM2S_CUR_MSB c0) MM2S_IDLE_SHIFT
                (mm2s_cur (t_regs s) c0 =? mm2s_tail (t_regs s) c0) (bd_next bd) Hr) as [r [Er [O [F [_ B]]]]];
      unfold MM2S_CR, MM2S_SR, MM2S_CUR_LSB, MM2S_CUR_MSB, MM2S_IDLE_SHIFT, NREGS in *; try (clear - P Hn; lia).
    { repeat constructor; cbn; clear; lia. }
    rewrite Er in E. cbn [rmap] in E. apply ok_inj in E. subst s'. cbn [t_regs t_irqs with_irqs with_pc with_regs] in *.
    split; [|reflexivity]. destruct (Nat.eq_dec c c0) as [->|Ne].
    + unfold ioc. specialize (B 5 ltac:(reflexivity)). unfold reg in B. rewrite B. reflexivity.
    + exfalso. apply D. cbn [ctl k_cur]. unfold reg in F. rewrite !F by (clear - Ne; lia). reflexivity.
Qed.

(** Channel 1: any write to its status register clears the request. *)
Theorem C76_acknowledge_first bad nch s v : regs_ok (t_regs s) -> v < u32 ->
  exists s', exec bad nch [L_bus (write32 68 v)] s = Ok s' /\ mm2s_requests (t_regs s') 0 = false /\
    (forall c, ctl (t_regs s') c = ctl (t_regs s) c) /\ t_irqs s' = true.
Proof.
  intros H Hv. destruct (ack_first bad nch s v H Hv) as [s' [E [_ [A [B [_ [_ [_ [_ C]]]]]]]]]. exists s'. auto.
Qed.

(** * C77: starting a channel *)

(** Channels 1 to 15: the usual register writes, from any register contents, get
    the engine ready with exactly that chain.  Partial: not channel 16. *)
Theorem C77_start_partial bad nch c a l s m0 : (nch <= 16)%nat -> (c < 15)%nat -> (c < nch)%nat ->
  Forall (fun x => x < u64) (a :: l) ->
  regs_ok (t_regs s) -> mem_ok (t_mem s) -> (forall x, owned nch (only c (a :: l)) m0 x -> t_mem s x = m0 x) ->
  N.of_nat (length (t_buf s)) = 131072 -> t_pc s = P_wait \/ t_pc s = P_ready ->
  exists s', exec bad nch (map L_bus (start_mm2s c a (last l a))) s = Ok s' /\
    ready nch (only c (a :: l)) m0 s' /\ t_out s' = t_out s /\
    N.testbit (nth (16 + 16 * c) (t_regs s') 0) 5 = true.
Proof.
  intros Hn Hc Hcn Hl Hr Hm Ho Hb Hp. inversion Hl as [|x y Ha Hl']; subst.
  assert (Ht : last l a < u64).
  { pose proof (last_in l a) as I. rewrite Forall_forall in Hl. exact (Hl _ I). }
  destruct (start_exec bad nch c a (last l a) s Hc Ha Ht Hr) as [s' [E [O [Ep [Em [Eb [Eo [_ [C [D I]]]]]]]]]].
  exists s'. split; [exact E|]. split; [|auto]. constructor; auto.
  - now rewrite Em.
  - intros x Hx. rewrite Em. now apply Ho.
  - now rewrite Eb.
  - rewrite Ep. destruct Hp as [->| ->]; reflexivity.
  - intros c' Hc'. unfold only. destruct (Nat.eqb_spec c' c) as [->|Ne]; [exact C|].
    cbn zeta. rewrite (D c') by (try exact Ne; clear - Hc' Hn; lia). rewrite andb_false_r. reflexivity.
Qed.

(** * Examples and refuted cases *)
Definition zero_mem : mem := fun _ => 0.
Definition wr (a : N) (l : list N) (m : mem) : mem :=
  fun x => if (a <=? x) && (x <? a + N.of_nat (length l)) then nth (N.to_nat (x - a)) l 0 else m x.
(** A descriptor in memory: next, buffer, control, status (MM2S, S2MM). *)
Definition desc (a next buf ctrl : N) (m : mem) : mem :=
  wr (a + 20) (le_enc 4 ctrl) (wr (a + 8) (le_enc 8 buf) (wr a (le_enc 8 next) m)).
Definition good : N -> bool := fun _ => false.
Definition EOP : N := 2 ^ 30.
Definition start0 (m : mem) : state :=
  mkState (repeat 0 NREGS) m (repeat 0 BUFSZ) P_wait [] false false false.
(** A state after a reset. *)
Definition fresh (m : mem) : state := match reset (start0 m) with Ok s => s | _ => start0 m end.
Definition run_of (r : res state) : option (pc * list packet * bool * bool) :=
  match r with Ok s => Some (t_pc s, t_out s, t_mm2s s, t_s2mm s) | _ => None end.
Definition in_mem {A} (f : mem -> A) (r : res state) : option A :=
  match r with Ok s => Some (f (t_mem s)) | _ => None end.
Definition in_regs {A} (f : list N -> A) (r : res state) : option A :=
  match r with Ok s => Some (f (t_regs s)) | _ => None end.

(** Two descriptors, one packet in two parts, channel 2; then the interrupt. *)
Definition two : mem := wr 4096 [1; 2; 3; 4; 5] (desc 64 128 4096 3 (desc 128 192 4099 (EOP + 2) zero_mem)).
Definition go (c : nat) (first tl : N) (n : nat) : list label := map L_bus (start_mm2s c first tl) ++ repeat L_thread n.
Example C74_case :
  let r := exec good 2 (go 1 64 128 20 ++ [L_irqs]) (fresh two) in
  run_of r = Some (P_wait, [mkPkt 1 [1; 2; 3] false; mkPkt 1 [4; 5] true], true, false) /\
  in_mem (fun m => (tx_status m 64, tx_status m 128)) r = Some (2 ^ 31 + 3, 2 ^ 31 + 2).
Proof. vm_compute. split; reflexivity. Qed.

(** A descriptor of more than 128 KiB runs over the buffer of dma_thread. *)
Definition too_long : mem := desc 64 128 4096 (EOP + 131073) zero_mem.
Theorem C74_long_refuted : d_len too_long 64 = 131073 /\ tx_status too_long 64 = 0 /\
  exec good 2 (go 1 64 64 4) (fresh too_long) = UB.
Proof. vm_compute. repeat split. Qed.

(** A failed data read is not noticed: the packet carries what the buffer held
    before, and the descriptor is marked completed. *)
Definition hole : N -> bool := fun x => (8192 <=? x) && (x <? 8200).
Definition faulty : mem := wr 4096 [1; 2; 3; 4; 5] (desc 64 128 4096 (EOP + 3) (desc 128 192 8192 (EOP + 3) zero_mem)).
Theorem C74_bus_error_refuted :
  let r := exec hole 2 (go 1 64 128 20) (fresh faulty) in
  run_of r = Some (P_wait, [mkPkt 1 [1; 2; 3] true; mkPkt 1 [1; 2; 3] true], false, false) /\
  packet_of faulty 1 128 = mkPkt 1 [0; 0; 0] true /\
  in_mem (fun m => tx_status m 128) r = Some (2 ^ 31 + 3).
Proof. vm_compute. repeat split. Qed.

(** Old bits of the status word get into the reported length. *)
Definition leftover : mem := wr 92 [5; 0; 0; 0] (desc 64 128 4096 (EOP + 8) zero_mem).
Theorem C74_leftover_refuted :
  N.testbit (tx_status leftover 64) 31 = false /\ d_len leftover 64 = 8 /\
  in_mem (fun m => tx_status m 64) (exec good 2 (go 1 64 64 12) (fresh leftover)) = Some (2 ^ 31 + 13).
Proof. vm_compute. repeat split. Qed.

(** S2MM: bring channel [c] up. *)
Definition start_s2mm (c : nat) (first tl : N) : list label :=
  let b := 1344 + 64 * N.of_nat c in
  map L_bus [write32 1280 1; write32 1288 (2 ^ N.of_nat c); write32 (b + 8) (first mod u32); write32 (b + 12) (first / u32);
   write32 b 33; write32 (b + 4) 0; write32 (b + 16) (tl mod u32); write32 (b + 20) (tl / u32)].
Definition rxm : mem := desc 64 128 4096 8 (desc 128 192 4104 8 zero_mem).
Example C75_case :
  let r := exec good 2 (start_s2mm 1 64 128 ++ [L_rx 1 [7; 8; 9]; L_rx 1 [1; 2]; L_rx 1 [5]; L_irqs]) (fresh rxm) in
  run_of r = Some (P_wait, [], false, true) /\
  in_mem (fun m => (rx_status m 64, rx_status m 128)) r = Some (2 ^ 31 + 2 ^ 27 + 2 ^ 26 + 3, 2 ^ 31 + 2 ^ 27 + 2 ^ 26 + 2) /\
  in_mem (fun m => bytes_at m 4096 10) r = Some [7; 8; 9; 0; 0; 0; 0; 0; 1; 2].
Proof. vm_compute. repeat split. Qed.

(** A packet is written over the buffer of a completed descriptor, which the
    driver owns; only then is the descriptor looked at. *)
Definition mine : mem := wr 4096 [1; 2; 3; 4] (wr 88 [0; 0; 0; 128] (desc 64 128 4096 8 zero_mem)).
Theorem C75_overwrite_refuted :
  N.testbit (rx_status mine 64) 31 = true /\
  let r := exec good 2 (start_s2mm 1 64 128 ++ [L_rx 1 [7; 8; 9]]) (fresh mine) in
  in_mem (fun m => bytes_at m 4096 4) r = Some [7; 8; 9; 4] /\
  in_mem (fun m => rx_status m 64) r = Some (rx_status mine 64).
Proof. vm_compute. repeat split. Qed.

(** Once a channel has used its last descriptor, writing a new tail does not
    resume it: packets are lost although a fresh descriptor is there. *)
Theorem C75_resume_refuted :
  let r := exec good 2 (start_s2mm 1 64 64 ++ [L_rx 1 [7; 8; 9]] ++
             map L_bus [write32 1424 128; write32 1428 0] ++ [L_rx 1 [1; 2]]) (fresh rxm) in
  in_mem (fun m => (rx_status m 64, rx_status m 128)) r = Some (2 ^ 31 + 2 ^ 27 + 2 ^ 26 + 3, 0) /\
  in_regs (fun x => (k_cur (rctl x 1), k_tail (rctl x 1))) r = Some (128, 128).
Proof. vm_compute. repeat split. Qed.

(** A packet longer than the descriptor's buffer stops the simulation. *)
Theorem C75_long_refuted :
  exec good 2 (start_s2mm 1 64 128 ++ [L_rx 1 [1; 2; 3; 4; 5; 6; 7; 8; 9]]) (fresh rxm) = AssertFail.
Proof. vm_compute. reflexivity. Qed.

Example C76_case :
  let r := exec good 2 (go 0 64 128 20 ++ [L_irqs; L_bus (write32 68 32); L_irqs]) (fresh two) in
  option_map (fun x => snd (fst x)) (run_of (exec good 2 (go 0 64 128 20 ++ [L_irqs]) (fresh two))) = Some true /\
  option_map (fun x => snd (fst x)) (run_of r) = Some false.
Proof. vm_compute. repeat split. Qed.

(** A reset clears the registers but not the lines. *)
Theorem C76_reset_refuted :
  let r := exec good 2 (go 0 64 128 20 ++ [L_irqs; L_reset; L_irqs]) (fresh two) in
  option_map (fun x => snd (fst x)) (run_of r) = Some true /\
  in_regs (fun x => (mm2s_requests x 0, mm2s_requests x 1, nth 10 x 0)) r = Some (false, false, 0).
Proof. vm_compute. repeat split. Qed.

(** The S2MM interrupt register can be written; bits beyond the channels stay and
    hold the line. *)
Theorem C76_intr_write_refuted :
  let r := exec good 2 [L_bus (write32 1312 32768); L_irqs; L_irqs] (fresh zero_mem) in
  option_map snd (run_of r) = Some true /\
  in_regs (fun x => (s2mm_requests x 0, s2mm_requests x 1)) r = Some (false, false).
Proof. vm_compute. repeat split. Qed.

(** Only channel 1's status register clears by writing ones; on the others the
    flag written stays set. *)
Theorem C76_ack_refuted :
  let r := exec good 2 (go 1 64 128 20 ++ [L_irqs; L_bus (write32 132 32); L_irqs]) (fresh two) in
  option_map (fun x => snd (fst x)) (run_of r) = Some true /\ in_regs (fun x => ioc x 1) r = Some true.
Proof. vm_compute. repeat split. Qed.

(** The example of C77: after the writes, channel 15 is ready with its chain. *)
Example C77_case :
  in_regs (fun x => ctl x 14) (exec good 16 (map L_bus (start_mm2s 14 64 128)) (fresh two)) =
    Some (mkControl true true true false 64 128) /\
  run_of (exec good 16 (map L_bus (start_mm2s 14 64 128)) (fresh two)) = Some (P_ready, [], false, false).
Proof. vm_compute. repeat split. Qed.

(** Channel 16 is set up like the others, but nothing wakes the engine. *)
Theorem C77_last_refuted n :
  let r := exec good 16 (go 15 64 128 n) (fresh two) in
  run_of r = Some (P_wait, [], false, false) /\
  in_regs (fun x => ctl x 15) r = Some (mkControl true true true false 64 128).
Proof.
  assert (E : exists s, exec good 16 (map L_bus (start_mm2s 15 64 128)) (fresh two) = Ok s /\
     run_of (Ok s) = Some (P_wait, [], false, false) /\ ctl (t_regs s) 15 = mkControl true true true false 64 128).
  { destruct (exec good 16 (map L_bus (start_mm2s 15 64 128)) (fresh two)) as [s| | |] eqn:E.
    - exists s. split; [reflexivity|]. rewrite <- E.
      split; [vm_compute; reflexivity|].
      assert (X : in_regs (fun x => ctl x 15) (exec good 16 (map L_bus (start_mm2s 15 64 128)) (fresh two)) =
                  Some (mkControl true true true false 64 128)) by (vm_compute; reflexivity).
      rewrite E in X. cbn [in_regs] in X. congruence.
    - assert (X : in_regs (fun x => ctl x 15) (exec good 16 (map L_bus (start_mm2s 15 64 128)) (fresh two)) =
                  Some (mkControl true true true false 64 128)) by (vm_compute; reflexivity).
      rewrite E in X. discriminate.
    - assert (X : in_regs (fun x => ctl x 15) (exec good 16 (map L_bus (start_mm2s 15 64 128)) (fresh two)) =
                  Some (mkControl true true true false 64 128)) by (vm_compute; reflexivity).
      rewrite E in X. discriminate.
    - assert (X : in_regs (fun x => ctl x 15) (exec good 16 (map L_bus (start_mm2s 15 64 128)) (fresh two)) =
                  Some (mkControl true true true false 64 128)) by (vm_compute; reflexivity).
      rewrite E in X. discriminate. }
  destruct E as [s [E [R C]]]. cbn zeta.
  assert (W : t_pc s = P_wait) by (cbn [run_of] in R; congruence).
  assert (Q : exec good 16 (go 15 64 128 n) (fresh two) = Ok s).
  { unfold go. generalize dependent (map L_bus (start_mm2s 15 64 128)). generalize (fresh two).
    intros s1 ls. revert s1. induction ls as [|l ls IH]; intros s1 E.
    - cbn [exec] in E. apply ok_inj in E. subst s1. cbn [app]. clear - W. induction n as [|n IH]; [reflexivity|].
      cbn [repeat exec step]. unfold thread at 1. rewrite W. cbn [rbind]. exact IH.
    - cbn [app exec] in *. destruct (step good 16 l s1) as [s2| | |]; cbn [rbind] in *; try discriminate. now apply IH. }
  rewrite Q. split; [exact R|]. cbn [in_regs]. now rewrite C.
Qed.

(** A wake-up is lost: the engine has passed channel 1 and is loading a completed
    descriptor of channel 2 when the driver writes channel 1's tail. *)
Definition busy : mem := wr 4096 [1; 2; 3; 4; 5]
  (desc 64 128 4096 (EOP + 3) (wr 540 [0; 0; 0; 128] (desc 512 576 4096 (EOP + 1) zero_mem))).
Theorem C77_lost_refuted :
  let r := exec good 2 (map L_bus [write32 0 1; write32 8 3; write32 136 512; write32 128 33; write32 144 512; write32 148 0]
             ++ [L_thread] (* at the load of channel 2's descriptor *)
             ++ map L_bus [write32 72 64; write32 64 33; write32 80 64; write32 84 0]
             ++ repeat L_thread 10) (fresh busy) in
  run_of r = Some (P_wait, [], false, false) /\
  in_regs (fun x => ctl x 0) r = Some (mkControl true true true false 64 64) /\
  in_mem (fun m => tx_status m 64) r = Some 0.
Proof. vm_compute. repeat split. Qed.

(** The engine and channel enables do not wake the engine either, so they must
    come before the tail. *)
Theorem C77_order_refuted :
  let r := exec good 2 (map L_bus [write32 8 1; write32 72 64; write32 64 33; write32 80 64; write32 84 0]
             ++ repeat L_thread 3 ++ map L_bus [write32 0 1] ++ repeat L_thread 10) (fresh busy) in
  run_of r = Some (P_wait, [], false, false) /\
  in_regs (fun x => ctl x 0) r = Some (mkControl true true true false 64 64).
Proof. vm_compute. repeat split. Qed.

(** The hypotheses of C74 and C77 hold of the example of C74. *)
Lemma wr_ok a l m : bytes_ok l -> mem_ok m -> mem_ok (wr a l m).
Proof.
  intros Hl Hm x. unfold wr. destruct ((a <=? x) && (x <? a + N.of_nat (length l))); [|apply Hm].
  destruct (nth_in_or_default (N.to_nat (x - a)) l 0) as [I|I]; [|rewrite I; reflexivity].
  unfold bytes_ok in Hl. rewrite Forall_forall in Hl. exact (Hl _ I).
Qed.
Lemma desc_ok a n b c m : mem_ok m -> mem_ok (desc a n b c m).
Proof. intro H. unfold desc. repeat apply wr_ok; try apply le_enc_bytes. exact H. Qed.
Lemma only_in c a l : handed 2 (only 1 l) c a -> c = 1%nat /\ In a l.
Proof.
  intros [Hc I]. unfold only in I. destruct (Nat.eqb_spec c 1) as [->|]; [auto|destruct I].
Qed.
Example C74_posted : posted good 2 (only 1 [64; 128]) two.
Proof.
  assert (D : d_buffer two 64 = 4096 /\ d_len two 64 = 3 /\ d_buffer two 128 = 4099 /\ d_len two 128 = 2 /\
              tx_status two 64 = 0 /\ tx_status two 128 = 0 /\ d_next two 64 = 128) by (vm_compute; repeat split).
  destruct D as [B1 [L1 [B2 [L2 [S1 [S2 N1]]]]]].
  assert (ONLY : forall c a, handed 2 (only 1 [64; 128]) c a -> c = 1%nat /\ (a = 64 \/ a = 128)).
  { intros c a H. destruct (only_in c a _ H) as [-> I]. split; [reflexivity|]. cbn in I. intuition congruence. }
  constructor.
  - unfold two. apply wr_ok; [repeat constructor|]. do 2 apply desc_ok. intro x. reflexivity.
  - intros c Hc. unfold only. destruct (Nat.eqb_spec c 1); [lia|reflexivity].
  - intro c. unfold only. destruct (Nat.eqb c 1); [|exists 0; exact I]. exists (d_next two 128). cbn [linked hd]. auto.
  - intro c. unfold only. destruct (Nat.eqb c 1); [|constructor]. repeat constructor; cbn; intuition discriminate.
  - intros c a H. destruct (ONLY c a H) as [_ [->| ->]]; assumption.
  - intros c a H. destruct (ONLY c a H) as [_ [->| ->]]; rewrite ?L1, ?L2; discriminate.
  - intros c a H. unfold d_size, u64. destruct (ONLY c a H) as [_ [->| ->]]; rewrite ?L1, ?L2, ?B1, ?B2; split; discriminate.
  - intros c a H. split; reflexivity.
  - intros c a c' a' H H' Ne. destruct (ONLY c a H) as [-> A]. destruct (ONLY c' a' H') as [-> A'].
    assert (a <> a') by congruence. unfold apart, within, d_size. intros x [X Y]. destruct A, A'; subst; lia.
  - intros c a c' a' H H'. destruct (ONLY c a H) as [-> A]. destruct (ONLY c' a' H') as [-> A'].
    unfold apart, within, d_size. intros x [X Y].
    destruct A as [->| ->], A' as [->| ->]; rewrite ?B1, ?B2, ?L1, ?L2 in Y; lia.
Qed.
Example C77_hypotheses : regs_ok (t_regs (fresh two)) /\ mem_ok (t_mem (fresh two)) /\
  (forall x, t_mem (fresh two) x = two x) /\ N.of_nat (length (t_buf (fresh two))) = 131072 /\ t_pc (fresh two) = P_wait.
Proof.
  assert (R : regs_ok (t_regs (start0 two))).
  { unfold start0. cbn [t_regs]. split; [apply repeat_length|]. apply Forall_forall. intros v Hv. apply repeat_spec in Hv. subst v. reflexivity. }
  destruct (reset_spec (start0 two) R) as [s [E [O [_ [Ep [_ [_ [_ [Em [Eb _]]]]]]]]]].
  assert (F : fresh two = s) by (unfold fresh; rewrite E; reflexivity). rewrite F, Em, Eb, Ep.
  refine (conj O (conj (po_bytes _ _ _ _ C74_posted) (conj (fun _ => eq_refl) (conj _ eq_refl)))).
  unfold start0. cbn [t_buf]. rewrite repeat_length. unfold BUFSZ. apply N2Nat.id.
Qed.

Print Assumptions C74_delivery_partial.
Print Assumptions C74_progress_partial.
Print Assumptions C74_tolerates.
Print Assumptions C74_long_refuted.
Print Assumptions C74_bus_error_refuted.
Print Assumptions C74_leftover_refuted.
Print Assumptions C75_receive_partial.
Print Assumptions C75_overwrite_refuted.
Print Assumptions C75_resume_refuted.
Print Assumptions C75_long_refuted.
Print Assumptions C76_lines_partial.
Print Assumptions C76_complete.
Print Assumptions C76_acknowledge_first.
Print Assumptions C76_reset_refuted.
Print Assumptions C76_intr_write_refuted.
Print Assumptions C76_ack_refuted.
Print Assumptions C77_start_partial.
Print Assumptions C77_last_refuted.
Print Assumptions C77_lost_refuted.
Print Assumptions C77_order_refuted.
