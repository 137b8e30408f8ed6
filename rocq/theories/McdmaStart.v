(** MCDMA: interrupt lines in every run, starting a channel, acknowledging. *)
From Verif Require Import Base BaseFacts LeFacts TlmModel TlmSpec TlmFacts RegapiModel RegapiSpec RegapiProofs
  McdmaModel McdmaSpec McdmaProofs McdmaTx McdmaRx McdmaIrq.
Open Scope N_scope.

Lemma ok_inj {A} (x y : A) : Ok x = Ok y -> x = y.
Proof. intro H. now injection H. Qed.
Lemma inv_with_pc b nch s p : irq_inv b nch s -> pc_chan nch p -> irq_inv b nch (with_pc s p).
Proof. intros H P. now apply (inv_same b nch s). Qed.

Lemma thread_inv bad b nch s s' : (nch <= 16)%nat -> irq_inv b nch s -> thread bad nch s = Ok s' -> irq_inv b nch s'.
Proof.
  intros Hn H E. pose proof (q_pc _ _ _ H) as P. unfold thread in E. cbn zeta in E.
  destruct (t_pc s) as [| |c n a|c n bd|c n bd|c n bd|c n bd d|c n bd|c n bd a|c n bd] eqn:Ep; cbn [pc_chan] in P.
  - now injection E as <-.
  - injection E as <-. apply inv_with_pc; [exact H|apply advance_chan].
  - destruct (load_desc bad (t_mem s) a) as [bd| | |]; cbn [rmap] in E; try discriminate. injection E as <-.
    apply inv_with_pc; [exact H|exact P].
  - destruct (bd_done MM2S_STATUS bd); injection E as <-.
    + apply inv_idle; [exact Hn|exact H| | | |apply advance_chan].
      * unfold MM2S_SR, NREGS. clear - Hn P. lia.
      * reflexivity.
      * exists c. split; [clear - Hn P; lia|left; reflexivity].
    + apply inv_with_pc; [exact H|exact P].
  - destruct (length (t_buf s) <? bd_len bd)%nat; [discriminate|].
    destruct (dma_access bad C_READ (t_mem s) (firstn (bd_len bd) (t_buf s)) (bd_buffer bd)) as [x [d y]].
    injection E as <-. apply (inv_same b nch s); auto.
  - injection E as <-. apply inv_with_pc; [exact H|exact P].
  - injection E as <-. apply (inv_same b nch s); auto.
  - injection E as <-. apply inv_with_pc; [exact H|exact P].
  - injection E as <-. apply (inv_same b nch s); auto.
  - destruct (finish_regs (t_regs s) c true (mm2s_cur (t_regs s) c =? mm2s_tail (t_regs s) c) (bd_next bd) (q_regs _ _ _ H))
      as [r [Er [O [F1 F2]]]]; [clear - Hn P; lia|].
    cbv iota in Er. rewrite Er in E. cbn [rmap] in E. apply ok_inj in E. subst s'.
    apply (inv_due b nch s); auto. cbn [t_pc with_irqs with_pc with_regs]. apply advance_chan.
Qed.

Lemma rx_inv bad b nch c d s s' : (nch <= 16)%nat -> (c < nch)%nat -> irq_inv b nch s -> rx bad c d s = Ok s' -> irq_inv b nch s'.
Proof.
  intros Hn Hc H E. unfold rx in E. cbn zeta in E.
  destruct (2147483648 <=? N.of_nat (length d)); [discriminate|].
  destruct (length d =? 0)%nat; [now injection E as <-|].
  destruct (negb (rx_ready (t_regs s) c)); [now injection E as <-|].
  destruct (load_desc bad (t_mem s) (s2mm_cur (t_regs s) c)) as [bd| | |]; cbn [rbind] in E; try discriminate.
  destruct (bd_len bd <? length d)%nat; [discriminate|].
  destruct (bd_done S2MM_STATUS bd).
  - injection E as <-.
    assert (X : irq_inv b nch (with_pc (with_regs s (s2mm_set_idle (t_regs s) c true)) (t_pc s))).
    { apply inv_idle; [exact Hn|exact H| | | |exact (q_pc _ _ _ H)].
      - unfold S2MM_SR, NREGS. clear - Hn Hc. lia.
      - reflexivity.
      - exists c. split; [clear - Hn Hc; lia|right; reflexivity]. }
    apply (inv_same _ _ _ _ X); try reflexivity. exact (q_pc _ _ _ H).
  - destruct (finish_regs (t_regs s) c false (s2mm_cur (t_regs s) c =? s2mm_tail (t_regs s) c) (bd_next bd) (q_regs _ _ _ H))
      as [r [Er [O [F1 F2]]]]; [clear - Hn Hc; lia|].
    cbv iota in Er. rewrite Er in E. cbn [rmap] in E. apply ok_inj in E. subst s'.
    apply (inv_due b nch s); auto. exact (q_pc _ _ _ H).
Qed.

Lemma update_inv nch s : (nch <= 16)%nat -> forall b, irq_inv b nch s -> irq_inv b nch (update_irqs nch s).
Proof.
  intros Hn b [Qr Qp Qm Qs Ql Qt].
  destruct (irq_regs_spec nch (t_regs s) Qr Hn) as [O [F [M S]]].
  unfold update_irqs. cbn zeta. set (r := irq_regs nch (t_regs s)) in *.
  assert (E1 : forall c, mm2s_requests r c = mm2s_requests (t_regs s) c)
    by (intro c; unfold mm2s_requests; apply requests_frame; apply F; unfold R_MM2S_INTR, R_S2MM_INTR; lia).
  assert (E2 : forall c, (c < 16)%nat -> s2mm_requests r c = s2mm_requests (t_regs s) c)
    by (intros c Hc; unfold s2mm_requests; apply requests_frame; apply F; unfold R_MM2S_INTR, R_S2MM_INTR; lia).
  constructor; cbn [t_regs t_pc t_irqs t_mm2s t_s2mm with_irqs with_lines with_regs].
  - exact O.
  - exact Qp.
  - intros k Hk. rewrite M. destruct (N.ltb_spec k (N.of_nat nch)); [clear - H Hk; lia|]. now apply Qm.
  - intros Eb k Hk. rewrite S. destruct (N.ltb_spec k (N.of_nat nch)); [clear - H Hk; lia|]. now apply Qs.
  - intros _. split.
    + apply line_spec. intro k. rewrite M. destruct (N.ltb_spec k (N.of_nat nch)) as [L|L]; [now rewrite E1|now apply Qm].
    + intros c Hc. rewrite M, Nat2N.id. destruct (N.ltb_spec (N.of_nat c) (N.of_nat nch)) as [L|L]; [|clear - L Hc; lia].
      now rewrite E1.
  - intros Eb _. split.
    + apply line_spec. intro k. rewrite S. destruct (N.ltb_spec k (N.of_nat nch)) as [L|L]; [|now apply Qs].
      rewrite E2; [reflexivity|clear - L Hn; lia].
    + intros c Hc. rewrite S, Nat2N.id. destruct (N.ltb_spec (N.of_nat c) (N.of_nat nch)) as [L|L]; [|clear - L Hc; lia].
      rewrite E2; [reflexivity|clear - Hc Hn; lia].
Qed.

Lemma step_inv bad b nch l s s' : (nch <= 16)%nat -> no_reset b l -> irq_inv b nch s -> step bad nch l s = Ok s' -> irq_inv b nch s'.
Proof.
  intros Hn Hl H E. destruct l as [|g|c d| | |m]; cbn [step no_reset] in *.
  - now apply (thread_inv bad b nch s).
  - destruct Hl as [B W]. destruct (bus_cases g s (q_regs _ _ _ H) B) as [s1 [d [E1 [O [I [_ [_ [_ [_ [_ [P _]]]]]]]]]]].
    rewrite E1 in E. cbn [rmap fst] in E. injection E as <-.
    destruct (bus_intr g s s1 (d, St_OK) (q_regs _ _ _ H) B E1) as [F1 F2].
    apply (inv_due b nch s); auto.
    destruct P as [->|[_ ->]]; [exact (q_pc _ _ _ H)|exact Logic.I].
  - destruct (Nat.ltb_spec c nch) as [Hc|]; [|discriminate]. now apply (rx_inv bad b nch c d s).
  - destruct (t_irqs s); injection E as <-; [now apply update_inv|exact H].
  - contradiction.
  - injection E as <-. now apply (inv_same b nch s); try exact (q_pc _ _ _ H).
Qed.

Lemma exec_inv bad b nch ls : forall s s', (nch <= 16)%nat -> Forall (no_reset b) ls -> irq_inv b nch s ->
  exec bad nch ls s = Ok s' -> irq_inv b nch s'.
Proof.
  induction ls as [|l ls IH]; intros s s' Hn F H E; cbn [exec] in E; [now injection E as <-|].
  inversion F; subst. destruct (step bad nch l s) as [s1| | |] eqn:E1; cbn [rbind] in E; try discriminate.
  apply (IH s1 s'); auto. now apply (step_inv bad b nch l s).
Qed.

(** A reset gives every described register its value. *)
Lemma reset_spec s : regs_ok (t_regs s) -> exists s', reset s = Ok s' /\ regs_ok (t_regs s') /\
  (forall i, In i mcdma_info -> reg (t_regs s') (N.to_nat (ri_addr i / 4)) = ri_reset i) /\
  t_pc s' = t_pc s /\ t_irqs s' = t_irqs s /\ t_mm2s s' = t_mm2s s /\ t_s2mm s' = t_s2mm s /\
  t_mem s' = t_mem s /\ t_buf s' = t_buf s /\ t_out s' = t_out s.
Proof.
  intros H. pose proof (regs_ok_len _ H) as L.
  assert (D : described 4 (length (t_regs s)) mcdma_info) by (rewrite L; exact mcdma_described).
  unfold reset, reg_reset_all. rewrite firstn_all2 by apply D.
  destruct (reset_list_spec 4 mcdma_info mcdma_info [] (t_regs s) D eq_refl) as [r [E [L' [A B]]]].
  exists (with_regs s r). rewrite E. cbn [rmap]. split; [reflexivity|].
  cbn [t_regs t_pc t_irqs t_mm2s t_s2mm t_mem t_buf t_out with_regs].
  refine (conj _ (conj A _)); [|auto 10].
  split; [now rewrite L', L|]. apply Forall_forall. intros v Hv. apply In_nth with (d := 0) in Hv. destruct Hv as [j [Hj <-]].
  destruct (existsb (fun i => N.to_nat (ri_addr i / 4) =? j)%nat mcdma_info) eqn:X.
  - apply existsb_exists in X. destruct X as [i [Hi Ej]]. apply Nat.eqb_eq in Ej. subst j. rewrite (A i Hi).
    assert (Q : forallb (fun i => ri_reset i <? u32) mcdma_info = true) by (vm_compute; reflexivity).
    rewrite forallb_forall in Q. specialize (Q i Hi). now apply N.ltb_lt.
  - rewrite B; [exact (regs_ok_reg _ _ H)|]. intros [i [Hi Ej]].
    assert (Y : existsb (fun i => N.to_nat (ri_addr i / 4) =? j)%nat mcdma_info = true)
      by (apply existsb_exists; exists i; split; [exact Hi|apply Nat.eqb_eq; congruence]).
    congruence.
Qed.

Lemma reset_at s s' (ix : nat) v : regs_ok (t_regs s) -> reset s = Ok s' ->
  existsb (fun i => (ri_addr i =? 4 * N.of_nat ix) && (ri_reset i =? v)) mcdma_info = true -> reg (t_regs s') ix = v.
Proof.
  intros H E X. destruct (reset_spec s H) as [s1 [E1 [_ [A _]]]]. rewrite E in E1. injection E1 as <-.
  apply existsb_exists in X. destruct X as [i [Hi X]]. apply andb_true_iff in X. destruct X as [X1 X2].
  apply N.eqb_eq in X1. apply N.eqb_eq in X2. rewrite <- X2, <- (A i Hi). f_equal.
  rewrite X1, N.mul_comm, N.div_mul by discriminate. now rewrite Nat2N.id.
Qed.

Lemma reset_inv nch s s' b : (nch <= 16)%nat -> regs_ok (t_regs s) -> pc_chan nch (t_pc s) ->
  t_mm2s s = false -> t_s2mm s = false -> reset s = Ok s' -> irq_inv b nch s'.
Proof.
  intros Hn H P L1 L2 E. destruct (reset_spec s H) as [s1 [E1 [O [A [Ep [Ei [E3 [E4 _]]]]]]]].
  pose proof E as E0. rewrite E in E1. injection E1 as <-.
  assert (M : reg (t_regs s') R_MM2S_INTR = 0) by (apply (reset_at s); auto; vm_compute; reflexivity).
  assert (S : reg (t_regs s') R_S2MM_INTR = 0) by (apply (reset_at s); auto; vm_compute; reflexivity).
  assert (CM : forall c, (c < 16)%nat -> reg (t_regs s') (MM2S_CR c) = 0).
  { intros c Hc. apply (reset_at s); auto.
    assert (Q : forallb (fun c => existsb (fun i => (ri_addr i =? 4 * N.of_nat (MM2S_CR c)) && (ri_reset i =? 0)) mcdma_info) (seq 0 16) = true)
      by (vm_compute; reflexivity).
    rewrite forallb_forall in Q. apply Q. apply in_seq. lia. }
  assert (CS : forall c, (c < 16)%nat -> reg (t_regs s') (S2MM_CR c) = 0).
  { intros c Hc. apply (reset_at s); auto.
    assert (Q : forallb (fun c => existsb (fun i => (ri_addr i =? 4 * N.of_nat (S2MM_CR c)) && (ri_reset i =? 0)) mcdma_info) (seq 0 16) = true)
      by (vm_compute; reflexivity).
    rewrite forallb_forall in Q. apply Q. apply in_seq. lia. }
  assert (RM : forall c, (c < 16)%nat -> mm2s_requests (t_regs s') c = false).
  { intros c Hc. unfold mm2s_requests, requests. cbn [existsb]. change (16 + 16 * c)%nat with (MM2S_CR c).
    fold (reg (t_regs s') (MM2S_CR c)). rewrite CM by exact Hc. rewrite !N.bits_0, !andb_false_r. reflexivity. }
  assert (RS : forall c, (c < 16)%nat -> s2mm_requests (t_regs s') c = false).
  { intros c Hc. unfold s2mm_requests, requests. cbn [existsb]. change (336 + 16 * c)%nat with (S2MM_CR c).
    fold (reg (t_regs s') (S2MM_CR c)). rewrite CS by exact Hc. rewrite !N.bits_0, !andb_false_r. reflexivity. }
  assert (X : forall f, (forall c, (c < 16)%nat -> f c = false) -> existsb f (seq 0 nch) = false).
  { intros f Hf. destruct (existsb f (seq 0 nch)) eqn:Q; [|reflexivity]. apply existsb_exists in Q.
    destruct Q as [x [Hx Fx]]. apply in_seq in Hx. rewrite Hf in Fx by lia. discriminate. }
  constructor.
  - exact O.
  - now rewrite Ep.
  - intros k _. rewrite M. apply N.bits_0.
  - intros _ k _. rewrite S. apply N.bits_0.
  - intros _. split; [rewrite X by exact RM; congruence|]. intros c Hc. rewrite M, RM, N.bits_0 by lia. reflexivity.
  - intros _ _. split; [rewrite X by exact RS; congruence|]. intros c Hc. rewrite S, RS, N.bits_0 by lia. reflexivity.
Qed.

(** A write of a driver to a described register. *)
Lemma le4_ok v : bytes_ok (le_enc 4 v).
Proof. apply le_enc_bytes. Qed.
Definition starts (regs : list N) (ix : nat) : bool :=
  (CASE_FIRST <=? N.of_nat ix) && (N.of_nat ix <=? CASE_LAST) &&
  (ix =? MM2S_TAIL_MSB (N.to_nat ((N.of_nat ix - 16) / 16)))%nat &&
  bit (reg regs (MM2S_CR (N.to_nat ((N.of_nat ix - 16) / 16)))) 0.
Lemma bus_write s ix v i : regs_ok (t_regs s) -> (ix < NREGS)%nat -> v < u32 ->
  find_info mcdma_info (4 * N.of_nat ix) = Some i ->
  let regs := set_reg (t_regs s) ix (reg_new i false (reg (t_regs s) ix) v) in
  rmap fst (bus (write32 (4 * N.of_nat ix) v) s) =
  Ok (let s1 := with_irqs (with_regs s regs) true in
      if starts regs ix
      then with_pc (with_regs s1 (mm2s_set_idle regs (N.to_nat ((N.of_nat ix - 16) / 16)) false))
             (match t_pc s with P_wait => P_ready | p => p end)
      else s1).
Proof.
  intros H Hx Hv F. cbn zeta. pose proof (regs_ok_len _ H) as L.
  unfold bus, write32, reg_transport. cbn [g_addr g_cmd g_data g_len].
  unfold g_len. cbn [g_data]. rewrite le_enc_length. change (4 =? N.of_nat 4) with true. cbn [negb].
  rewrite reg_access_spec by (rewrite L; exact mcdma_described). rewrite F.
  replace (4 * N.of_nat ix / 4) with (N.of_nat ix) by (rewrite N.mul_comm, N.div_mul by discriminate; reflexivity).
  rewrite le_dec_enc. change (256 ^ N.of_nat 4) with u32. rewrite (N.mod_small v) by exact Hv.
  rewrite (N.mod_small (N.of_nat ix)) by (unfold NREGS in Hx; unfold u32; clear - Hx; lia).
  cbn [rbind rmap fst negb andb t_regs with_irqs with_regs]. rewrite !Nat2N.id.
  unfold starts. fold (reg (t_regs s) ix).
  set (r := set_reg (t_regs s) ix (reg_new i false (reg (t_regs s) ix) v)).
  destruct (CASE_FIRST <=? N.of_nat ix); cbn [andb]; [|reflexivity].
  destruct (N.of_nat ix <=? CASE_LAST); cbn [andb]; [|reflexivity].
  destruct ((ix =? MM2S_TAIL_MSB (N.to_nat ((N.of_nat ix - 16) / 16)))%nat &&
            bit (reg r (MM2S_CR (N.to_nat ((N.of_nat ix - 16) / 16)))) 0); reflexivity.
Qed.

Definition chan_plain (c : nat) : bool :=
  forallb (fun k => match find_info mcdma_info (4 * N.of_nat (16 + 16 * c + k)) with
                    | Some i => (ri_ro i =? 0) && (ri_w1c i =? 0) | None => false end) [0; 2; 3; 4; 5]%nat.
Lemma chan_plain_all : forallb chan_plain (seq 0 16) = true.
Proof. vm_compute. reflexivity. Qed.
Lemma plain_new i old v : ri_ro i = 0 -> ri_w1c i = 0 -> reg_new i false old v = v.
Proof.
  intros A B. apply N.bits_inj. intro k. rewrite reg_new_write, A, B, !N.bits_0, andb_true_r. reflexivity.
Qed.
(** A write to a register without read-only or clear bits stores the value. *)
Lemma bus_plain s ix v i : regs_ok (t_regs s) -> (ix < NREGS)%nat -> v < u32 ->
  find_info mcdma_info (4 * N.of_nat ix) = Some i -> ri_ro i = 0 -> ri_w1c i = 0 ->
  starts (set_reg (t_regs s) ix v) ix = false ->
  rmap fst (bus (write32 (4 * N.of_nat ix) v) s) = Ok (with_irqs (with_regs s (set_reg (t_regs s) ix v)) true).
Proof.
  intros H Hx Hv F A B St. pose proof (bus_write s ix v i H Hx Hv F) as W. cbn zeta in W. rewrite W.
  rewrite plain_new by assumption. rewrite St. reflexivity.
Qed.

Lemma chan_reg c k : (c < 16)%nat -> In k [0; 2; 3; 4; 5]%nat -> exists i,
  find_info mcdma_info (4 * N.of_nat (16 + 16 * c + k)) = Some i /\ ri_ro i = 0 /\ ri_w1c i = 0.
Proof.
  intros Hc Hk. pose proof chan_plain_all as Q. rewrite forallb_forall in Q. specialize (Q c). 
  assert (I : In c (seq 0 16)) by (apply in_seq; lia). specialize (Q I). unfold chan_plain in Q.
  rewrite forallb_forall in Q. specialize (Q k Hk). cbv beta in Q.
  destruct (find_info mcdma_info (4 * N.of_nat (16 + 16 * c + k))) as [i|]; [|discriminate].
  apply andb_true_iff in Q. destruct Q as [Q1 Q2]. exists i. split; [reflexivity|]. split; now apply N.eqb_eq.
Qed.
Lemma chan_div c k : (k < 16)%nat -> N.to_nat ((N.of_nat (16 + 16 * c + k) - 16) / 16) = c.
Proof.
  intros Hk. replace (N.of_nat (16 + 16 * c + k) - 16) with (N.of_nat c * 16 + N.of_nat k) by lia.
  rewrite N.div_add_l by discriminate. rewrite (N.div_small (N.of_nat k)) by lia. lia.
Qed.
Lemma starts_chan regs c k : (k < 16)%nat -> starts regs (16 + 16 * c + k) =
  (c <? 15)%nat && (k =? 5)%nat && bit (reg regs (MM2S_CR c)) 0 || 
  starts regs (16 + 16 * c + k) && (14 <? c)%nat.
Proof.
  intros Hk. destruct (Nat.ltb_spec 14 c) as [L|L]; [rewrite andb_true_r; destruct (Nat.ltb_spec c 15); [lia|reflexivity]|].
  rewrite andb_false_r, orb_false_r. unfold starts. rewrite chan_div by exact Hk.
  destruct (Nat.ltb_spec c 15); [|lia]. unfold CASE_FIRST, CASE_LAST, MM2S_TAIL_MSB.
  destruct (N.leb_spec 16 (N.of_nat (16 + 16 * c + k))); [|lia].
  destruct (Nat.eqb_spec (16 + 16 * c + k) (21 + 16 * c)) as [E|E]; destruct (Nat.eqb_spec k 5) as [E'|E']; lia.
Qed.
Lemma starts_tail regs c : (c < 15)%nat -> starts regs (16 + 16 * c + 5) = bit (reg regs (MM2S_CR c)) 0.
Proof.
  intros Hc. rewrite starts_chan by lia. destruct (Nat.ltb_spec c 15); [|lia]. destruct (Nat.ltb_spec 14 c); [lia|].
  cbn [Nat.eqb andb]. rewrite andb_false_r, orb_false_r. reflexivity.
Qed.
Lemma starts_other regs c k : (c < 15)%nat -> (k < 16)%nat -> k <> 5%nat -> starts regs (16 + 16 * c + k) = false.
Proof.
  intros Hc Hk Ne. rewrite starts_chan by lia. destruct (Nat.ltb_spec c 15); [|lia]. destruct (Nat.ltb_spec 14 c); [lia|].
  destruct (Nat.eqb_spec k 5); [contradiction|]. rewrite andb_false_r. cbn [andb orb]. apply andb_false_r.
Qed.

Definition awake (p : pc) : pc := match p with P_wait => P_ready | p => p end.
(** The seven writes of [start_mm2s]: the registers written, and nothing else. *)
Lemma start_exec bad nch c first tl s : (c < 15)%nat -> first < u64 -> tl < u64 -> regs_ok (t_regs s) ->
  exists s', exec bad nch (map L_bus (start_mm2s c first tl)) s = Ok s' /\ regs_ok (t_regs s') /\
    t_pc s' = awake (t_pc s) /\ t_mem s' = t_mem s /\ t_buf s' = t_buf s /\ t_out s' = t_out s /\ t_irqs s' = true /\
    ctl (t_regs s') c = mkControl true true true false first tl /\
    (forall c', (c' < 16)%nat -> c' <> c -> k_en (ctl (t_regs s') c') = false) /\
    N.testbit (reg (t_regs s') (16 + 16 * c)) 5 = true.
Proof.
  intros Hc Hf Ht H. unfold start_mm2s. cbn zeta. cbn [map exec step].
  assert (M : forall x, x mod u32 < u32) by (intro x; apply N.mod_lt; discriminate).
  assert (D : forall x, x < u64 -> x / u32 < u32)
    by (intros x Hx; apply N.div_lt_upper_bound; [discriminate|exact Hx]).
  assert (SET : forall r i v, regs_ok r -> (i < NREGS)%nat -> v < u32 ->
     regs_ok (set_reg r i v) /\ forall j, reg (set_reg r i v) j = if (j =? i)%nat then v else reg r j).
  { intros r i v Hr Hi Hv. split; [now apply regs_ok_set|]. intro j. apply reg_set. now rewrite (regs_ok_len _ Hr). }
  assert (Z : 2 ^ N.of_nat c < u32).
  { change u32 with (2 ^ 32). apply N.pow_lt_mono_r; lia. }
  (* CCR *)
  assert (F0 : find_info mcdma_info (4 * N.of_nat 0) = Some (mkRinfo 0 4 0 0 0)) by (vm_compute; reflexivity).
  pose proof (bus_write s 0 1 _ H ltac:(unfold NREGS; lia) ltac:(reflexivity) F0) as W. cbn zeta in W.
  set (v0 := reg_new (mkRinfo 0 4 0 0 0) false (reg (t_regs s) 0) 1) in W.
  assert (V0 : v0 < u32) by (apply reg_new_small; [exact (regs_ok_reg _ _ H)|reflexivity]).
  assert (B0 : N.testbit v0 0 = true) by (unfold v0; rewrite reg_new_write; reflexivity).
  destruct (SET (t_regs s) 0%nat v0 H ltac:(unfold NREGS; lia) V0) as [O1 G1].
  set (r1 := set_reg (t_regs s) 0 v0) in *.
  change (starts r1 0) with false in W. cbv iota in W. change (4 * N.of_nat 0) with 0 in W. rewrite W. clear W. cbn [rbind].
  set (s1 := with_irqs (with_regs s r1) true).
  (* CHEN *)
  assert (F2 : find_info mcdma_info (4 * N.of_nat 2) = Some (mkRinfo 8 0 0 0 0)) by (vm_compute; reflexivity).
  pose proof (bus_plain s1 2 (2 ^ N.of_nat c) _ O1 ltac:(unfold NREGS; lia) Z F2 eq_refl eq_refl eq_refl) as W.
  change (4 * N.of_nat 2) with 8 in W. rewrite W. clear W. cbn [rbind].
  destruct (SET r1 2%nat (2 ^ N.of_nat c) O1 ltac:(unfold NREGS; lia) Z) as [O2 G2].
  change (t_regs s1) with r1. set (r2 := set_reg r1 2 (2 ^ N.of_nat c)) in *.
  set (s2 := with_irqs (with_regs s1 r2) true).
  (* channel registers *)
  assert (AD : forall k, 64 + 64 * N.of_nat c + 4 * N.of_nat k = 4 * N.of_nat (16 + 16 * c + k)) by (intro k; lia).
  assert (IX : forall k, (k < 6)%nat -> (16 + 16 * c + k < NREGS)%nat) by (intros k Hk; unfold NREGS; lia).
  assert (NX : forall r k v s0, t_regs s0 = r -> regs_ok r -> In k [0; 2; 3; 4]%nat -> v < u32 ->
     rmap fst (bus (write32 (64 + 64 * N.of_nat c + 4 * N.of_nat k) v) s0) =
     Ok (with_irqs (with_regs s0 (set_reg r (16 + 16 * c + k) v)) true)).
  { intros r k v s0 <- Hr Hk Hv. rewrite AD.
    destruct (chan_reg c k ltac:(lia)) as [i [Fi [Ro Rw]]]; [cbn in Hk |- *; tauto|].
    assert (K : (k < 5)%nat) by (cbn in Hk; lia).
    apply (bus_plain s0 _ v i Hr (IX k ltac:(lia)) Hv Fi Ro Rw). apply starts_other; lia. }
  pose proof (NX r2 2%nat (first mod u32) s2 eq_refl O2 ltac:(cbn; tauto) (M _)) as W.
  change (64 + 64 * N.of_nat c + 4 * N.of_nat 2) with (64 + 64 * N.of_nat c + 8) in W. rewrite W. clear W. cbn [rbind].
  destruct (SET r2 (16 + 16 * c + 2)%nat (first mod u32) O2 (IX 2%nat ltac:(lia)) (M _)) as [O3 G3].
  set (r3 := set_reg r2 _ (first mod u32)) in *. set (s3 := with_irqs (with_regs s2 r3) true).
  pose proof (NX r3 3%nat (first / u32) s3 eq_refl O3 ltac:(cbn; tauto) (D _ Hf)) as W.
  change (64 + 64 * N.of_nat c + 4 * N.of_nat 3) with (64 + 64 * N.of_nat c + 12) in W. rewrite W. clear W. cbn [rbind].
  destruct (SET r3 (16 + 16 * c + 3)%nat (first / u32) O3 (IX 3%nat ltac:(lia)) (D _ Hf)) as [O4 G4].
  set (r4 := set_reg r3 _ (first / u32)) in *. set (s4 := with_irqs (with_regs s3 r4) true).
  pose proof (NX r4 0%nat 33 s4 eq_refl O4 ltac:(cbn; tauto) ltac:(reflexivity)) as W.
  change (4 * N.of_nat 0) with 0 in W. rewrite N.add_0_r in W. rewrite W. clear W. cbn [rbind].
  destruct (SET r4 (16 + 16 * c + 0)%nat 33 O4 (IX 0%nat ltac:(lia)) ltac:(reflexivity)) as [O5 G5].
  set (r5 := set_reg r4 _ 33) in *. set (s5 := with_irqs (with_regs s4 r5) true).
  pose proof (NX r5 4%nat (tl mod u32) s5 eq_refl O5 ltac:(cbn; tauto) (M _)) as W.
  change (64 + 64 * N.of_nat c + 4 * N.of_nat 4) with (64 + 64 * N.of_nat c + 16) in W. rewrite W. clear W. cbn [rbind].
  destruct (SET r5 (16 + 16 * c + 4)%nat (tl mod u32) O5 (IX 4%nat ltac:(lia)) (M _)) as [O6 G6].
  set (r6 := set_reg r5 _ (tl mod u32)) in *. set (s6 := with_irqs (with_regs s5 r6) true).
  destruct (chan_reg c 5 ltac:(lia)) as [i [Fi [Ro Rw]]]; [cbn; tauto|].
  pose proof (bus_write s6 (16 + 16 * c + 5) (tl / u32) i O6 (IX 5%nat ltac:(lia)) (D _ Ht) Fi) as W. cbn zeta in W.
  rewrite plain_new in W by assumption. change (t_regs s6) with r6 in W.
  destruct (SET r6 (16 + 16 * c + 5)%nat (tl / u32) O6 (IX 5%nat ltac:(lia)) (D _ Ht)) as [O7 G7].
  set (r7 := set_reg r6 (16 + 16 * c + 5) (tl / u32)) in *.
  rewrite starts_tail, chan_div in W by lia.
  assert (CR : reg r7 (MM2S_CR c) = 33).
  { unfold MM2S_CR. rewrite G7, G6, G5.
    destruct (Nat.eqb_spec (16 + 16 * c) (16 + 16 * c + 5)); [lia|]. destruct (Nat.eqb_spec (16 + 16 * c) (16 + 16 * c + 4)); [lia|].
    destruct (Nat.eqb_spec (16 + 16 * c) (16 + 16 * c + 0)); [reflexivity|lia]. }
  rewrite CR in W. change (bit 33 0) with true in W. cbv iota in W. rewrite <- AD in W.
  change (64 + 64 * N.of_nat c + 4 * N.of_nat 5) with (64 + 64 * N.of_nat c + 20) in W. rewrite W. clear W. cbn [rbind].
  destruct (set_idle_spec r7 (MM2S_SR c) MM2S_IDLE_SHIFT false O7) as [O8 [G8 B8]]; [unfold MM2S_SR, NREGS; lia|reflexivity|].
  change (set_idle (MM2S_SR c) MM2S_IDLE_SHIFT false r7) with (mm2s_set_idle r7 c false) in O8, G8, B8.
  set (r8 := mm2s_set_idle r7 c false) in *.
  eexists. split; [reflexivity|].
  cbn [t_regs t_pc t_mem t_buf t_out t_irqs with_pc with_regs with_irqs].
  assert (R0 : reg r8 0%nat = v0).
  { rewrite G8 by (unfold MM2S_SR; lia). rewrite G7, G6, G5, G4, G3, G2, G1.
    repeat match goal with |- context [if (?a =? ?b)%nat then _ else _] => destruct (Nat.eqb_spec a b); [lia|] end. lia. }
  assert (R2 : reg r8 2%nat = 2 ^ N.of_nat c).
  { rewrite G8 by (unfold MM2S_SR; lia). rewrite G7, G6, G5, G4, G3, G2.
    repeat match goal with |- context [if (2 =? ?b)%nat then _ else _] => destruct (Nat.eqb_spec 2 b); [try lia|] end;
      try reflexivity; lia. }
  assert (RC : reg r8 (16 + 16 * c)%nat = 33) by (rewrite G8 by (unfold MM2S_SR; lia); exact CR).
  refine (conj O8 (conj _ (conj eq_refl (conj eq_refl (conj eq_refl (conj eq_refl (conj _ (conj _ _)))))))).
  - change (t_pc s6) with (t_pc s). destruct (t_pc s); reflexivity.
  - unfold ctl. fold (reg r8 0%nat). fold (reg r8 2%nat). fold (reg r8 (16 + 16 * c)%nat). fold (reg r8 (17 + 16 * c)%nat).
    fold (reg r8 (18 + 16 * c)%nat). fold (reg r8 (19 + 16 * c)%nat). fold (reg r8 (20 + 16 * c)%nat). fold (reg r8 (21 + 16 * c)%nat).
    rewrite R0, B0, R2, N.pow2_bits_true, RC.
    change (17 + 16 * c)%nat with (MM2S_SR c) at 1. rewrite (B8 0).
    assert (L2 : reg r8 (18 + 16 * c)%nat = first mod u32).
    { rewrite G8 by (unfold MM2S_SR; lia). rewrite G7, G6, G5, G4, G3.
      repeat match goal with |- context [if (?a =? ?b)%nat then _ else _] => destruct (Nat.eqb_spec a b); try lia end; reflexivity. }
    assert (L3 : reg r8 (19 + 16 * c)%nat = first / u32).
    { rewrite G8 by (unfold MM2S_SR; lia). rewrite G7, G6, G5, G4.
      repeat match goal with |- context [if (?a =? ?b)%nat then _ else _] => destruct (Nat.eqb_spec a b); try lia end; reflexivity. }
    assert (L4 : reg r8 (20 + 16 * c)%nat = tl mod u32).
    { rewrite G8 by (unfold MM2S_SR; lia). rewrite G7, G6.
      repeat match goal with |- context [if (?a =? ?b)%nat then _ else _] => destruct (Nat.eqb_spec a b); try lia end; reflexivity. }
    assert (L5 : reg r8 (21 + 16 * c)%nat = tl / u32).
    { rewrite G8 by (unfold MM2S_SR; lia). rewrite G7.
      repeat match goal with |- context [if (?a =? ?b)%nat then _ else _] => destruct (Nat.eqb_spec a b); try lia end; reflexivity. }
    rewrite L2, L3, L4, L5. f_equal.
    + rewrite (N.div_mod first u32) at 3 by discriminate. clear. lia.
    + rewrite (N.div_mod tl u32) at 3 by discriminate. clear. lia.
  - intros c' Hc' Ne. cbn [k_en ctl]. fold (reg r8 2%nat). rewrite R2. apply N.pow2_bits_false. clear - Ne. lia.
  - rewrite RC. reflexivity.
Qed.

(** The interrupt of channel 0 (CH1SR): any write clears the three flags and
    leaves the control registers alone. *)
Lemma ack_first bad nch s v : regs_ok (t_regs s) -> v < u32 ->
  exists s', exec bad nch [L_bus (write32 68 v)] s = Ok s' /\ regs_ok (t_regs s') /\
    mm2s_requests (t_regs s') 0 = false /\ (forall c, ctl (t_regs s') c = ctl (t_regs s) c) /\
    t_pc s' = t_pc s /\ t_mem s' = t_mem s /\ t_buf s' = t_buf s /\ t_out s' = t_out s /\ t_irqs s' = true.
Proof.
  intros H Hv. assert (F : find_info mcdma_info (4 * N.of_nat 17) = Some (mkRinfo 68 4294901761 232 1 0)) by (vm_compute; reflexivity).
  pose proof (bus_write s 17 v _ H ltac:(unfold NREGS; lia) Hv F) as W. cbn zeta in W.
  set (n := reg_new _ false (reg (t_regs s) 17) v) in W.
  assert (Nb : n < u32) by (apply reg_new_small; [exact (regs_ok_reg _ _ H)|exact Hv]).
  set (r := set_reg (t_regs s) 17 n) in W.
  assert (O : regs_ok r) by (apply regs_ok_set; [exact H|unfold NREGS; lia|exact Nb]).
  assert (G : forall j, reg r j = if (j =? 17)%nat then n else reg (t_regs s) j)
    by (intro j; apply reg_set; rewrite (regs_ok_len _ H); unfold NREGS; lia).
  assert (St : starts r 17 = false) by reflexivity.
  rewrite St in W. change (4 * N.of_nat 17) with 68 in W. cbn [exec step]. rewrite W. cbn [rbind].
  eexists. split; [reflexivity|]. cbn [t_regs t_pc t_mem t_buf t_out t_irqs with_regs with_irqs].
  refine (conj O (conj _ (conj _ (conj eq_refl (conj eq_refl (conj eq_refl (conj eq_refl eq_refl))))))).
  - unfold mm2s_requests, requests. cbn [existsb Nat.add Nat.mul]. fold (reg r 17%nat). rewrite (G 17%nat). cbn [Nat.eqb].
    unfold n. rewrite !reg_new_write. cbn [ri_ro ri_w1c].
    change (N.testbit 232 5) with true. change (N.testbit 232 6) with true. change (N.testbit 232 7) with true.
    cbn [negb]. rewrite !andb_false_r. reflexivity.
  - intro c. unfold ctl. fold (reg r 0%nat) (reg r 2%nat) (reg r (16 + 16 * c)%nat) (reg r (17 + 16 * c)%nat)
      (reg r (18 + 16 * c)%nat) (reg r (19 + 16 * c)%nat) (reg r (20 + 16 * c)%nat) (reg r (21 + 16 * c)%nat).
    rewrite !G.
    repeat match goal with |- context [if (?a =? 17)%nat then _ else _] => 
      lazymatch a with (17 + _)%nat => fail | _ => destruct (Nat.eqb_spec a 17); [lia|] end end.
    f_equal. destruct (Nat.eqb_spec (17 + 16 * c) 17) as [E|E]; [|reflexivity].
    unfold n. rewrite reg_new_write. cbn [ri_ro ri_w1c]. change (N.testbit 4294901761 0) with true.
    change (N.testbit 232 0) with false. rewrite andb_true_r. now rewrite E.
Qed.
