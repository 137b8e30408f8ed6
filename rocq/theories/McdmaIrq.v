(** Interrupt lines and register accesses of the MCDMA model. *)
From Verif Require Import Base BaseFacts LeFacts TlmModel TlmSpec TlmFacts RegapiModel RegapiSpec RegapiProofs
  McdmaModel McdmaSpec McdmaProofs McdmaTx McdmaRx.
Open Scope N_scope.

(** Register descriptions *)
Fixpoint nodupb (l : list N) : bool :=
  match l with [] => true | x :: l' => negb (existsb (N.eqb x) l') && nodupb l' end.
Lemma nodupb_ok l : nodupb l = true -> NoDup l.
Proof.
  induction l as [|x l IH]; intro H; [constructor|]. cbn in H. apply andb_true_iff in H. destruct H as [A B].
  constructor; [|auto]. intro I. apply negb_true_iff in A.
  rewrite (proj2 (existsb_exists _ _)) in A; [discriminate|]. exists x. split; [exact I|apply N.eqb_refl].
Qed.
Definition describedb (sz : N) (n : nat) (info : list rinfo) : bool :=
  (0 <? sz) && (length info <=? n)%nat && nodupb (map ri_addr info) &&
  forallb (fun i => (ri_addr i mod sz =? 0) && (ri_addr i / sz <? N.of_nat n)) info.
Lemma describedb_ok sz n info : describedb sz n info = true -> described sz n info.
Proof.
  unfold describedb. intro H. apply andb_true_iff in H. destruct H as [H D]. apply andb_true_iff in H. destruct H as [H C].
  apply andb_true_iff in H. destruct H as [A B].
  refine (conj _ (conj _ (conj (nodupb_ok _ C) _))).
  - now apply N.ltb_lt.
  - now apply Nat.leb_le.
  - apply Forall_forall. intros i Hi. rewrite forallb_forall in D. specialize (D i Hi). apply andb_true_iff in D.
    destruct D as [D1 D2]. split; [now apply N.eqb_eq|now apply N.ltb_lt].
Qed.
Lemma mcdma_described : described 4 NREGS mcdma_info.
Proof. apply describedb_ok. vm_compute. reflexivity. Qed.
Definition small_info (i : rinfo) : bool := (ri_ro i <? u32) && (ri_w1c i <? u32) && (ri_cor i =? 0).
Lemma mcdma_small : forallb small_info mcdma_info = true.
Proof. vm_compute. reflexivity. Qed.

Lemma reg_new_small i rd old v : old < u32 -> v < u32 -> reg_new i rd old v < u32.
Proof.
  intros Ho Hv. apply small_of_bits. intros k Hk.
  destruct rd; [rewrite reg_new_read|rewrite reg_new_write]; rewrite (small_bits old 32 k Ho Hk); [reflexivity|].
  rewrite (small_bits v 32 k Hv Hk). now destruct (N.testbit (ri_ro i) k).
Qed.

(** What a register access does. *)
Lemma transport_cases regs g : regs_ok regs -> bytes_ok (g_data g) ->
  exists regs' d st, reg_transport 4 mcdma_info regs g = Ok (regs', (d, st)) /\ regs_ok regs' /\
    (regs' = regs \/
     exists i, In i mcdma_info /\ g_addr g = ri_addr i /\ g_len g = 4 /\ 
       let ix := N.to_nat (ri_addr i / 4) in (ix < NREGS)%nat /\
       regs' = set_reg regs ix (reg_new i (match g_cmd g with C_READ => true | _ => false end) (reg regs ix)
                                 (match g_cmd g with C_READ => 0 | _ => le_dec (g_data g) end))).
Proof.
  intros H B. pose proof (regs_ok_len _ H) as L. unfold reg_transport.
  destruct (N.eqb_spec 4 (g_len g)) as [E|E]; cbn [negb]; [|eauto 8].
  rewrite reg_access_spec by (rewrite L; exact mcdma_described).
  destruct (find_info mcdma_info (g_addr g)) as [i|] eqn:F; cbn [rbind]; [|eauto 8].
  apply find_info_Some in F. destruct F as [Hi Ha].
  destruct mcdma_described as [_ [_ [_ D]]]. rewrite Forall_forall in D. destruct (D i Hi) as [_ D2]. rewrite <- Ha.
  set (ix := N.to_nat (ri_addr i / 4)).
  assert (Hx : (ix < NREGS)%nat) by (unfold ix; clear - D2; lia).
  cbn zeta.
  assert (V : match g_cmd g with C_READ => 0 | _ => le_dec (g_data g) end < u32).
  { assert (Z : le_dec (g_data g) < u32).
    { pose proof (le_dec_bound _ B) as X. unfold g_len in E. rewrite <- E in X. exact X. }
    destruct (g_cmd g); [reflexivity|exact Z|exact Z]. }
  eexists. eexists. eexists. split; [reflexivity|]. split.
  - apply regs_ok_set; [exact H|exact Hx|]. apply reg_new_small; [exact (regs_ok_reg _ _ H)|].
    destruct (g_cmd g); exact V.
  - right. exists i. refine (conj Hi (conj eq_refl (conj (eq_sym E) (conj Hx _)))).
    f_equal. destruct (g_cmd g); reflexivity.
Qed.

Lemma bus_cases g s : regs_ok (t_regs s) -> bytes_ok (g_data g) ->
  exists s' d, bus g s = Ok (s', (d, St_OK)) /\ regs_ok (t_regs s') /\ t_irqs s' = true /\
    t_mem s' = t_mem s /\ t_buf s' = t_buf s /\ t_out s' = t_out s /\ t_mm2s s' = t_mm2s s /\ t_s2mm s' = t_s2mm s /\
    (t_pc s' = t_pc s \/ (t_pc s = P_wait /\ t_pc s' = P_ready)) /\
    exists regs1 d1 st1, reg_transport 4 mcdma_info (t_regs s) g = Ok (regs1, (d1, st1)) /\
      (t_regs s' = regs1 \/ exists c, (c < 15)%nat /\ t_regs s' = mm2s_set_idle regs1 c false).
Proof.
  intros H B. destruct (transport_cases (t_regs s) g H B) as [r [d [st [E [O C]]]]].
  unfold bus. rewrite E. cbn [rbind].
  set (ix := g_addr g / 4 mod u32).
  set (rd := match g_cmd g with C_READ => true | _ => false end).
  destruct (negb rd && (CASE_FIRST <=? ix) && (ix <=? CASE_LAST)) eqn:G.
  - set (c := N.to_nat ((ix - 16) / 16)).
    assert (Hc : (c < 15)%nat).
    { apply andb_true_iff in G. destruct G as [G1 G3]. apply N.leb_le in G3. unfold CASE_LAST in G3. unfold c.
      assert ((ix - 16) / 16 < 15) by (apply N.div_lt_upper_bound; [discriminate|clear - G3; lia]). clear - H0. lia. }
    destruct ((N.to_nat ix =? MM2S_TAIL_MSB c)%nat && bit (reg r (MM2S_CR c)) 0).
    + eexists. eexists. split; [reflexivity|]. cbn [t_regs t_irqs t_mem t_buf t_out t_mm2s t_s2mm t_pc with_pc with_regs with_irqs].
      destruct (set_idle_spec r (MM2S_SR c) MM2S_IDLE_SHIFT false O) as [O' _]; [unfold MM2S_SR, NREGS; clear - Hc; lia|reflexivity|].
      refine (conj O' (conj eq_refl (conj eq_refl (conj eq_refl (conj eq_refl (conj eq_refl (conj eq_refl (conj _ _)))))))).
      * destruct (t_pc s); auto.
      * exists r, d, st. split; [reflexivity|]. right. exists c. auto.
    + eexists. eexists. split; [reflexivity|]. cbn [t_regs t_irqs t_mem t_buf t_out t_mm2s t_s2mm t_pc with_pc with_regs with_irqs].
      refine (conj O (conj eq_refl (conj eq_refl (conj eq_refl (conj eq_refl (conj eq_refl (conj eq_refl (conj _ _)))))))); [now left|].
      exists r, d, st. auto.
  - eexists. eexists. split; [reflexivity|]. cbn [t_regs t_irqs t_mem t_buf t_out t_mm2s t_s2mm t_pc with_pc with_regs with_irqs].
    refine (conj O (conj eq_refl (conj eq_refl (conj eq_refl (conj eq_refl (conj eq_refl (conj eq_refl (conj _ _)))))))); [now left|].
    exists r, d, st. auto.
Qed.

(** update_irqs *)
Lemma requests_spec regs sr cr :
  (if N.land (N.land (reg regs sr) IRQ_ALL) (N.land (reg regs cr) IRQ_ALL) =? 0 then 0 else 1) =
  (if requests regs sr cr then 1 else 0).
Proof.
  unfold requests. cbn [existsb]. fold (reg regs sr) (reg regs cr).
  set (a := reg regs sr). set (b := reg regs cr). rewrite orb_false_r.
  set (v := N.land (N.land a IRQ_ALL) (N.land b IRQ_ALL)).
  assert (V : forall k, N.testbit v k = ((k =? 5) || (k =? 6) || (k =? 7)) && (N.testbit a k && N.testbit b k)).
  { intro k. unfold v. rewrite !N.land_spec.
    assert (X : N.testbit IRQ_ALL k = (k =? 5) || (k =? 6) || (k =? 7)).
    { destruct (N.lt_ge_cases k 8) as [L|L].
      - assert (D : k = 0 \/ k = 1 \/ k = 2 \/ k = 3 \/ k = 4 \/ k = 5 \/ k = 6 \/ k = 7) by lia.
        repeat (destruct D as [->|D]; [reflexivity|]). now subst.
      - rewrite (small_bits IRQ_ALL 8 k); [|reflexivity|exact L].
        destruct (N.eqb_spec k 5); [lia|]. destruct (N.eqb_spec k 6); [lia|]. destruct (N.eqb_spec k 7); [lia|]. reflexivity. }
    rewrite X. destruct ((k =? 5) || (k =? 6) || (k =? 7)), (N.testbit a k), (N.testbit b k); reflexivity. }
  destruct (N.eqb_spec v 0) as [Z|Z].
  - assert (Q : forall k, ((k =? 5) || (k =? 6) || (k =? 7)) && (N.testbit a k && N.testbit b k) = false)
      by (intro k; rewrite <- V, Z; apply N.bits_0).
    pose proof (Q 5) as Q5. pose proof (Q 6) as Q6. pose proof (Q 7) as Q7. cbn [N.eqb Pos.eqb orb andb] in Q5, Q6, Q7.
    rewrite Q5, Q6, Q7. reflexivity.
  - destruct (N.testbit a 5 && N.testbit b 5 || (N.testbit a 6 && N.testbit b 6 || N.testbit a 7 && N.testbit b 7)) eqn:E; [reflexivity|].
    exfalso. apply Z. apply N.bits_inj. intro k. rewrite V, N.bits_0.
    apply orb_false_iff in E. destruct E as [E5 E]. apply orb_false_iff in E. destruct E as [E6 E7].
    destruct (N.eqb_spec k 5) as [->|]; [exact E5|]. destruct (N.eqb_spec k 6) as [->|]; [exact E6|].
    destruct (N.eqb_spec k 7) as [->|]; [exact E7|]. reflexivity.
Qed.

Lemma irq_ch_spec regs sr cr intr c : regs_ok regs -> (intr < NREGS)%nat -> (c < 16)%nat ->
  let regs' := irq_ch sr cr intr c regs in
  regs_ok regs' /\ (forall j, j <> intr -> reg regs' j = reg regs j) /\
  forall k, N.testbit (reg regs' intr) k = if k =? N.of_nat c then requests regs sr cr else N.testbit (reg regs intr) k.
Proof.
  intros H Hi Hc. cbn zeta. unfold irq_ch. rewrite requests_spec. pose proof (regs_ok_len _ H) as L.
  set (v := N.lor _ _).
  assert (V : forall k, N.testbit v k = if k =? N.of_nat c then requests regs sr cr else N.testbit (reg regs intr) k).
  { intro k. unfold v. rewrite N.lor_spec, N.ldiff_spec.
    replace (N.testbit (N.shiftl 1 (N.of_nat c)) k) with (N.of_nat c =? k) by (now rewrite N.shiftl_1_l, N.pow2_bits_eqb).
    replace (N.testbit (N.shiftl (if requests regs sr cr then 1 else 0) (N.of_nat c)) k) with (requests regs sr cr && (N.of_nat c =? k)).
    2:{ destruct (requests regs sr cr); [now rewrite N.shiftl_1_l, N.pow2_bits_eqb|rewrite N.shiftl_0_l, N.bits_0; reflexivity]. }
    rewrite (N.eqb_sym k). destruct (N.of_nat c =? k), (requests regs sr cr), (N.testbit (reg regs intr) k); reflexivity. }
  assert (Vb : v < u32).
  { apply small_of_bits. intros k Hk. rewrite V. destruct (N.eqb_spec k (N.of_nat c)); [lia|].
    apply (small_bits _ 32); [exact (regs_ok_reg _ _ H)|exact Hk]. }
  refine (conj _ (conj _ _)).
  - now apply regs_ok_set.
  - intros j Hj. rewrite reg_set by lia. destruct (Nat.eqb_spec j intr); [contradiction|reflexivity].
  - intro k. rewrite reg_set by lia. rewrite Nat.eqb_refl. apply V.
Qed.

Lemma requests_frame regs regs' sr cr : reg regs' sr = reg regs sr -> reg regs' cr = reg regs cr ->
  requests regs' sr cr = requests regs sr cr.
Proof. unfold requests, reg. intros -> ->. reflexivity. Qed.

Lemma irq_regs_spec n regs : regs_ok regs -> (n <= 16)%nat ->
  let regs' := irq_regs n regs in
  regs_ok regs' /\ (forall j, j <> R_MM2S_INTR -> j <> R_S2MM_INTR -> reg regs' j = reg regs j) /\
  (forall k, N.testbit (reg regs' R_MM2S_INTR) k =
     if k <? N.of_nat n then mm2s_requests regs (N.to_nat k) else N.testbit (reg regs R_MM2S_INTR) k) /\
  (forall k, N.testbit (reg regs' R_S2MM_INTR) k =
     if k <? N.of_nat n then s2mm_requests regs (N.to_nat k) else N.testbit (reg regs R_S2MM_INTR) k).
Proof.
  intros H. induction n as [|n IH]; intro Hn; cbn zeta.
  - unfold irq_regs. cbn [seq fold_left]. refine (conj H (conj (fun _ _ _ => eq_refl) (conj _ _))); intro k;
      destruct (N.ltb_spec k (N.of_nat 0)); [lia|reflexivity|lia|reflexivity].
  - destruct (IH ltac:(lia)) as [O [F [M S]]]. unfold irq_regs in *. rewrite seq_S, fold_left_app. cbn [fold_left Nat.add].
    set (r := fold_left _ (seq 0 n) regs) in *.
    destruct (irq_ch_spec r (MM2S_SR n) (MM2S_CR n) R_MM2S_INTR n O) as [O1 [F1 M1]]; [cbv; lia|lia|].
    set (r1 := irq_ch (MM2S_SR n) (MM2S_CR n) R_MM2S_INTR n r) in *.
    destruct (irq_ch_spec r1 (S2MM_SR n) (S2MM_CR n) R_S2MM_INTR n O1) as [O2 [F2 M2]]; [unfold R_S2MM_INTR, NREGS; lia|lia|].
    set (r2 := irq_ch (S2MM_SR n) (S2MM_CR n) R_S2MM_INTR n r1) in *.
    refine (conj O2 (conj _ (conj _ _))).
    + intros j A B. rewrite F2, F1 by assumption. now apply F.
    + intro k. rewrite F2 by (unfold R_MM2S_INTR, R_S2MM_INTR; lia). rewrite M1.
      destruct (N.eqb_spec k (N.of_nat n)) as [->|Ne].
      * destruct (N.ltb_spec (N.of_nat n) (N.of_nat (Datatypes.S n))); [|lia]. rewrite Nat2N.id. unfold mm2s_requests.
        apply requests_frame; apply F; unfold MM2S_SR, MM2S_CR, R_MM2S_INTR, R_S2MM_INTR; lia.
      * rewrite M. destruct (N.ltb_spec k (N.of_nat n)); destruct (N.ltb_spec k (N.of_nat (Datatypes.S n))); try reflexivity; lia.
    + intro k. rewrite M2. destruct (N.eqb_spec k (N.of_nat n)) as [->|Ne].
      * destruct (N.ltb_spec (N.of_nat n) (N.of_nat (Datatypes.S n))); [|lia]. rewrite Nat2N.id. unfold s2mm_requests.
        apply requests_frame; (rewrite F1; [apply F|]); unfold S2MM_SR, S2MM_CR, R_MM2S_INTR, R_S2MM_INTR; lia.
      * rewrite F1 by (unfold R_MM2S_INTR, R_S2MM_INTR; lia). rewrite S.
        destruct (N.ltb_spec k (N.of_nat n)); destruct (N.ltb_spec k (N.of_nat (Datatypes.S n))); try reflexivity; lia.
Qed.

Lemma line_spec v n (f : nat -> bool) :
  (forall k, N.testbit v k = if k <? N.of_nat n then f (N.to_nat k) else false) ->
  negb (v =? 0) = existsb f (seq 0 n).
Proof.
  intros H. destruct (existsb f (seq 0 n)) eqn:E.
  - apply existsb_exists in E. destruct E as [c [Hc Fc]]. apply in_seq in Hc.
    destruct (N.eqb_spec v 0) as [Z|Z]; [exfalso|reflexivity].
    specialize (H (N.of_nat c)). rewrite Z, N.bits_0, Nat2N.id, Fc in H.
    destruct (N.ltb_spec (N.of_nat c) (N.of_nat n)); [discriminate|lia].
  - destruct (N.eqb_spec v 0) as [Z|Z]; [reflexivity|exfalso]. apply Z. apply N.bits_inj. intro k. rewrite H, N.bits_0.
    destruct (N.ltb_spec k (N.of_nat n)) as [L|L]; [|reflexivity].
    destruct (f (N.to_nat k)) eqn:Fk; [|reflexivity].
    rewrite (proj2 (existsb_exists f (seq 0 n))) in E; [discriminate|].
    exists (N.to_nat k). split; [apply in_seq; lia|exact Fk].
Qed.

Definition pc_chan (nch : nat) (p : pc) : Prop :=
  match p with
  | P_wait | P_ready => True
  | P_load c _ _ | P_loaded c _ _ | P_data c _ _ | P_got c _ _ | P_push c _ _ _ | P_pushed c _ _ | P_store c _ _ _
  | P_stored c _ _ => (c < nch)%nat
  end.
Lemma scan_in nch regs c c' : scan nch regs c = Some c' -> (c' < nch)%nat.
Proof. intros H. apply find_seq in H. lia. Qed.
Lemma advance_chan nch regs c n : pc_chan nch (advance nch regs c n).
Proof.
  unfold advance. destruct (scan nch regs c) eqn:E; [exact (scan_in _ _ _ _ E)|].
  destruct n; [exact I|]. destruct (scan nch regs 0) eqn:E2; [exact (scan_in _ _ _ _ E2)|exact I].
Qed.

(** The interrupt registers agree with the requests, unless update_irqs is due.
    [b]: also for S2MM. *)
Record irq_inv (b : bool) (nch : nat) (s : state) : Prop := {
  q_regs : regs_ok (t_regs s);
  q_pc : pc_chan nch (t_pc s);
  q_m : forall k, N.of_nat nch <= k -> N.testbit (reg (t_regs s) R_MM2S_INTR) k = false;
  q_s : b = true -> forall k, N.of_nat nch <= k -> N.testbit (reg (t_regs s) R_S2MM_INTR) k = false;
  q_mline : t_irqs s = false ->
     t_mm2s s = existsb (mm2s_requests (t_regs s)) (seq 0 nch) /\
     forall c, (c < nch)%nat -> N.testbit (reg (t_regs s) R_MM2S_INTR) (N.of_nat c) = mm2s_requests (t_regs s) c;
  q_sline : b = true -> t_irqs s = false ->
     t_s2mm s = existsb (s2mm_requests (t_regs s)) (seq 0 nch) /\
     forall c, (c < nch)%nat -> N.testbit (reg (t_regs s) R_S2MM_INTR) (N.of_nat c) = s2mm_requests (t_regs s) c }.

Lemma requests_idle regs sr0 sh b sr cr : regs_ok regs -> (sr0 < NREGS)%nat -> sh < 5 -> cr <> sr0 ->
  requests (set_idle sr0 sh b regs) sr cr = requests regs sr cr.
Proof.
  intros H Hs Hh Nc. destruct (set_idle_spec regs sr0 sh b H Hs ltac:(lia)) as [_ [F B]].
  unfold requests. fold (reg (set_idle sr0 sh b regs) sr). fold (reg (set_idle sr0 sh b regs) cr). fold (reg regs sr) (reg regs cr).
  rewrite (F cr Nc). destruct (Nat.eq_dec sr sr0) as [->|Ns]; [|now rewrite (F sr Ns)].
  cbn [existsb]. rewrite !B. destruct (N.eqb_spec 5 sh); [lia|]. destruct (N.eqb_spec 6 sh); [lia|].
  destruct (N.eqb_spec 7 sh); [lia|]. reflexivity.
Qed.

Lemma existsb_same (f g : nat -> bool) l : (forall x, f x = g x) -> existsb f l = existsb g l.
Proof. intro E. induction l as [|y l IHl]; [reflexivity|]. cbn [existsb]. now rewrite E, IHl. Qed.
Lemma inv_idle b nch s sr sh v p : (nch <= 16)%nat -> irq_inv b nch s -> (sr < NREGS)%nat -> sh < 5 ->
  (exists c, (c < 16)%nat /\ (sr = 17 + 16 * c \/ sr = 337 + 16 * c)%nat) -> pc_chan nch p ->
  irq_inv b nch (with_pc (with_regs s (set_idle sr sh v (t_regs s))) p).
Proof.
  intros Hn [Qr Qp Qm Qs Ql Qt] Hs Hh [c [Hc Hsr]] Hp.
  destruct (set_idle_spec (t_regs s) sr sh v Qr Hs ltac:(lia)) as [O [F _]].
  assert (A : sr <> R_MM2S_INTR /\ sr <> R_S2MM_INTR) by (unfold R_MM2S_INTR, R_S2MM_INTR; lia).
  assert (E1 : forall x, mm2s_requests (set_idle sr sh v (t_regs s)) x = mm2s_requests (t_regs s) x)
    by (intro x; apply requests_idle; auto; unfold MM2S_CR, S2MM_CR; lia).
  assert (E2 : forall x, s2mm_requests (set_idle sr sh v (t_regs s)) x = s2mm_requests (t_regs s) x)
    by (intro x; apply requests_idle; auto; unfold MM2S_CR, S2MM_CR; lia).
  assert (X1 : existsb (mm2s_requests (set_idle sr sh v (t_regs s))) (seq 0 nch) = existsb (mm2s_requests (t_regs s)) (seq 0 nch)).
  { apply existsb_same. exact E1. }
  assert (X2 : existsb (s2mm_requests (set_idle sr sh v (t_regs s))) (seq 0 nch) = existsb (s2mm_requests (t_regs s)) (seq 0 nch)).
  { apply existsb_same. exact E2. }
  constructor; cbn [t_regs t_pc t_irqs t_mm2s t_s2mm with_pc with_regs].
  - exact O.
  - exact Hp.
  - intros k Hk. rewrite F by (destruct A; auto). now apply Qm.
  - intros Eb k Hk. rewrite F by (destruct A; auto). now apply Qs.
  - intros Ei. destruct (Ql Ei) as [L1 L2]. split; [now rewrite X1|].
    intros x Hx. rewrite F, E1 by (destruct A; auto). now apply L2.
  - intros Eb Ei. destruct (Qt Eb Ei) as [L1 L2]. split; [now rewrite X2|].
    intros x Hx. rewrite F, E2 by (destruct A; auto). now apply L2.
Qed.

Lemma inv_due b nch s s' : irq_inv b nch s -> regs_ok (t_regs s') -> pc_chan nch (t_pc s') -> t_irqs s' = true ->
  reg (t_regs s') R_MM2S_INTR = reg (t_regs s) R_MM2S_INTR ->
  (b = true -> reg (t_regs s') R_S2MM_INTR = reg (t_regs s) R_S2MM_INTR) -> irq_inv b nch s'.
Proof.
  intros [Qr Qp Qm Qs Ql Qt] O P I E1 E2. constructor; auto.
  - intros k Hk. rewrite E1. now apply Qm.
  - intros Eb k Hk. rewrite (E2 Eb). now apply Qs.
  - intro X. congruence.
  - intros _ X. congruence.
Qed.

Lemma inv_same b nch s s' : irq_inv b nch s -> t_regs s' = t_regs s -> pc_chan nch (t_pc s') ->
  t_irqs s' = t_irqs s -> t_mm2s s' = t_mm2s s -> t_s2mm s' = t_s2mm s -> irq_inv b nch s'.
Proof.
  intros [Qr Qp Qm Qs Ql Qt] E P I L1 L2. constructor; rewrite ?E, ?I, ?L1, ?L2; auto.
Qed.

Lemma finish_regs regs c (tx : bool) t next : regs_ok regs -> (c < 16)%nat ->
  exists regs', (if tx then finish (MM2S_CR c) (MM2S_SR c) (MM2S_CUR_LSB c) (MM2S_CUR_MSB c) MM2S_IDLE_SHIFT t next regs
                 else finish (S2MM_CR c) (S2MM_SR c) (S2MM_CUR_LSB c) (S2MM_CUR_MSB c) S2MM_IDLE_SHIFT t next regs) = Ok regs' /\
    regs_ok regs' /\ reg regs' R_MM2S_INTR = reg regs R_MM2S_INTR /\ reg regs' R_S2MM_INTR = reg regs R_S2MM_INTR.
Proof.
  intros H Hc. destruct tx.
  - destruct (finish_spec regs (MM2S_CR c) (MM2S_SR c) (MM2S_CUR_LSB c) (MM2S_CUR_MSB c) MM2S_IDLE_SHIFT t next H)
      as [r [E [O [F _]]]]; unfold MM2S_CR, MM2S_SR, MM2S_CUR_LSB, MM2S_CUR_MSB, MM2S_IDLE_SHIFT, NREGS, R_MM2S_INTR, R_S2MM_INTR in *; try lia.
    { repeat constructor; cbn; lia. }
    exists r. refine (conj E (conj O (conj _ _))); apply F; lia.
  - destruct (finish_spec regs (S2MM_CR c) (S2MM_SR c) (S2MM_CUR_LSB c) (S2MM_CUR_MSB c) S2MM_IDLE_SHIFT t next H)
      as [r [E [O [F _]]]]; unfold S2MM_CR, S2MM_SR, S2MM_CUR_LSB, S2MM_CUR_MSB, S2MM_IDLE_SHIFT, NREGS, R_MM2S_INTR, R_S2MM_INTR in *; try lia.
    { repeat constructor; cbn; lia. }
    exists r. refine (conj E (conj O (conj _ _))); apply F; lia.
Qed.

Lemma bus_intr g s s1 r : regs_ok (t_regs s) -> bytes_ok (g_data g) -> bus g s = Ok (s1, r) ->
  reg (t_regs s1) R_MM2S_INTR = reg (t_regs s) R_MM2S_INTR /\
  ((g_cmd g <> C_READ -> g_addr g <> 1312) -> reg (t_regs s1) R_S2MM_INTR = reg (t_regs s) R_S2MM_INTR).
Proof.
  intros H B E. destruct (bus_cases g s H B) as [s' [d [E' [_ [_ [_ [_ [_ [_ [_ [_ [r1 [d1 [st1 [T C]]]]]]]]]]]]]]].
  rewrite E in E'. injection E' as -> _.
  destruct (transport_cases (t_regs s) g H B) as [r2 [d2 [st2 [T2 [O2 C2]]]]]. rewrite T in T2. injection T2 as <- _ _.
  assert (X : reg (t_regs s') R_MM2S_INTR = reg r1 R_MM2S_INTR /\ reg (t_regs s') R_S2MM_INTR = reg r1 R_S2MM_INTR).
  { destruct C as [->|[c [Hc ->]]]; [auto|].
    destruct (set_idle_spec r1 (MM2S_SR c) MM2S_IDLE_SHIFT false O2) as [_ [F _]]; [unfold MM2S_SR, NREGS; clear - Hc; lia|reflexivity|].
    split; apply F; unfold MM2S_SR, R_MM2S_INTR, R_S2MM_INTR; lia. }
  destruct X as [-> ->]. destruct C2 as [->|[i [Hi [Ha [Hl [Hx ->]]]]]]; [auto|].
  pose proof (regs_ok_len _ H) as L. rewrite !reg_set by (rewrite L; exact Hx).
  destruct mcdma_described as [_ [_ [ND D]]]. rewrite Forall_forall in D. destruct (D i Hi) as [D1 _].
  pose proof mcdma_small as SM. rewrite forallb_forall in SM. specialize (SM i Hi). unfold small_info in SM.
  apply andb_true_iff in SM. destruct SM as [_ SM]. apply N.eqb_eq in SM.
  assert (R : forall old v, g_cmd g = C_READ -> reg_new i (match g_cmd g with C_READ => true | _ => false end) old v = old).
  { intros old v Er. rewrite Er. unfold reg_new. rewrite SM. apply N.ldiff_0_r. }
  assert (A4 : forall n, N.to_nat (ri_addr i / 4) = n -> ri_addr i = 4 * N.of_nat n).
  { intros n En. pose proof (N.div_mod (ri_addr i) 4 ltac:(discriminate)) as DM. rewrite D1 in DM. clear - En DM. lia. }
  split.
  - destruct (Nat.eqb_spec R_MM2S_INTR (N.to_nat (ri_addr i / 4))) as [Eq|]; [|reflexivity]. rewrite <- Eq.
    pose proof (A4 _ (eq_sym Eq)) as Ea. change (4 * N.of_nat R_MM2S_INTR) with 40 in Ea.
    assert (Ei : i = mkRinfo 40 4294967295 0 0 0).
    { assert (F : find_info mcdma_info 40 = Some i) by (rewrite <- Ea; apply find_info_In; assumption).
      assert (G : find_info mcdma_info 40 = Some (mkRinfo 40 4294967295 0 0 0)) by (vm_compute; reflexivity). congruence. }
    set (old := reg (t_regs s) R_MM2S_INTR).
    assert (Old : old < u32) by exact (regs_ok_reg _ _ H).
    destruct (g_cmd g) eqn:Ec; [apply R; reflexivity| |];
      (apply N.bits_inj; intro k; rewrite reg_new_write, Ei; cbn [ri_ro ri_w1c];
       rewrite N.bits_0, andb_true_r; change 4294967295 with (N.ones 32);
       destruct (N.lt_ge_cases k 32) as [Lk|Lk];
       [rewrite N.ones_spec_low by exact Lk; reflexivity
       |rewrite N.ones_spec_high by exact Lk; rewrite (small_bits old 32 k Old Lk); apply (small_bits _ 32); [|exact Lk]];
       pose proof (le_dec_bound _ B) as LB;
       assert (LL : length (g_data g) = 4%nat) by (clear - Hl; unfold g_len in Hl; lia);
       rewrite LL in LB; exact LB).
  - intro NW. destruct (Nat.eqb_spec R_S2MM_INTR (N.to_nat (ri_addr i / 4))) as [Eq|]; [|reflexivity]. rewrite <- Eq.
    pose proof (A4 _ (eq_sym Eq)) as Ea. change (4 * N.of_nat R_S2MM_INTR) with 1312 in Ea.
    destruct (g_cmd g) eqn:Ec; [apply R; reflexivity| |]; exfalso; apply NW; try congruence; discriminate.
Qed.
