(** S2MM: what one packet and a sequence of packets do. *)
From Verif Require Import Base BaseFacts LeFacts TlmModel TlmSpec TlmFacts RegapiModel RegapiSpec RegapiProofs
  McdmaModel McdmaSpec McdmaProofs McdmaTx.
Open Scope N_scope.

Lemma rx_ready_on regs c : rx_ready regs c = on (rctl regs c).
Proof. unfold rx_ready, on, rctl. rewrite !bit_spec, land_pow_bit. reflexivity. Qed.
Lemma rcur_ctl regs c : regs_ok regs -> s2mm_cur regs c = k_cur (rctl regs c).
Proof. intros H. unfold s2mm_cur. rewrite reg64_spec by exact H. reflexivity. Qed.
Lemma rtail_ctl regs c : regs_ok regs -> s2mm_tail regs c = k_tail (rctl regs c).
Proof. intros H. unfold s2mm_tail. rewrite reg64_spec by exact H. reflexivity. Qed.
Lemma rctl_frame regs regs' c :
  (forall j, j = 320%nat \/ j = 322%nat \/ (336 + 16 * c <= j <= 341 + 16 * c)%nat -> reg regs' j = reg regs j) ->
  rctl regs' c = rctl regs c.
Proof.
  intros H. unfold rctl. unfold reg in H.
  rewrite (H 320%nat), (H 322%nat), (H (336 + 16 * c)%nat), (H (337 + 16 * c)%nat), (H (338 + 16 * c)%nat),
    (H (339 + 16 * c)%nat), (H (340 + 16 * c)%nat), (H (341 + 16 * c)%nat) by lia. reflexivity.
Qed.
Lemma rfinish_ctl regs c t next : regs_ok regs -> next < u64 -> (c < 16)%nat ->
  exists regs', finish (S2MM_CR c) (S2MM_SR c) (S2MM_CUR_LSB c) (S2MM_CUR_MSB c) S2MM_IDLE_SHIFT t next regs = Ok regs' /\
    regs_ok regs' /\ (forall c', c' <> c -> rctl regs' c' = rctl regs c') /\
    (forall c', (c' < 16)%nat -> ctl regs' c' = ctl regs c') /\ rioc regs' c = true /\
    rctl regs' c = let k := rctl regs c in
      mkControl (k_rs k) (k_en k) (k_run k) (t || k_idle k) next (k_tail k).
Proof.
  intros H Hn Hc.
  destruct (finish_spec regs (S2MM_CR c) (S2MM_SR c) (S2MM_CUR_LSB c) (S2MM_CUR_MSB c) S2MM_IDLE_SHIFT t next H)
    as [r [E [O [F [V B]]]]]; unfold S2MM_CR, S2MM_SR, S2MM_CUR_LSB, S2MM_CUR_MSB, S2MM_IDLE_SHIFT, NREGS in *; try lia.
  { repeat constructor; cbn; lia. }
  exists r. refine (conj E (conj O (conj _ (conj _ (conj _ _))))).
  - intros c' Hc'. apply rctl_frame. intros j Hj. apply F; lia.
  - intros c' Hc'. apply ctl_frame. intros j Hj. apply F; lia.
  - unfold rioc. apply (B 5). lia.
  - unfold rctl. cbn zeta. unfold reg in *.
    rewrite (F 320%nat), (F 322%nat), (F (336 + 16 * c)%nat), (F (340 + 16 * c)%nat), (F (341 + 16 * c)%nat) by lia.
    rewrite (V Hn), (B 1) by lia. reflexivity.
Qed.

(** A descriptor ready to receive packet [d]. *)
Record fits (bad : N -> bool) (m : mem) (a : N) (d : list N) : Prop := {
  f_bytes : bytes_ok d;
  f_some : d <> [];
  f_len : N.of_nat (length d) <= d_len m a;
  f_fresh : N.testbit (rx_status m a) 31 = false;
  f_range : a + d_size <= u64 /\ d_buffer m a + d_len m a <= u64;
  f_good : (forall x, within a d_size x -> bad x = false) /\
           (forall x, within (d_buffer m a) (d_len m a) x -> bad x = false);
  f_apart : apart a d_size (d_buffer m a) (d_len m a) }.

Lemma rx_status_word n : n < 2 ^ 26 ->
  N.lor (N.lor (N.lor (N.shiftl 1 31) (N.shiftl 1 27)) (N.shiftl 1 26)) n = 2 ^ 31 + 2 ^ 27 + 2 ^ 26 + n.
Proof.
  intros H. change (N.lor (N.lor (N.shiftl 1 31) (N.shiftl 1 27)) (N.shiftl 1 26)) with (N.shiftl 35 26).
  rewrite lor_add by exact H. change (2 ^ 31 + 2 ^ 27 + 2 ^ 26) with (2 ^ 26 * 35). lia.
Qed.

Lemma rx_one bad c d s a tl : regs_ok (t_regs s) -> mem_ok (t_mem s) -> (c < 16)%nat ->
  rctl (t_regs s) c = mkControl true true true false a tl -> fits bad (t_mem s) a d ->
  exists s', rx bad c d s = Ok s' /\ received (t_mem s) a d (t_mem s') /\ regs_ok (t_regs s') /\ mem_ok (t_mem s') /\
    rctl (t_regs s') c = mkControl true true true (a =? tl) (d_next (t_mem s) a) tl /\
    (forall c', c' <> c -> rctl (t_regs s') c' = rctl (t_regs s) c') /\
    (forall c', (c' < 16)%nat -> ctl (t_regs s') c' = ctl (t_regs s) c') /\
    rioc (t_regs s') c = true /\ t_irqs s' = true /\
    t_pc s' = t_pc s /\ t_out s' = t_out s /\ t_buf s' = t_buf s.
Proof.
  intros Hr Hm Hc HC [Fb Fs Fl Ff [Fr1 Fr2] [Fg1 Fg2] Fa].
  set (m := t_mem s) in *. set (n := length d) in *.
  assert (Ln : N.of_nat n < 2 ^ 26).
  { apply N.le_lt_trans with (1 := Fl). unfold d_len. apply N.mod_lt. discriminate. }
  assert (LE : forall a, bytes_at m a 52 = bytes_at m a BD_SIZE) by reflexivity.
  unfold rx. change (2147483648 <=? N.of_nat (length d)) with (2 ^ 31 <=? N.of_nat n).
  destruct (N.leb_spec (2 ^ 31) (N.of_nat n)) as [X|_].
  { exfalso. change (2 ^ 31) with 2147483648 in X. change (2 ^ 26) with 67108864 in Ln. clear - X Ln. lia. }
  fold n. destruct (Nat.eqb_spec n 0) as [X|Nz].
  { exfalso. apply Fs. now apply length_zero_iff_nil. }
  rewrite rx_ready_on, HC. cbn [on k_rs k_en k_run k_idle negb andb]. unfold on. cbn [k_rs k_en k_run k_idle negb andb].
  rewrite rcur_ctl, HC by exact Hr. cbn [k_cur]. rewrite load_desc_ok by (exact Fr1 || exact Fg1). cbn [rbind].
  rewrite bd_len_at, bd_buffer_at. fold m.
  destruct (Nat.ltb_spec (N.to_nat (d_len m a)) n) as [X|_]; [exfalso; clear - X Fl; lia|].
  unfold bd_done. rewrite bit_spec, rx_status_at, Ff.
  set (b := d_buffer m a) in *.
  assert (W1 : forall x, store bad m d b x = if (b <=? x) && (x <? b + N.of_nat n) then nth (N.to_nat (x - b)) d 0 else m x).
  { apply dma_write; [fold n; clear - Fr2 Fl; lia|]. intros x Hx. apply Fg2. unfold within in *. fold n in Hx. clear - Hx Fl. lia. }
  set (m1 := store bad m d b) in *.
  set (st := N.lor _ (N.of_nat n)).
  set (bd' := bd_set_status S2MM_STATUS (bytes_at m a BD_SIZE) st).
  assert (Lb : length bd' = BD_SIZE).
  { unfold bd', bd_set_status. rewrite overlay_length; rewrite ?le_enc_length, bytes_at_length; [reflexivity|cbv; lia]. }
  assert (W2 : forall x, store bad m1 bd' a x = if (a <=? x) && (x <? a + 52) then nth (N.to_nat (x - a)) bd' 0 else m1 x).
  { intro x. rewrite dma_write; rewrite ?Lb; [reflexivity|exact Fr1|exact Fg1]. }
  assert (Sl : slice 24 4 bd' = le_enc 4 st).
  { unfold bd', bd_set_status, overlay, slice. rewrite skipn_app_len by (rewrite firstn_length, bytes_at_length; reflexivity).
    apply firstn_app_len. apply le_enc_length. }
  assert (Nb : forall i, (i < BD_SIZE)%nat -> (i < 24 \/ 28 <= i)%nat -> nth i bd' 0 = m (a + N.of_nat i)).
  { intros i Hi Ho. unfold bd', bd_set_status, overlay. rewrite <- (bytes_at_nth m a BD_SIZE i Hi).
    destruct Ho as [Ho|Ho].
    - rewrite app_nth1 by (rewrite firstn_length, bytes_at_length; unfold S2MM_STATUS, BD_SIZE in *; lia).
      rewrite <- (firstn_skipn S2MM_STATUS (bytes_at m a BD_SIZE)) at 2.
      rewrite app_nth1 by (rewrite firstn_length, bytes_at_length; unfold S2MM_STATUS, BD_SIZE in *; lia). reflexivity.
    - rewrite app_nth2 by (rewrite firstn_length, bytes_at_length; unfold S2MM_STATUS, BD_SIZE in *; lia).
      rewrite firstn_length, bytes_at_length. replace (Nat.min S2MM_STATUS BD_SIZE) with 24%nat by reflexivity.
      rewrite app_nth2 by (rewrite le_enc_length; lia). rewrite le_enc_length.
      rewrite <- (firstn_skipn (S2MM_STATUS + 4) (bytes_at m a BD_SIZE)) at 2.
      rewrite app_nth2 by (rewrite firstn_length, bytes_at_length; unfold S2MM_STATUS, BD_SIZE in *; lia).
      rewrite firstn_length, bytes_at_length. replace (Nat.min (S2MM_STATUS + 4) BD_SIZE) with 28%nat by reflexivity.
      f_equal. lia. }
  assert (Nst : forall i, (24 <= i < 28)%nat -> nth i bd' 0 = nth (i - 24) (le_enc 4 st) 0).
  { intros i Hi. rewrite <- Sl, nth_slice by lia. f_equal. lia. }
  pose proof (le_at_bound m a 8 Hm) as LB.
  destruct (rfinish_ctl (t_regs s) c (a =? tl) (d_next m a) Hr LB Hc) as [r [EF [Or [Fr [Fc [IOC Cr]]]]]].
  rewrite rtail_ctl, HC by exact Hr. cbn [k_tail]. rewrite bd_next_at. cbn [t_mem with_mem]. rewrite EF.
  eexists. split; [reflexivity|]. cbn [t_regs t_mem t_buf t_pc t_out t_irqs with_regs with_irqs with_mem].
  assert (Dec : forall x u v, within u v x \/ ~ within u v x) by (intros; unfold within; lia).
  assert (In2 : forall x, within a d_size x -> store bad m1 bd' a x = nth (N.to_nat (x - a)) bd' 0).
  { intros x Hx. rewrite W2. unfold within, d_size in Hx. destruct (N.leb_spec a x); [|lia].
    destruct (N.ltb_spec x (a + 52)); [reflexivity|lia]. }
  assert (Out2 : forall x, ~ within a d_size x -> store bad m1 bd' a x = m1 x).
  { intros x Hx. rewrite W2. destruct (N.leb_spec a x); destruct (N.ltb_spec x (a + 52)); cbn [andb]; try reflexivity.
    exfalso. apply Hx. unfold within, d_size. lia. }
  assert (In1 : forall x, within b (N.of_nat n) x -> m1 x = nth (N.to_nat (x - b)) d 0).
  { intros x Hx. rewrite W1. unfold within in Hx. destruct (N.leb_spec b x); [|lia].
    destruct (N.ltb_spec x (b + N.of_nat n)); [reflexivity|lia]. }
  assert (Out1 : forall x, ~ within b (N.of_nat n) x -> m1 x = m x).
  { intros x Hx. rewrite W1. destruct (N.leb_spec b x); destruct (N.ltb_spec x (b + N.of_nat n)); cbn [andb]; try reflexivity.
    exfalso. apply Hx. unfold within. lia. }
  assert (Ap : forall x, within b (N.of_nat n) x -> ~ within a d_size x).
  { intros x Hx Y. apply (Fa x). split; [exact Y|]. unfold within in *. clear - Hx Fl. lia. }
  refine (conj (conj _ (conj _ _)) (conj Or (conj _ (conj _ (conj Fr (conj Fc (conj IOC (conj eq_refl (conj eq_refl (conj eq_refl eq_refl)))))))))).
  - apply nth_ext with (d := 0) (d' := 0); [apply bytes_at_length|]. rewrite bytes_at_length. intros i Hi.
    rewrite bytes_at_nth by exact Hi. assert (Wi : within b (N.of_nat n) (b + N.of_nat i)) by (unfold within; fold n in Hi; lia).
    rewrite Out2 by (apply Ap; exact Wi). rewrite In1 by exact Wi. f_equal. lia.
  - unfold rx_status. rewrite <- le_at_dec. fold n. rewrite <- (rx_status_word _ Ln). fold st.
    transitivity (le_dec (le_enc 4 st)).
    + f_equal. apply nth_ext with (d := 0) (d' := 0); [now rewrite bytes_at_length, le_enc_length|].
      rewrite bytes_at_length. intros i Hi. rewrite bytes_at_nth by exact Hi.
      rewrite In2 by (unfold within, d_size; lia). rewrite Nst by lia. f_equal. lia.
    + rewrite le_dec_enc. apply N.mod_small. unfold st. rewrite (rx_status_word _ Ln). change (256 ^ N.of_nat 4) with 4294967296.
      change (2 ^ 31 + 2 ^ 27 + 2 ^ 26) with 2348810240. change (2 ^ 26) with 67108864 in Ln. clear - Ln. lia.
  - intros x Hx Hy. destruct (Dec x a d_size) as [Y|Y].
    + rewrite In2 by exact Y. rewrite Nb.
      * f_equal. unfold within in Y. lia.
      * unfold within, d_size, BD_SIZE in *. lia.
      * unfold within, d_size in *. lia.
    + rewrite Out2 by exact Y. apply Out1. exact Hx.
  - intro x. destruct (Dec x a d_size) as [Y|Y].
    + rewrite In2 by exact Y. assert (Hi : (N.to_nat (x - a) < BD_SIZE)%nat) by (unfold within, d_size, BD_SIZE in *; lia).
      destruct (Nat.lt_ge_cases (N.to_nat (x - a)) 24) as [L|L]; [rewrite Nb by lia; apply Hm|].
      destruct (Nat.lt_ge_cases (N.to_nat (x - a)) 28) as [L'|L']; [|rewrite Nb by lia; apply Hm].
      rewrite Nst by lia. pose proof (le_enc_bytes 4 st) as BO. unfold bytes_ok in BO. rewrite Forall_forall in BO.
      apply BO. apply nth_In. rewrite le_enc_length. lia.
    + rewrite Out2 by exact Y. destruct (Dec x b (N.of_nat n)) as [Z|Z]; [|rewrite Out1 by exact Z; apply Hm].
      rewrite In1 by exact Z. unfold bytes_ok in Fb. rewrite Forall_forall in Fb. apply Fb. apply nth_In.
      unfold within in Z. fold n. lia.
  - rewrite Cr, HC. cbn zeta. cbn [k_rs k_en k_run k_idle k_tail]. now rewrite orb_false_r.
Qed.

Lemma rx_off bad c d s : on (rctl (t_regs s) c) = false -> N.of_nat (length d) < 2 ^ 31 -> rx bad c d s = Ok s.
Proof.
  intros H L. unfold rx. destruct (N.leb_spec 2147483648 (N.of_nat (length d))) as [X|_].
  { exfalso. change (2 ^ 31) with 2147483648 in L. clear - X L. lia. }
  destruct (length d =? 0)%nat; [reflexivity|]. rewrite rx_ready_on, H. reflexivity.
Qed.

Lemma last_cons (l : list N) : forall a b, last (a :: l) b = last l a.
Proof.
  induction l as [|x l IH]; intros a b; [reflexivity|].
  change (last (a :: x :: l) b) with (last (x :: l) b). rewrite !IH. reflexivity.
Qed.
Lemma last_in (l : list N) : forall a, In (last l a) (a :: l).
Proof.
  induction l as [|x l IH]; intro a; [now left|]. right. rewrite last_cons. apply IH.
Qed.

Lemma linked_ext m m' l : forall z, (forall a, In a l -> d_next m' a = d_next m a) -> linked m l z -> linked m' l z.
Proof.
  induction l as [|a l IH]; intros z E H; [exact I|]. destruct H as [H1 H2]. split.
  - rewrite E by now left. exact H1.
  - apply IH; [|exact H2]. intros b Hb. apply E. now right.
Qed.

(** Descriptors read the same where memory is the same. *)
Lemma desc_same m m' a : (forall x, within a d_size x -> m' x = m x) ->
  d_next m' a = d_next m a /\ d_buffer m' a = d_buffer m a /\ d_len m' a = d_len m a /\ rx_status m' a = rx_status m a.
Proof.
  intros H. unfold d_next, d_buffer, d_len, d_ctrl, rx_status.
  rewrite (le_at_ext m m' 8 a), (le_at_ext m m' 8 (a + 8)), (le_at_ext m m' 4 (a + 20)), (le_at_ext m m' 4 (a + 24));
    [auto| | | |]; intros x Hx; apply H; unfold within, d_size in *; lia.
Qed.

Lemma posted_fits bad a l m d : rx_posted bad (a :: l) m -> d <> [] -> bytes_ok d -> N.of_nat (length d) <= d_len m a ->
  fits bad m a d.
Proof.
  intros P A B C. assert (I : In a (a :: l)) by now left. constructor; auto.
  - exact (rp_fresh _ _ _ P a I).
  - exact (rp_fits _ _ _ P a I).
  - exact (rp_good _ _ _ P a I).
  - exact (rp_data _ _ _ P a a I I).
Qed.

Lemma received_same bad a l m d m' : rx_posted bad (a :: l) m -> N.of_nat (length d) <= d_len m a ->
  received m a d m' -> forall b, In b l -> forall x, within b d_size x -> m' x = m x.
Proof.
  intros P L [_ [_ F]] b Hb x Hx. assert (Ia : In a (a :: l)) by now left. assert (Ib : In b (a :: l)) by now right.
  assert (Ne : a <> b). { intros ->. pose proof (rp_nodup _ _ _ P) as ND. inversion ND; contradiction. }
  apply F.
  - intro Y. apply (rp_data _ _ _ P b a Ib Ia x). split; [exact Hx|]. unfold within in *. clear - Y L. lia.
  - intro Y. apply (rp_apart _ _ _ P a b Ia Ib Ne x). split; [unfold within, d_size in *; clear - Y; lia|exact Hx].
Qed.

Lemma posted_tail bad a l m d m' : rx_posted bad (a :: l) m -> N.of_nat (length d) <= d_len m a ->
  received m a d m' -> rx_posted bad l m'.
Proof.
  intros P L R. pose proof (received_same bad a l m d m' P L R) as S.
  assert (E : forall b, In b l -> d_next m' b = d_next m b /\ d_buffer m' b = d_buffer m b /\ d_len m' b = d_len m b /\ rx_status m' b = rx_status m b).
  { intros b Hb. apply desc_same. intros x Hx. exact (S b Hb x Hx). }
  constructor.
  - destruct (rp_links _ _ _ P) as [z [_ Hz]]. exists z. apply (linked_ext m); [|exact Hz]. intros b Hb. apply (E b Hb).
  - pose proof (rp_nodup _ _ _ P) as ND. now inversion ND.
  - intros b Hb. destruct (E b Hb) as [_ [_ [_ ->]]]. apply (rp_fresh _ _ _ P). now right.
  - intros b Hb. destruct (E b Hb) as [_ [-> [-> _]]]. apply (rp_fits _ _ _ P). now right.
  - intros b Hb. destruct (E b Hb) as [_ [-> [-> _]]]. apply (rp_good _ _ _ P). now right.
  - intros b b' Hb Hb'. apply (rp_apart _ _ _ P); now right.
  - intros b b' Hb Hb'. destruct (E b' Hb') as [_ [-> [-> _]]]. apply (rp_data _ _ _ P); now right.
  - intros b b' Hb Hb' Ne. destruct (E b Hb) as [_ [-> [-> _]]]. destruct (E b' Hb') as [_ [-> [-> _]]].
    apply (rp_bufs _ _ _ P); [now right|now right|exact Ne].
Qed.

Lemma fitting_ext m m' l : (forall a, In a l -> d_len m' a = d_len m a) -> forall ds, fitting m l ds -> fitting m' l ds.
Proof.
  induction l as [|a l IH]; intros E ds.
  - induction ds as [|d ds IH]; cbn [fitting]; [auto|]. intros [A B]. split; [exact A|now apply IH].
  - destruct ds as [|d ds]; cbn [fitting]; [auto|]. intros [[A [B C]] D]. split.
    + rewrite E by now left. auto.
    + apply IH; [|exact D]. intros b Hb. apply E. now right.
Qed.

Definition keeps (s s' : state) : Prop :=
  t_pc s' = t_pc s /\ t_out s' = t_out s /\ t_buf s' = t_buf s.

Lemma rx_all bad nch c : (nch <= 16)%nat -> (c < nch)%nat -> forall ds l s,
  regs_ok (t_regs s) -> mem_ok (t_mem s) -> rx_posted bad l (t_mem s) -> rx_armed (t_regs s) c l ->
  fitting (t_mem s) l ds ->
  exists s', exec bad nch (map (L_rx c) ds) s = Ok s' /\ all_received (t_mem s) l ds (t_mem s') /\
    regs_ok (t_regs s') /\ mem_ok (t_mem s') /\ keeps s s' /\
    rx_armed (t_regs s') c (skipn (length ds) l) /\
    (forall c', c' <> c -> rctl (t_regs s') c' = rctl (t_regs s) c') /\
    (forall c', (c' < 16)%nat -> ctl (t_regs s') c' = ctl (t_regs s) c').
Proof.
  intros Hn Hc. induction ds as [|d ds IH]; intros l s Hr Hm P A F.
  - exists s. cbn [map exec length skipn]. refine (conj eq_refl (conj _ (conj Hr (conj Hm (conj _ (conj A (conj _ _))))))); auto.
    + split; [|auto]. intros i a d _ H. destruct i; discriminate.
    + now repeat split.
  - cbn [map exec step]. destruct (Nat.ltb_spec c nch) as [_|X]; [|lia]. destruct l as [|a l].
    + destruct F as [Fl F]. rewrite rx_off; [|exact A|exact Fl]. cbn [rbind].
      destruct (IH [] s Hr Hm P A F) as [s' [E [R [Or [Om [K [Ra [Fr Fc]]]]]]]]. exists s'.
      refine (conj E (conj _ (conj Or (conj Om (conj K (conj _ (conj Fr Fc))))))).
      * destruct R as [_ R2]. split; [intros i a d0 H; destruct i; discriminate|]. intros x _. apply R2.
        intros i a d0 H. destruct i; discriminate.
      * rewrite skipn_nil in *. exact Ra.
    + destruct F as [[F1 [F2 F3]] F]. cbn [rx_armed] in A.
      destruct (rx_one bad c d s a (last l a) Hr Hm ltac:(lia) A (posted_fits bad a l _ d P F1 F2 F3))
        as [s1 [E1 [R1 [Or1 [Om1 [C1 [Fr1 [Fc1 [_ [_ [K1 [K2 K3]]]]]]]]]]]].
      rewrite E1. cbn [rbind].
      pose proof (received_same bad a l _ d _ P F3 R1) as S1.
      assert (ES : forall b, In b l -> d_next (t_mem s1) b = d_next (t_mem s) b /\ d_buffer (t_mem s1) b = d_buffer (t_mem s) b /\
                 d_len (t_mem s1) b = d_len (t_mem s) b /\ rx_status (t_mem s1) b = rx_status (t_mem s) b).
      { intros b Hb. apply desc_same. intros x Hx. exact (S1 b Hb x Hx). }
      assert (A1 : rx_armed (t_regs s1) c l).
      { destruct l as [|b l]; cbn [rx_armed]; rewrite C1.
        - cbn [last k_rs k_en k_run k_idle andb]. rewrite N.eqb_refl. reflexivity.
        - rewrite last_cons. destruct (rp_links _ _ _ P) as [z [Hz _]]. rewrite Hz. cbn [hd].
          pose proof (rp_nodup _ _ _ P) as ND. inversion ND as [|? ? Na _]; subst.
          destruct (N.eqb_spec a (last l b)) as [Q|_]; [|reflexivity]. exfalso. apply Na. rewrite Q. apply last_in. }
      destruct (IH l s1 Or1 Om1 (posted_tail bad a l _ d _ P F3 R1) A1) as [s' [E [R [Or [Om [K [Ra [Fr Fc]]]]]]]].
      { apply (fitting_ext (t_mem s)); [|exact F]. intros b Hb. apply (ES b Hb). }
      exists s'. refine (conj E (conj _ (conj Or (conj Om (conj _ (conj Ra (conj _ _))))))).
      * destruct R as [Ra1 Ra2]. destruct R1 as [Rb1 [Rb2 Rb3]].
        assert (Ia : In a (a :: l)) by now left.
        pose proof (rp_nodup _ _ _ P) as ND. inversion ND as [|? ? Na _]; subst.
        assert (Keep : forall x, within (d_buffer (t_mem s) a) (d_len (t_mem s) a) x \/ within a d_size x -> t_mem s' x = t_mem s1 x).
        { intros x Hx. apply Ra2. intros i b d' Hb Hd. pose proof (nth_error_In _ _ Hb) as Ib.
          destruct (ES b Ib) as [_ [Eb [El _]]]. rewrite Eb.
          assert (Ib' : In b (a :: l)) by now right. assert (Ne : a <> b) by (intros ->; contradiction).
          assert (Lb : N.of_nat (length d') <= d_len (t_mem s) b).
          { clear - F Hb Hd. revert l i F Hb Hd. induction ds as [|e ds IH]; intros l i F Hb Hd; [destruct i; discriminate|].
            destruct l as [|c0 l]; [destruct i; discriminate|]. cbn [fitting] in F. destruct F as [[_ [_ F]] F'].
            destruct i as [|i]; cbn in Hb, Hd; [injection Hb as ->; injection Hd as ->; exact F|]. exact (IH l i F' Hb Hd). }
          split; intro Y.
          - destruct Hx as [Hx|Hx].
            + apply (rp_bufs _ _ _ P a b Ia Ib' Ne x). split; [exact Hx|]. unfold within in *. clear - Y Lb. lia.
            + apply (rp_data _ _ _ P a b Ia Ib' x). split; [exact Hx|]. unfold within in *. clear - Y Lb. lia.
          - destruct Hx as [Hx|Hx].
            + apply (rp_data _ _ _ P b a Ib' Ia x). split; [|exact Hx]. unfold within, d_size in *. clear - Y. lia.
            + apply (rp_apart _ _ _ P a b Ia Ib' Ne x). split; [exact Hx|]. unfold within, d_size in *. clear - Y. lia. }
        split.
        -- intros i b d' Hb Hd. destruct i as [|i]; cbn [nth_error] in Hb, Hd.
           ++ injection Hb as <-. injection Hd as <-. split.
              ** rewrite <- Rb1 at 2. apply bytes_at_ext. intros x Hx. apply Keep. left. unfold within in *. clear - Hx F3. lia.
              ** rewrite <- Rb2. apply le_at_ext. intros x Hx. apply Keep. right. unfold within, d_size in *. clear - Hx. lia.
           ++ destruct (Ra1 i b d' Hb Hd) as [Q1 Q2]. destruct (ES b (nth_error_In _ _ Hb)) as [_ [Eb _]]. rewrite Eb in Q1. auto.
        -- intros x Hx. rewrite Ra2.
           ++ apply Rb3; apply (Hx 0%nat a d); reflexivity.
           ++ intros i b d' Hb Hd. destruct (ES b (nth_error_In _ _ Hb)) as [_ [Eb _]]. rewrite Eb. apply (Hx (S i) b d'); assumption.
      * unfold keeps in *. destruct K as [Ka [Kb Kc]]. rewrite Ka, Kb, Kc. auto.
      * intros c' Ne. rewrite Fr by exact Ne. now apply Fr1.
      * intros c' Lc. rewrite Fc by exact Lc. now apply Fc1.
Qed.
