(** MM2S: the invariant of the engine and its consequences. *)
From Verif Require Import Base BaseFacts LeFacts TlmModel TlmSpec TlmFacts RegapiModel RegapiSpec RegapiProofs
  McdmaModel McdmaSpec McdmaProofs.
Open Scope N_scope.

Definition on (k : control) : bool := k_rs k && k_en k && k_run k && negb (k_idle k).
Lemma runnable_on regs c : runnable regs c = on (ctl regs c).
Proof. unfold runnable, on, ctl. rewrite !bit_spec, land_pow_bit. reflexivity. Qed.
Lemma cur_ctl regs c : regs_ok regs -> mm2s_cur regs c = k_cur (ctl regs c).
Proof. intros H. unfold mm2s_cur. rewrite reg64_spec by exact H. reflexivity. Qed.
Lemma tail_ctl regs c : regs_ok regs -> mm2s_tail regs c = k_tail (ctl regs c).
Proof. intros H. unfold mm2s_tail. rewrite reg64_spec by exact H. reflexivity. Qed.

Lemma ctl_frame regs regs' c :
  (forall j, j = 0%nat \/ j = 2%nat \/ (16 + 16 * c <= j <= 21 + 16 * c)%nat -> reg regs' j = reg regs j) ->
  ctl regs' c = ctl regs c.
Proof.
  intros H. unfold ctl. unfold reg in H.
  rewrite (H 0%nat), (H 2%nat), (H (16 + 16 * c)%nat), (H (17 + 16 * c)%nat), (H (18 + 16 * c)%nat),
    (H (19 + 16 * c)%nat), (H (20 + 16 * c)%nat), (H (21 + 16 * c)%nat) by lia. reflexivity.
Qed.

Lemma finish_ctl regs c t next : regs_ok regs -> next < u64 -> (c < 16)%nat ->
  exists regs', finish (MM2S_CR c) (MM2S_SR c) (MM2S_CUR_LSB c) (MM2S_CUR_MSB c) MM2S_IDLE_SHIFT t next regs = Ok regs' /\
    regs_ok regs' /\ (forall c', c' <> c -> ctl regs' c' = ctl regs c') /\ ioc regs' c = true /\
    ctl regs' c = let k := ctl regs c in
      mkControl (k_rs k) (k_en k) (k_run k) (t || k_idle k) next (k_tail k).
Proof.
  intros H Hn Hc.
  destruct (finish_spec regs (MM2S_CR c) (MM2S_SR c) (MM2S_CUR_LSB c) (MM2S_CUR_MSB c) MM2S_IDLE_SHIFT t next H)
    as [r [E [O [F [V B]]]]]; unfold MM2S_CR, MM2S_SR, MM2S_CUR_LSB, MM2S_CUR_MSB, MM2S_IDLE_SHIFT, NREGS in *; try lia.
  { repeat constructor; cbn; lia. }
  exists r. refine (conj E (conj O (conj _ (conj _ _)))).
  - intros c' Hc'. apply ctl_frame. intros j Hj. apply F; lia.
  - unfold ioc. apply (B 5). lia.
  - unfold ctl. cbn zeta. unfold reg in *.
    rewrite (F 0%nat), (F 2%nat), (F (16 + 16 * c)%nat), (F (20 + 16 * c)%nat), (F (21 + 16 * c)%nat) by lia.
    rewrite (V Hn), (B 0) by lia. reflexivity.
Qed.

Lemma find_seq f m : forall c c', find f (seq c m) = Some c' ->
  (c <= c' < c + m)%nat /\ f c' = true /\ forall x, (c <= x < c')%nat -> f x = false.
Proof.
  induction m as [|m IH]; intros c c' H; cbn in H; [discriminate|].
  destruct (f c) eqn:E.
  - injection H as <-. refine (conj _ (conj E _)); lia.
  - apply IH in H. destruct H as [A [B C]]. refine (conj _ (conj B _)); [lia|].
    intros x Hx. destruct (Nat.eq_dec x c) as [->|]; [exact E|apply C; lia].
Qed.

Definition upk (k : nat -> nat) (c v : nat) : nat -> nat := fun x => if (x =? c)%nat then v else k x.

Section Engine.
Context (bad : N -> bool) (nch : nat) (chains : nat -> list N) (m0 : mem) (out0 : list packet).
Context (HN : (nch <= 16)%nat) (HP : posted bad nch chains m0).

Definition last_next (c : nat) : N := d_next m0 (last (chains c) 0).
Definition cur_at (c i : nat) : N := nth i (chains c) (last_next c).

Definition chan_ok (k : nat -> nat) (regs : list N) (c : nat) : Prop :=
  (k c <= length (chains c))%nat /\
  match chains c with
  | [] => on (ctl regs c) = false
  | _ :: _ => ctl regs c =
      mkControl true true true (k c =? length (chains c))%nat (cur_at c (k c)) (last (chains c) 0)
  end.

Definition pushed (p : pc) (c : nat) : nat :=
  match p with
  | P_pushed c' _ _ | P_store c' _ _ _ | P_stored c' _ _ => if (c =? c')%nat then 1 else 0
  | _ => 0
  end.
Definition stored (p : pc) (c : nat) : nat :=
  match p with P_stored c' _ _ => if (c =? c')%nat then 1 else 0 | _ => 0 end.

Definition at_desc (k : nat -> nat) (c n : nat) : Prop :=
  (c < nch)%nat /\ (k c < length (chains c))%nat /\
  (n = 0%nat -> forall c', (c' < c)%nat -> k c' = length (chains c')).
Definition this (k : nat -> nat) (c : nat) : N := nth (k c) (chains c) 0.
Definition data_of (a : N) : list N := bytes_at m0 (d_buffer m0 a) (N.to_nat (d_len m0 a)).
Definition done_bd (a : N) : list N :=
  bd_set_status MM2S_STATUS (bytes_at m0 a BD_SIZE)
    (N.lor (N.lor (bd_status MM2S_STATUS (bytes_at m0 a BD_SIZE)) (N.shiftl 1 31))
           (N.of_nat (bd_len (bytes_at m0 a BD_SIZE)))).

Definition pc_ok (k : nat -> nat) (buf : list N) (p : pc) : Prop :=
  match p with
  | P_wait => forall c, (c < nch)%nat -> k c = length (chains c)
  | P_ready => True
  | P_load c n a => at_desc k c n /\ a = this k c
  | P_loaded c n bd | P_data c n bd => at_desc k c n /\ bd = bytes_at m0 (this k c) BD_SIZE
  | P_got c n bd => at_desc k c n /\ bd = bytes_at m0 (this k c) BD_SIZE /\
                    firstn (bd_len bd) buf = data_of (this k c)
  | P_push c n bd d => at_desc k c n /\ bd = bytes_at m0 (this k c) BD_SIZE /\ d = data_of (this k c)
  | P_pushed c n bd => at_desc k c n /\ bd = bytes_at m0 (this k c) BD_SIZE
  | P_store c n bd a => at_desc k c n /\ bd = done_bd (this k c) /\ a = this k c
  | P_stored c n bd => at_desc k c n /\ bd = done_bd (this k c)
  end.

Record inv (k : nat -> nat) (s : state) : Prop := {
  i_regs : regs_ok (t_regs s);
  i_mem : mem_ok (t_mem s);
  i_buf : length (t_buf s) = BUFSZ;
  i_chan : forall c, (c < nch)%nat -> chan_ok k (t_regs s) c;
  i_mark : marked nch chains m0 (fun c => k c + stored (t_pc s) c)%nat (t_mem s);
  i_out : forall c, of_channel c (t_out s) = of_channel c out0 ++
            map (packet_of m0 c) (firstn (k c + pushed (t_pc s) c) (chains c));
  i_pc : pc_ok k (t_buf s) (t_pc s) }.

Lemma runnable_iff k regs c : chan_ok k regs c -> runnable regs c = (k c <? length (chains c))%nat.
Proof.
  intros [L H]. rewrite runnable_on. destruct (chains c) as [|a l] eqn:E.
  - rewrite H. symmetry. apply Nat.ltb_ge. cbn [length]. lia.
  - rewrite H. unfold on. cbn [k_rs k_en k_run k_idle andb].
    destruct (Nat.eqb_spec (k c) (length (a :: l))); destruct (Nat.ltb_spec (k c) (length (a :: l))); cbn [negb]; lia.
Qed.

Lemma nth_last (l : list N) : forall d, l <> [] -> nth (length l - 1) l d = last l 0.
Proof.
  intros d H. rewrite <- (firstn_skipn 0 l). cbn [firstn skipn app].
  induction l as [|x l IH]; [contradiction|]. destruct l as [|y l]; [reflexivity|].
  change (last (x :: y :: l) 0) with (last (y :: l) 0). rewrite <- IH by discriminate.
  cbn [length]. replace (S (S (length l)) - 1)%nat with (S (S (length l) - 1))%nat by lia. reflexivity.
Qed.

Lemma linked_nth m l : forall z i, linked m l z -> (i < length l)%nat ->
  d_next m (nth i l 0) = nth (S i) l z.
Proof.
  induction l as [|a l IH]; intros z i H Hi; [cbn in Hi; lia|]. destruct H as [H1 H2]. destruct i as [|i].
  - cbn [nth]. rewrite H1. now destruct l.
  - cbn [nth]. rewrite (IH z i H2) by (cbn in Hi; lia). reflexivity.
Qed.

Lemma this_in k c n : at_desc k c n -> handed nch chains c (this k c).
Proof. intros [A [B _]]. split; [exact A|]. apply nth_In. exact B. Qed.
Lemma cur_this k c : (k c < length (chains c))%nat -> cur_at c (k c) = this k c.
Proof. intros H. unfold cur_at, this. now apply nth_indep. Qed.

Lemma next_cur k c n : at_desc k c n -> d_next m0 (this k c) = cur_at c (S (k c)).
Proof.
  intros [A [B _]]. destruct (po_links _ _ _ _ HP c) as [z Hz].
  unfold this. rewrite (linked_nth _ _ _ _ Hz B). unfold cur_at, last_next.
  destruct (Nat.eq_dec (S (k c)) (length (chains c))) as [E|E].
  - rewrite !(nth_overflow (chains c)) by lia.
    rewrite <- (nth_last (chains c) 0) by (intro X; rewrite X in B; cbn in B; lia).
    rewrite (linked_nth _ _ _ _ Hz) by lia. symmetry. apply nth_overflow. lia.
  - apply nth_indep. lia.
Qed.

(** the registers of the channel being served *)
Lemma chan_at k regs c n : at_desc k c n -> chan_ok k regs c ->
  ctl regs c = mkControl true true true false (this k c) (last (chains c) 0).
Proof.
  intros [A [B _]] [_ H]. destruct (chains c) as [|a l] eqn:E; [cbn in B; lia|]. rewrite <- E in *.
  rewrite H, cur_this by exact B. destruct (Nat.eqb_spec (k c) (length (chains c))); [lia|reflexivity].
Qed.

Lemma advance_ok k regs buf c n : regs_ok regs -> (forall c, (c < nch)%nat -> chan_ok k regs c) -> (c <= nch)%nat ->
  (n = 0%nat -> forall c', (c' < c)%nat -> k c' = length (chains c')) ->
  pc_ok k buf (advance nch regs c n).
Proof.
  intros Hr Hc Hn0 Hn.
  assert (D : forall x, (x < nch)%nat -> runnable regs x = false -> k x = length (chains x)).
  { intros x Hx R. rewrite (runnable_iff k) in R by (apply Hc; exact Hx). apply Nat.ltb_ge in R.
    destruct (Hc x Hx) as [L _]. lia. }
  assert (S1 : forall c0 n0 c', (c0 <= nch)%nat -> (n0 = 0%nat -> forall c', (c' < c0)%nat -> k c' = length (chains c')) ->
     scan nch regs c0 = Some c' -> pc_ok k buf (P_load c' n0 (mm2s_cur regs c'))).
  { intros c0 n0 c' L0 Hn1 E. apply find_seq in E. destruct E as [A [B C]].
    assert (Hx : (c' < nch)%nat) by lia. rewrite (runnable_iff k) in B by (apply Hc; exact Hx).
    apply Nat.ltb_lt in B.
    assert (AD : at_desc k c' n0).
    { refine (conj Hx (conj B _)). intros Hz x Lx. destruct (Nat.lt_ge_cases x c0) as [Y|Y]; [apply Hn1; assumption|].
      apply D; [lia|]. apply C. lia. }
    split; [exact AD|]. rewrite cur_ctl by exact Hr. rewrite (chan_at k regs c' n0 AD (Hc c' Hx)). reflexivity. }
  unfold advance. destruct (scan nch regs c) as [c'|] eqn:E; [exact (S1 c n c' Hn0 Hn E)|].
  destruct n as [|n].
  - cbn [pc_ok]. intros x Hx. destruct (Nat.lt_ge_cases x c) as [Y|Y]; [apply Hn; [reflexivity|exact Y]|].
    apply D; [exact Hx|]. apply (find_none _ _ E). apply in_seq. lia.
  - destruct (scan nch regs 0) as [c'|] eqn:E2; [apply (S1 0%nat 0%nat c'); [lia|intros _ x Lx; lia|exact E2]|].
    cbn [pc_ok]. intros x Hx. apply D; [exact Hx|]. apply (find_none _ _ E2). apply in_seq. lia.
Qed.

Lemma advance_pc regs c n : match advance nch regs c n with P_wait | P_load _ _ _ => True | _ => False end.
Proof.
  unfold advance. destruct (scan nch regs c); [exact I|]. destruct n; [exact I|]. destruct (scan nch regs 0); exact I.
Qed.

Lemma marked_ext k k' m : (forall c, k' c = k c) -> marked nch chains m0 k m -> marked nch chains m0 k' m.
Proof.
  intros E [A B]. split.
  - intros c i Hc Hi Hl. rewrite E in Hi. now apply A.
  - intros x Hx H. apply B; [exact Hx|]. intros c i Hc Hi Hl. apply H; [exact Hc|now rewrite E|exact Hl].
Qed.
Lemma marked_frame k m m' : (forall x, owned nch chains m0 x -> m' x = m x) ->
  marked nch chains m0 k m -> marked nch chains m0 k m'.
Proof.
  intros E [A B]. split.
  - intros c i Hc Hi Hl. cbn zeta. set (a := nth i (chains c) 0). specialize (A c i Hc Hi Hl). cbn zeta in A. fold a in A.
    rewrite <- A. unfold tx_status. apply le_at_ext.
    intros x Hx. apply E. exists c, a. split; [split; [exact Hc|apply nth_In; exact Hl]|].
    left. unfold within, d_size in *. lia.
  - intros x Hx H. rewrite E by exact Hx. now apply B.
Qed.

(** Bytes of a descriptor not yet processed, and of any buffer, are as posted. *)
Lemma desc_fresh k m c i x : marked nch chains m0 k m -> (c < nch)%nat -> (i < length (chains c))%nat -> (k c <= i)%nat ->
  within (nth i (chains c) 0) d_size x -> m x = m0 x.
Proof.
  intros [_ B] Hc Hi Hk Hx. assert (HA : handed nch chains c (nth i (chains c) 0)) by (split; [exact Hc|now apply nth_In]).
  apply B.
  - exists c, (nth i (chains c) 0). split; [exact HA|now left].
  - intros c' i' Hc' Hi' Hl' W.
    assert (HA' : handed nch chains c' (nth i' (chains c') 0)) by (split; [exact Hc'|now apply nth_In]).
    refine (po_apart _ _ _ _ HP _ _ _ _ HA HA' _ x (conj Hx _)).
    + intro E. injection E as <- E. apply NoDup_nth in E; [lia|exact (po_nodup _ _ _ _ HP c)|exact Hi|exact Hl'].
    + unfold within, d_size in *. lia.
Qed.
Lemma data_fresh k m c a x : marked nch chains m0 k m -> handed nch chains c a ->
  within (d_buffer m0 a) (d_len m0 a) x -> m x = m0 x.
Proof.
  intros [_ B] HA Hx. apply B.
  - exists c, a. split; [exact HA|now right].
  - intros c' i' Hc' Hi' Hl' W.
    assert (HA' : handed nch chains c' (nth i' (chains c') 0)) by (split; [exact Hc'|now apply nth_In]).
    apply (po_data _ _ _ _ HP c' _ c a HA' HA x). split; [unfold within, d_size in *; lia|exact Hx].
Qed.

Lemma done_status c a : handed nch chains c a ->
  N.lor (N.lor (bd_status MM2S_STATUS (bytes_at m0 a BD_SIZE)) (N.shiftl 1 31))
        (N.of_nat (bd_len (bytes_at m0 a BD_SIZE))) = 2 ^ 31 + d_len m0 a.
Proof.
  intros HA. rewrite tx_status_at, (po_fresh _ _ _ _ HP c a HA), N.lor_0_l, bd_len_at, N2Nat.id.
  rewrite lor_add; [lia|]. pose proof (po_len _ _ _ _ HP c a HA) as L. change (2 ^ 31) with 2147483648. clear - L. lia.
Qed.

Lemma done_bd_length a : length (done_bd a) = BD_SIZE.
Proof.
  unfold done_bd, bd_set_status. rewrite overlay_length; rewrite ?le_enc_length, bytes_at_length; [reflexivity|cbv; lia].
Qed.
Lemma done_bd_nth a i : (i < BD_SIZE)%nat -> (i < 28 \/ 32 <= i)%nat -> nth i (done_bd a) 0 = m0 (a + N.of_nat i).
Proof.
  intros Hi Ho. unfold done_bd, bd_set_status, overlay.
  set (st := N.lor _ _). rewrite <- (bytes_at_nth m0 a BD_SIZE i Hi).
  destruct Ho as [Ho|Ho].
  - rewrite app_nth1 by (rewrite firstn_length, bytes_at_length; unfold MM2S_STATUS, BD_SIZE in *; lia).
    rewrite <- (firstn_skipn MM2S_STATUS (bytes_at m0 a BD_SIZE)) at 2.
    rewrite app_nth1 by (rewrite firstn_length, bytes_at_length; unfold MM2S_STATUS, BD_SIZE in *; lia). reflexivity.
  - rewrite app_nth2 by (rewrite firstn_length, bytes_at_length; unfold MM2S_STATUS, BD_SIZE in *; lia).
    rewrite firstn_length, bytes_at_length. replace (Nat.min MM2S_STATUS BD_SIZE) with 28%nat by reflexivity.
    rewrite app_nth2 by (rewrite le_enc_length; lia). rewrite le_enc_length.
    rewrite <- (firstn_skipn (MM2S_STATUS + 4) (bytes_at m0 a BD_SIZE)) at 2.
    rewrite app_nth2 by (rewrite firstn_length, bytes_at_length; unfold MM2S_STATUS, BD_SIZE in *; lia).
    rewrite firstn_length, bytes_at_length. replace (Nat.min (MM2S_STATUS + 4) BD_SIZE) with 32%nat by reflexivity.
    f_equal. lia.
Qed.
Lemma done_bd_status a : slice 28 4 (done_bd a) = le_enc 4
    (N.lor (N.lor (bd_status MM2S_STATUS (bytes_at m0 a BD_SIZE)) (N.shiftl 1 31))
           (N.of_nat (bd_len (bytes_at m0 a BD_SIZE)))).
Proof.
  unfold done_bd, bd_set_status, overlay. unfold slice.
  rewrite skipn_app_len by (rewrite firstn_length, bytes_at_length; reflexivity).
  apply firstn_app_len. apply le_enc_length.
Qed.
Lemma done_bd_next a : bd_next (done_bd a) = d_next m0 a.
Proof.
  unfold bd_next, le_fld. replace (slice 0 8 (done_bd a)) with (slice 0 8 (bytes_at m0 a BD_SIZE)).
  - rewrite bytes_at_slice by (cbv; lia). rewrite le_at_dec, N.add_0_r. reflexivity.
  - unfold done_bd, bd_set_status, overlay.
    rewrite (slice_app_l 0 8 (firstn MM2S_STATUS (bytes_at m0 a BD_SIZE))) by (rewrite firstn_length, bytes_at_length; cbv; lia).
    unfold slice, MM2S_STATUS. cbn [skipn]. rewrite firstn_firstn. reflexivity.
Qed.

Lemma store_marked k m c n : marked nch chains m0 k m -> at_desc k c n ->
  marked nch chains m0 (upk k c (S (k c))) (store bad m (done_bd (this k c)) (this k c)) /\
  (mem_ok m -> mem_ok (store bad m (done_bd (this k c)) (this k c))).
Proof.
  intros M AD. pose proof (this_in k c n AD) as HA. set (a := this k c) in *.
  destruct (po_fits _ _ _ _ HP c a HA) as [F1 _]. destruct (po_good _ _ _ _ HP c a HA) as [G1 _].
  assert (W : forall x, store bad m (done_bd a) a x =
    if (a <=? x) && (x <? a + 52) then nth (N.to_nat (x - a)) (done_bd a) 0 else m x).
  { intro x. rewrite dma_write; rewrite ?done_bd_length; [reflexivity|exact F1|exact G1]. }
  destruct AD as [Hc [Hk _]].
  assert (FR : forall x, ~ within a d_size x -> store bad m (done_bd a) a x = m x).
  { intros x Hx. rewrite W. destruct (N.leb_spec a x); destruct (N.ltb_spec x (a + 52)); cbn [andb]; try reflexivity.
    exfalso. apply Hx. unfold within, d_size. lia. }
  assert (IN : forall x, within a d_size x -> store bad m (done_bd a) a x = nth (N.to_nat (x - a)) (done_bd a) 0).
  { intros x Hx. rewrite W. unfold within, d_size in Hx. destruct (N.leb_spec a x); [|lia].
    destruct (N.ltb_spec x (a + 52)); [reflexivity|lia]. }
  split; [split|].
  - intros c' i Hc' Hi Hl. cbn zeta. set (a' := nth i (chains c') 0).
    assert (HA' : handed nch chains c' a') by (split; [exact Hc'|now apply nth_In]).
    assert (Cs : (c', i) = (c, k c) \/ ((c', i) <> (c, k c) /\ (i < k c')%nat)).
    { unfold upk in Hi. destruct (Nat.eqb_spec c' c) as [->|Ne].
      - destruct (Nat.eq_dec i (k c)) as [->|Ni]; [now left|right]. split; [congruence|lia].
      - right. split; [congruence|exact Hi]. }
    destruct Cs as [E|[Ne Hi']].
    + injection E as -> ->. fold (this k c) in a'. fold a in a'. subst a'.
      rewrite <- (done_status c a HA). unfold tx_status. rewrite <- le_at_dec.
      transitivity (le_dec (slice 28 4 (done_bd a))).
      * f_equal. unfold bytes_at, slice. apply nth_ext with (d := 0) (d' := 0).
        -- rewrite map_length, seq_length, firstn_length, skipn_length, done_bd_length. reflexivity.
        -- rewrite map_length, seq_length. intros j Hj. fold (bytes_at (store bad m (done_bd a) a) (a + 28) 4).
           rewrite bytes_at_nth by exact Hj. rewrite IN by (unfold within, d_size; lia).
           fold (slice 28 4 (done_bd a)). rewrite nth_slice by exact Hj. f_equal. lia.
      * rewrite done_bd_status, le_dec_enc. apply N.mod_small. rewrite (done_status c a HA).
        pose proof (po_len _ _ _ _ HP c a HA) as L. change (256 ^ N.of_nat 4) with 4294967296.
        change (2 ^ 31) with 2147483648. clear - L. lia.
    + destruct M as [M1 _]. specialize (M1 c' i Hc' Hi' Hl). cbn zeta in M1. fold a' in M1. rewrite <- M1.
      unfold tx_status. apply le_at_ext. intros x Hx. apply FR. intro Y.
      assert (HE : (c', a') <> (c, a)).
      { intro E. injection E as -> E. apply Ne. f_equal. unfold a', a, this in E.
        apply NoDup_nth in E; [exact E|exact (po_nodup _ _ _ _ HP c)|exact Hl|exact Hk]. }
      apply (po_apart _ _ _ _ HP _ _ _ _ HA' HA HE x). split; [unfold within, d_size in *; lia|exact Y].
  - intros x Hx H.
    assert (Dec : within a d_size x \/ ~ within a d_size x) by (unfold within, d_size; lia).
    destruct Dec as [Y|Y].
    + rewrite IN by exact Y. assert (Z : ~ within (a + 28) 4 x).
      { specialize (H c (k c) Hc). unfold upk in H. rewrite Nat.eqb_refl in H. apply H; [lia|exact Hk]. }
      rewrite done_bd_nth.
      * f_equal. unfold within in Y. rewrite N2Nat.id. lia.
      * unfold within, d_size, BD_SIZE in *. lia.
      * unfold within, d_size in *. lia.
    + rewrite FR by exact Y. destruct M as [_ M2]. apply M2; [exact Hx|]. intros c' i Hc' Hi Hl.
      apply H; [exact Hc'| |exact Hl]. unfold upk. destruct (Nat.eqb_spec c' c) as [->|]; lia.
  - intros Om x.
    assert (Dec : within a d_size x \/ ~ within a d_size x) by (unfold within, d_size; lia).
    destruct Dec as [Y|Y]; [|rewrite FR by exact Y; apply Om]. rewrite IN by exact Y.
    assert (Hi : (N.to_nat (x - a) < BD_SIZE)%nat) by (unfold within, d_size, BD_SIZE in *; lia).
    destruct (Nat.lt_ge_cases (N.to_nat (x - a)) 28) as [L|L]; [rewrite done_bd_nth by lia; apply (po_bytes _ _ _ _ HP)|].
    destruct (Nat.lt_ge_cases (N.to_nat (x - a)) 32) as [L'|L']; [|rewrite done_bd_nth by lia; apply (po_bytes _ _ _ _ HP)].
    replace (N.to_nat (x - a)) with (28 + (N.to_nat (x - a) - 28))%nat by lia.
    rewrite <- (nth_slice 28 4 (done_bd a)) by lia. rewrite done_bd_status.
    pose proof (le_enc_bytes 4 (N.lor (N.lor (bd_status MM2S_STATUS (bytes_at m0 a BD_SIZE)) (N.shiftl 1 31))
           (N.of_nat (bd_len (bytes_at m0 a BD_SIZE))))) as BO. unfold bytes_ok in BO. rewrite Forall_forall in BO.
    apply BO. apply nth_In. rewrite le_enc_length. lia.
Qed.

Definition left_over (k : nat -> nat) : nat := list_sum (map (fun c => length (chains c) - k c)%nat (seq 0 nch)).
Definition rank (p : pc) : nat :=
  match p with
  | P_wait => 0 | P_ready => 10 | P_load _ _ _ => 9 | P_loaded _ _ _ => 8 | P_data _ _ _ => 7 | P_got _ _ _ => 6
  | P_push _ _ _ _ => 5 | P_pushed _ _ _ => 4 | P_store _ _ _ _ => 3 | P_stored _ _ _ => 2
  end.

Lemma sum_upk (f : nat -> nat) c n : forall b, (b <= c < b + n)%nat -> (f c < length (chains c))%nat ->
  (list_sum (map (fun x => length (chains x) - upk f c (S (f c)) x) (seq b n)) + 1 =
   list_sum (map (fun x => length (chains x) - f x) (seq b n)))%nat.
Proof.
  induction n as [|n IH]; intros b Hc Hf; [lia|]. cbn [seq map list_sum fold_right].
  fold (list_sum (map (fun x => length (chains x) - upk f c (S (f c)) x)%nat (seq (S b) n))).
  fold (list_sum (map (fun x => length (chains x) - f x)%nat (seq (S b) n))).
  destruct (Nat.eq_dec b c) as [->|Ne].
  - unfold upk at 1. rewrite Nat.eqb_refl.
    replace (map (fun x => (length (chains x) - upk f c (S (f c)) x)%nat) (seq (S c) n))
      with (map (fun x => (length (chains x) - f x)%nat) (seq (S c) n)); [lia|].
    apply map_ext_in. intros x Hx. apply in_seq in Hx. unfold upk. destruct (Nat.eqb_spec x c); [lia|reflexivity].
  - rewrite <- (IH (S b)) by lia. unfold upk at 1. destruct (Nat.eqb_spec b c); [contradiction|]. lia.
Qed.

Lemma rank_advance regs c n : (rank (advance nch regs c n) <= 9)%nat.
Proof. pose proof (advance_pc regs c n) as A. destruct (advance nch regs c n); try contradiction; cbn; lia. Qed.

Lemma fresh_not_done k c n : at_desc k c n -> bd_done MM2S_STATUS (bytes_at m0 (this k c) BD_SIZE) = false.
Proof.
  intros AD. unfold bd_done. rewrite bit_spec, tx_status_at, (po_fresh _ _ _ _ HP c _ (this_in _ _ _ AD)). reflexivity.
Qed.

Lemma firstn_S_nth (l : list N) i d : (i < length l)%nat -> firstn (S i) l = firstn i l ++ [nth i l d].
Proof.
  revert i; induction l as [|x l IH]; intros i H; [cbn in H; lia|]. destruct i as [|i]; [reflexivity|].
  cbn [firstn nth app]. f_equal. apply IH. cbn in H. lia.
Qed.
Lemma of_channel_app c a b : of_channel c (a ++ b) = of_channel c a ++ of_channel c b.
Proof. apply filter_app. Qed.

(** One step of the thread *)
Lemma thread_ok k s : inv k s -> t_pc s <> P_wait ->
  exists k' s', thread bad nch s = Ok s' /\ inv k' s' /\
    (10 * left_over k' + rank (t_pc s') < 10 * left_over k + rank (t_pc s))%nat /\
    (forall c n bd, t_pc s = P_stored c n bd -> ioc (t_regs s') c = true /\ t_irqs s' = true) .
Proof.
  intros I W. pose proof I as [Ir Im Ib Ic Ik Io Ip]. unfold thread.
  destruct (t_pc s) as [| |c n a|c n bd|c n bd|c n bd|c n bd d|c n bd|c n bd a|c n bd] eqn:E; [contradiction| | | | | | | | | ];
    cbn [stored pushed] in Ik, Io.
  - (* ready *)
    pose proof (advance_pc (t_regs s) 0 0) as AP. pose proof (advance_ok k (t_regs s) (t_buf s) 0 0 Ir Ic ltac:(lia) ltac:(intros _ x Hx; lia)) as AO.
    exists k. eexists. refine (conj eq_refl (conj _ (conj _ _))); [|cbn [t_pc with_pc]|discriminate].
    + constructor; cbn [t_regs t_mem t_buf t_pc t_out with_pc]; auto.
      * apply (marked_ext (fun c => k c + 0)%nat); [|exact Ik]. intro c. destruct (advance nch (t_regs s) 0 0); try contradiction; reflexivity.
      * intro c. rewrite Io. destruct (advance nch (t_regs s) 0 0); try contradiction; reflexivity.
    + pose proof (rank_advance (t_regs s) 0 0). cbn [rank]. lia.
  - (* load *)
    destruct Ip as [AD ->]. pose proof (this_in _ _ _ AD) as HA. destruct AD as [Hc [Hk Hn]] eqn:EA.
    rewrite load_desc_ok; [|exact (proj1 (po_fits _ _ _ _ HP c _ HA))|exact (proj1 (po_good _ _ _ _ HP c _ HA))].
    assert (EB : bytes_at (t_mem s) (this k c) BD_SIZE = bytes_at m0 (this k c) BD_SIZE).
    { apply bytes_at_ext. intros x Hx. apply (desc_fresh _ _ c (k c) x Ik Hc Hk); [lia|exact Hx]. }
    rewrite EB. exists k. eexists. refine (conj eq_refl (conj _ (conj _ _))); [|cbn; lia|discriminate].
    constructor; cbn [t_regs t_mem t_buf t_pc t_out with_pc stored pushed]; auto. split; [exact AD|reflexivity].
  - (* loaded *)
    destruct Ip as [AD ->]. rewrite (fresh_not_done _ _ _ AD). exists k. eexists.
    refine (conj eq_refl (conj _ (conj _ _))); [|cbn; lia|discriminate].
    constructor; cbn [t_regs t_mem t_buf t_pc t_out with_pc stored pushed]; auto. split; [exact AD|reflexivity].
  - (* data *)
    destruct Ip as [AD ->]. pose proof (this_in _ _ _ AD) as HA. rewrite bd_len_at. set (a := this k c) in *.
    pose proof (po_len _ _ _ _ HP c a HA) as L.
    destruct (Nat.ltb_spec (length (t_buf s)) (N.to_nat (d_len m0 a))) as [X|X].
    { rewrite Ib in X. unfold BUFSZ in X. clear - L X. lia. }
    assert (LF : length (firstn (N.to_nat (d_len m0 a)) (t_buf s)) = N.to_nat (d_len m0 a)) by (apply firstn_length_le; exact X).
    rewrite bd_buffer_at, dma_read; rewrite ?LF, ?N2Nat.id;
      [|exact (proj2 (po_fits _ _ _ _ HP c _ HA))|exact (proj2 (po_good _ _ _ _ HP c _ HA))].
    assert (EB : bytes_at (t_mem s) (d_buffer m0 a) (N.to_nat (d_len m0 a)) = data_of a).
    { apply bytes_at_ext. intros x Hx. rewrite N2Nat.id in Hx. exact (data_fresh _ _ c a x Ik HA Hx). }
    rewrite EB. exists k. eexists. refine (conj eq_refl (conj _ (conj _ _))); [|cbn; lia|discriminate].
    assert (LD : length (data_of a) = N.to_nat (d_len m0 a)) by apply bytes_at_length.
    constructor; cbn [t_regs t_mem t_buf t_pc t_out with_pc with_buf stored pushed]; auto.
    + rewrite app_length, skipn_length, LD. lia.
    + refine (conj AD (conj eq_refl _)). rewrite bd_len_at. apply firstn_app_len. exact LD.
  - (* got *)
    destruct Ip as [AD [-> EF]]. exists k. eexists. refine (conj eq_refl (conj _ (conj _ _))); [|cbn; lia|discriminate].
    constructor; cbn [t_regs t_mem t_buf t_pc t_out with_pc stored pushed]; auto.
    refine (conj AD (conj eq_refl EF)).
  - (* push *)
    destruct Ip as [AD [-> ->]]. exists k. eexists. refine (conj eq_refl (conj _ (conj _ _))); [|cbn; lia|discriminate].
    destruct AD as [Hc [Hk Hn]] eqn:EA.
    constructor; cbn [t_regs t_mem t_buf t_pc t_out with_pc with_out stored pushed]; auto.
    + intro c'. rewrite of_channel_app, Io, <- app_assoc. f_equal. unfold of_channel. cbn [filter p_ch].
      rewrite (Nat.eqb_sym c' c). destruct (Nat.eqb_spec c c') as [<-|Ne].
      * rewrite Nat.add_0_r, Nat.add_1_r, (firstn_S_nth (chains c) (k c) 0 Hk), map_app. cbn [map].
        unfold packet_of at 2. rewrite bd_eop_at. reflexivity.
      * apply app_nil_r.
    + split; [exact AD|reflexivity].
  - (* pushed *)
    destruct Ip as [AD ->]. exists k. eexists. refine (conj eq_refl (conj _ (conj _ _))); [|cbn; lia|discriminate].
    constructor; cbn [t_regs t_mem t_buf t_pc t_out with_pc stored pushed]; auto.
    refine (conj AD (conj eq_refl _)). rewrite cur_ctl by exact Ir.
    rewrite (chan_at k _ c n AD (Ic c (proj1 AD))). reflexivity.
  - (* store *)
    destruct Ip as [AD [-> ->]]. destruct (store_marked k (t_mem s) c n) as [SM SO]; [|exact AD|].
    { apply (marked_ext (fun c => k c + 0)%nat); [|exact Ik]. intro x. lia. }
    exists k. eexists. refine (conj eq_refl (conj _ (conj _ _))); [|cbn; lia|discriminate].
    constructor; cbn [t_regs t_mem t_buf t_pc t_out with_pc with_mem stored pushed]; auto.
    + apply (marked_ext (upk k c (S (k c)))); [|exact SM]. intro x. unfold upk. destruct (Nat.eqb_spec x c) as [->|]; lia.
    + split; [exact AD|reflexivity].
  - (* stored *)
    destruct Ip as [AD ->]. pose proof (this_in _ _ _ AD) as HA.
    assert (Hc : (c < nch)%nat) by exact (proj1 AD). assert (Hk : (k c < length (chains c))%nat) by exact (proj1 (proj2 AD)).
    rewrite done_bd_next. pose proof (le_at_bound m0 (this k c) 8 (po_bytes _ _ _ _ HP)) as LB.
    destruct (finish_ctl (t_regs s) c (mm2s_cur (t_regs s) c =? mm2s_tail (t_regs s) c) (d_next m0 (this k c)) Ir LB ltac:(lia))
      as [r [EF [Or [Fr [IOC Cr]]]]].
    rewrite EF. rewrite cur_ctl, tail_ctl in Cr by exact Ir. rewrite (chan_at k _ c n AD (Ic c Hc)) in Cr. cbn zeta in Cr.
    cbn [k_rs k_en k_run k_idle k_cur k_tail] in Cr. rewrite orb_false_r in Cr.
    set (k' := upk k c (S (k c))).
    assert (CO : forall x, (x < nch)%nat -> chan_ok k' r x).
    { intros x Hx. unfold chan_ok, k', upk. destruct (Nat.eqb_spec x c) as [->|Ne].
      - split; [lia|]. destruct (chains c) as [|b l] eqn:EC; [cbn in Hk; lia|]. rewrite <- EC in *.
        rewrite Cr. rewrite (next_cur k c n AD). f_equal.
        rewrite <- (nth_last (chains c) 0) by (intro Z; rewrite Z in Hk; cbn in Hk; lia).
        unfold this. destruct (N.eqb_spec (nth (k c) (chains c) 0) (nth (length (chains c) - 1) (chains c) 0)) as [Q|Q];
          destruct (Nat.eqb_spec (S (k c)) (length (chains c))) as [Q2|Q2]; try reflexivity.
        + exfalso. apply NoDup_nth in Q; [lia|exact (po_nodup _ _ _ _ HP c)|exact Hk|lia].
        + exfalso. apply Q. f_equal. lia.
      - rewrite (Fr x Ne). exact (Ic x Hx). }
    exists k'. eexists. refine (conj eq_refl (conj _ (conj _ _))).
    + pose proof (advance_pc r (S c) (S n)) as AP.
      constructor; cbn [t_regs t_mem t_buf t_pc t_out with_pc with_regs with_irqs]; auto.
      * apply (marked_ext (fun x => k x + stored (P_stored c n (done_bd (this k c))) x)%nat); [|exact Ik].
        intro x. cbn [stored]. destruct (advance nch r (S c) (S n)); try contradiction; cbn [stored];
          unfold k', upk; destruct (Nat.eqb_spec x c) as [->|]; lia.
      * intro x. rewrite Io. f_equal.
        replace (k' x + pushed (advance nch r (S c) (S n)) x)%nat with (k x + (if (x =? c)%nat then 1 else 0))%nat; [reflexivity|].
        destruct (advance nch r (S c) (S n)); try contradiction; cbn [pushed];
          unfold k', upk; destruct (Nat.eqb_spec x c) as [->|]; lia.
      * apply (advance_ok k' r _ (S c) (S n) Or CO); [lia|discriminate].
    + cbn [t_pc with_pc with_regs with_irqs]. pose proof (rank_advance r (S c) (S n)) as RA. cbn [rank].
      unfold left_over, k'. pose proof (sum_upk k c nch 0 ltac:(lia) Hk) as SU. lia.
    + intros c1 n1 bd1 X. injection X as <- <- <-. cbn [t_regs t_irqs with_irqs with_pc with_regs]. split; [exact IOC|reflexivity].
Qed.

Lemma quiet_ok k s s' : inv k s -> quiet nch chains m0 s s' -> inv k s' /\
  (t_pc s' = t_pc s \/ (t_pc s = P_wait /\ t_pc s' = P_ready)).
Proof.
  intros [Ir Im Ib Ic Ik Io Ip] [Qp [Qo [Qb [Qr [Qm [Qc Qw]]]]]]. split; [|exact Qp].
  constructor; auto.
  - now rewrite Qb.
  - intros c Hc. unfold chan_ok. rewrite Qc by exact Hc. exact (Ic c Hc).
  - apply (marked_frame _ (t_mem s)); [exact Qw|]. destruct Qp as [->|[E ->]]; [exact Ik|].
    rewrite E in Ik. exact Ik.
  - intro c. rewrite Qo, Io. destruct Qp as [->|[E ->]]; [reflexivity|]. rewrite E. reflexivity.
  - rewrite Qb. destruct Qp as [->|[E ->]]; [exact Ip|]. exact I.
Qed.

Lemma runs_ok s0 n w s : runs bad nch chains m0 s0 n w s -> forall k0, inv k0 s0 ->
  exists k, inv k s /\ (n + 10 * left_over k + rank (t_pc s) <= 10 * left_over k0 + rank (t_pc s0) + 10 * w)%nat.
Proof.
  induction 1 as [s|s n w s' s'' R IH Hw St|s n w s' s'' R IH Q]; intros k0 I0.
  - exists k0. split; [exact I0|lia].
  - destruct (IH k0 I0) as [k [I L]]. destruct (thread_ok k s' I Hw) as [k' [s2 [E [I' [L' _]]]]].
    cbn [step] in St. rewrite E in St. injection St as <-. exists k'. split; [exact I'|lia].
  - destruct (IH k0 I0) as [k [I L]]. destruct (quiet_ok k s' s'' I Q) as [I' P]. exists k. split; [exact I'|].
    destruct P as [E|[E1 E2]].
    + rewrite E. destruct (t_pc s') eqn:EP; rewrite ?EP; cbn [rank] in *; lia.
    + rewrite E1, E2 in *. cbn [rank] in *. lia.
Qed.

Lemma armed_inv s : mem_ok (t_mem s) -> (forall x, owned nch chains m0 x -> t_mem s x = m0 x) ->
  regs_ok (t_regs s) -> length (t_buf s) = BUFSZ -> t_out s = out0 -> t_pc s = P_ready ->
  armed nch chains (t_regs s) -> inv (fun _ => 0%nat) s.
Proof.
  intros Hm Hw Hr Hb Ho Hp Ha. constructor; auto.
  - intros c Hc. specialize (Ha c Hc). unfold chan_ok. destruct (chains c) as [|a l] eqn:E.
    + split; [lia|]. exact Ha.
    + split; [lia|]. rewrite Ha. unfold cur_at. rewrite E. cbn [nth].
      replace (0 =? length (a :: l))%nat with false by reflexivity. f_equal.
      clear. revert a. induction l as [|b l IH]; intro a; [reflexivity|].
      change (last (a :: b :: l) 0) with (last (b :: l) 0). rewrite <- IH.
      destruct l; [reflexivity|]. cbn [last]. clear. revert n. induction l as [|d l IH]; intro n; [reflexivity|]. cbn. apply IH.
  - split.
    + intros c i Hc Hi. rewrite Hp in Hi. cbn in Hi. lia.
    + intros x Hx _. now apply Hw.
  - intro c. rewrite Ho, Hp. cbn [pushed firstn map Nat.add]. now rewrite app_nil_r.
  - rewrite Hp. exact I.
Qed.
End Engine.
