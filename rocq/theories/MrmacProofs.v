(** Lemmas for C96-C98. *)
From Verif Require Import Base LeFacts CrcModel CrcSpec CrcProofs PropsCrc MrmacModel MrmacSpec.
From Coq Require Import Lia.
Open Scope N_scope.

(** Counters *)
Lemma stats_add_small ext c v k : c + v < 2 ^ k -> k <= 64 ->
  stats_add ext c v (2 ^ k - 1) = c + v.
Proof.
  intros H K. unfold stats_add.
  replace (2 ^ k - 1 - c <? v) with false by (symmetry; apply N.ltb_ge; lia). cbn [andb].
  assert (2 ^ k <= 2 ^ 64) by (apply N.pow_le_mono_r; lia).
  rewrite (N.mod_small (c + v)) by lia.
  rewrite <- N.pred_sub, <- N.ones_equiv, N.land_ones. apply N.mod_small, H.
Qed.
Lemma stats_add_ctr ext c n v : n + v < 2 ^ 48 -> stats_add ext n v (ctr_max c) = n + v.
Proof.
  intros H. assert (2 ^ 48 <= 2 ^ 64) by (apply N.pow_le_mono_r; lia).
  destruct c; cbn [ctr_max]; apply stats_add_small; lia.
Qed.
Lemma dir_eqb_refl d : dir_eqb d d = true.
Proof. destruct d; reflexivity. Qed.
Lemma dir_eqb_eq a b : dir_eqb a b = true -> a = b.
Proof. destruct a, b; cbn; congruence. Qed.
Lemma ctr_eqb_eq a b : ctr_eqb a b = true -> a = b.
Proof. destruct a, b; cbn; congruence. Qed.

Lemma acc_add s d c v d' c' : m_acc s d c + v < 2 ^ 48 ->
  m_acc (add s d c v) d' c' = m_acc s d' c' + (if dir_eqb d' d && ctr_eqb c' c then v else 0).
Proof.
  intros H. unfold add. cbn [m_acc set_acc].
  destruct (dir_eqb d' d && ctr_eqb c' c) eqn:E; [|lia].
  apply andb_true_iff in E. destruct E as [E1 E2].
  apply dir_eqb_eq in E1. apply ctr_eqb_eq in E2. subst. apply stats_add_ctr, H.
Qed.
Lemma add_regs s d c v : m_regs (add s d c v) = m_regs s.
Proof. reflexivity. Qed.
Lemma add_txbuf s d c v : m_txbuf (add s d c v) = m_txbuf s.
Proof. reflexivity. Qed.
Lemma add_fifo s d c v : m_fifo (add s d c v) = m_fifo s.
Proof. reflexivity. Qed.

(** What [add_all] and [add_good] leave alone. *)
Lemma add_all_regs s d f : m_regs (add_all s d f) = m_regs s.
Proof. reflexivity. Qed.
Lemma add_all_txbuf s d f : m_txbuf (add_all s d f) = m_txbuf s.
Proof. reflexivity. Qed.
Lemma add_all_fifo s d f : m_fifo (add_all s d f) = m_fifo s.
Proof. reflexivity. Qed.
Lemma add_good_keeps s d f : m_regs (add_good s d f) = m_regs s /\
  m_txbuf (add_good s d f) = m_txbuf s /\ m_fifo (add_good s d f) = m_fifo s.
Proof.
  unfold add_good. cbv zeta.
  destruct (get_type f =? 33024); [now repeat split|].
  destruct (get_type f =? 34824); now repeat split.
Qed.

(** A frame's contributions. *)
Lemma bin_weight c good f :
  match c with
  | P64 | P65_127 | P128_255 | P256_511 | P512_1023 | P1024_1518 | P1519_1522 | P1523_1548
  | P1549_2047 | P2048_4095 | P4096_8191 | P8192_9215 | PLarge | PSmall =>
      weight c good f = if ctr_eqb c (bin (N.of_nat (length f))) then 1 else 0
  | _ => ctr_eqb c (bin (N.of_nat (length f))) = false
  end.
Proof.
  unfold weight, between, bin, one. generalize (N.of_nat (length f)). intros n.
  destruct c;
  repeat match goal with
  | |- context [if ?x <? ?y then _ else _] => destruct (N.ltb_spec x y)
  | |- context [if ?x =? ?y then _ else _] => destruct (N.eqb_spec x y)
  end; cbn [ctr_eqb ctr_n];
  repeat match goal with
  | |- context [?x <=? ?y] => destruct (N.leb_spec x y)
  end; cbn; try reflexivity; exfalso; clear f good; lia.
Qed.

(** A list of additions. *)
Definition adds (s : mst) (d : dir) (l : list (ctr * N)) : mst :=
  fold_left (fun s x => add s d (fst x) (snd x)) l s.
Fixpoint look (c : ctr) (l : list (ctr * N)) : N :=
  match l with
  | [] => 0
  | x :: l' => (if ctr_eqb c (fst x) then snd x else 0) + look c l'
  end.
Lemma look_app c a b : look c (a ++ b) = look c a + look c b.
Proof. induction a as [|x a IH]; [reflexivity|]. cbn [app look]. rewrite IH. lia. Qed.
Lemma adds_app s d a b : adds s d (a ++ b) = adds (adds s d a) d b.
Proof. apply fold_left_app. Qed.
Lemma ctr_eqb_refl c : ctr_eqb c c = true.
Proof. apply N.eqb_refl. Qed.

Lemma acc_adds d l : forall s, (forall c, m_acc s d c + look c l < 2 ^ 48) ->
  forall d' c', m_acc (adds s d l) d' c' =
                m_acc s d' c' + (if dir_eqb d' d then look c' l else 0).
Proof.
  induction l as [|[c0 v] l IH]; intros s H d' c'.
  { cbn [adds fold_left look]. destruct (dir_eqb d' d); lia. }
  change (adds s d ((c0, v) :: l)) with (adds (add s d c0 v) d l).
  assert (A : m_acc s d c0 + v < 2 ^ 48).
  { pose proof (H c0) as H0. cbn [look fst snd] in H0. rewrite ctr_eqb_refl in H0. lia. }
  rewrite IH.
  - rewrite acc_add by exact A. cbn [look fst snd].
    destruct (dir_eqb d' d), (ctr_eqb c' c0); cbn [andb]; lia.
  - intros c. rewrite acc_add by exact A. rewrite dir_eqb_refl. cbn [andb].
    pose proof (H c) as H0. cbn [look fst snd] in H0. lia.
Qed.
Lemma adds_keeps d l : forall s, m_regs (adds s d l) = m_regs s /\
  m_txbuf (adds s d l) = m_txbuf s /\ m_fifo (adds s d l) = m_fifo s.
Proof.
  induction l as [|x l IH]; intros s; [now repeat split|].
  change (adds s d (x :: l)) with (adds (add s d (fst x) (snd x)) d l).
  destruct (IH (add s d (fst x) (snd x))) as (a & b & c). rewrite a, b, c. now repeat split.
Qed.

Definition all_list (f : list N) : list (ctr * N) :=
  [(TotalPackets, 1); (TotalBytes, N.of_nat (length f)); (bin (N.of_nat (length f)), 1)].
Definition good_list (f : list N) : list (ctr * N) :=
  [(TotalGoodPackets, 1); (TotalGoodBytes, N.of_nat (length f));
   (Unicast, b2n (negb (is_multicast f)));
   (Multicast, b2n (is_multicast f && negb (is_broadcast f)));
   (Broadcast, b2n (is_broadcast f))] ++
  (if get_type f =? 0x8100 then [(Vlan, 1)] else if get_type f =? 0x8808 then [(Pause, 1)] else []).
Lemma add_all_adds s d f : add_all s d f = adds s d (all_list f).
Proof. reflexivity. Qed.
Lemma add_good_adds s d f : add_good s d f = adds s d (good_list f).
Proof.
  unfold add_good, good_list. cbv zeta. rewrite adds_app.
  destruct (get_type f =? 33024); [reflexivity|]. destruct (get_type f =? 34824); reflexivity.
Qed.

Lemma broadcast_to_all f : (14 <= length f)%nat -> is_broadcast f = to_all f.
Proof.
  intros H. unfold is_broadcast, to_all.
  do 6 (destruct f as [|? f]; [cbn in H; lia|]).
  cbn [firstn forallb nth]. rewrite !(N.eqb_sym 255). reflexivity.
Qed.
Lemma type_has f t : bytes_ok f -> (14 <= length f)%nat -> t < 65536 ->
  (get_type f =? t) = has_type t f.
Proof.
  intros B H T. unfold get_type, has_type.
  assert (b : forall i, (i < 14)%nat -> nth i f 0 < 256).
  { intros i I. eapply (proj1 (Forall_forall _ _) B), nth_In. lia. }
  pose proof (b 12%nat ltac:(lia)) as X. pose proof (b 13%nat ltac:(lia)) as Y.
  revert X Y. generalize (nth 12 f 0) (nth 13 f 0). clear -T. intros x y X Y.
  pose proof (N.div_mod t 256 ltac:(discriminate)) as D.
  pose proof (N.mod_lt t 256 ltac:(discriminate)) as M.
  destruct (N.eqb_spec (x * 256 + y) t), (N.eqb_spec x (t / 256)), (N.eqb_spec y (t mod 256));
    cbn [andb]; try reflexivity; exfalso; nia.
Qed.
Lemma to_all_group f : to_all f = true -> to_group f = true.
Proof.
  unfold to_all, to_group. cbn [forallb]. intros H. apply andb_true_iff in H. destruct H as [H _].
  apply N.eqb_eq in H. rewrite H. reflexivity.
Qed.

Definition frame_list (good : bool) (f : list N) : list (ctr * N) :=
  (if good then [] else [(BadFcs, 1)]) ++ (if good then good_list f else []) ++ all_list f.
Lemma look_weight c good f : bytes_ok f -> (good = true -> (14 <= length f)%nat) ->
  look c (frame_list good f) = weight c good f.
Proof.
  intros B L. pose proof (bin_weight c good f) as W.
  unfold frame_list. rewrite !look_app. unfold all_list.
  destruct good.
  - specialize (L eq_refl). unfold good_list. rewrite look_app.
    pose proof (type_has f 33024 B L ltac:(reflexivity)) as Tv.
    pose proof (type_has f 34824 B L ltac:(reflexivity)) as Tp.
    pose proof (broadcast_to_all f L) as Bc.
    assert (Mc : is_multicast f = to_group f) by (unfold is_multicast, to_group; now rewrite N.bit0_odd).
    rewrite Bc, Mc.
    assert (X : get_type f =? 33024 = true -> get_type f =? 34824 = false).
    { intros E. apply N.eqb_eq in E. rewrite E. reflexivity. }
    destruct c; cbn [weight andb negb one];
      try (rewrite <- Tv); try (rewrite <- Tp);
      destruct (get_type f =? 33024) eqn:E1; destruct (get_type f =? 34824) eqn:E2;
      try (discriminate (X eq_refl));
      cbn [look fst snd];
      repeat (match goal with
      | |- context [ctr_eqb ?a ?b] =>
          first [ change (ctr_eqb a b) with true | change (ctr_eqb a b) with false | rewrite W ]
      end);
      try (cbn [weight] in W; rewrite W);
      repeat match goal with |- context [if ?b then _ else _] => destruct b end;
      unfold one, b2n;
      repeat match goal with |- context [if ?b then _ else _] => destruct b end;
      first [reflexivity | clear; lia].
  - destruct c; cbn [weight andb negb one app look fst snd];
      repeat (match goal with
      | |- context [ctr_eqb ?a ?b] =>
          first [ change (ctr_eqb a b) with true | change (ctr_eqb a b) with false | rewrite W ]
      end);
      try (cbn [weight] in W; rewrite W);
      repeat match goal with |- context [if ?b then _ else _] => destruct b end;
      first [reflexivity | clear; lia].
Qed.

(** Ticks *)
Lemma tick_keeps s : m_regs (tick s) A_TX1 = m_regs s A_TX1 /\
  m_regs (tick s) A_RX1 = m_regs s A_RX1 /\ m_regs (tick s) A_MODE = m_regs s A_MODE /\
  m_txbuf (tick s) = m_txbuf s /\ m_fifo (tick s) = m_fifo s.
Proof. repeat split; reflexivity. Qed.
Lemma tick_acc s d c : m_acc (tick s) d c = 0.
Proof. destruct d, c; reflexivity. Qed.
Lemma tick_lo s d c : m_regs (tick s) (a_stat d c) = m_acc s d c mod 2 ^ 32.
Proof. destruct d, c; reflexivity. Qed.
Lemma tick_hi s d c : m_regs (tick s) (a_stat d c + 4) = N.shiftr (m_acc s d c) 32 mod 2 ^ 32.
Proof. destruct d, c; reflexivity. Qed.
Lemma tick_shown s d c : m_acc s d c < 2 ^ 64 -> shown (tick s) d c = m_acc s d c.
Proof.
  intros H. unfold shown. rewrite tick_lo, tick_hi, N.shiftr_div_pow2.
  rewrite (N.mod_small (m_acc s d c / 2 ^ 32)).
  - rewrite (N.div_mod (m_acc s d c) (2 ^ 32)) at 3 by discriminate. lia.
  - apply N.div_lt_upper_bound; [discriminate|]. rewrite <- N.pow_add_r. exact H.
Qed.

(** Frame check sequences *)
Lemma bok_app a b : bytes_ok a -> bytes_ok b -> bytes_ok (a ++ b).
Proof. intros. apply Forall_app. now split. Qed.
Lemma bok_firstn n l : bytes_ok l -> bytes_ok (firstn n l).
Proof. intros H. rewrite <- (firstn_skipn n l) in H. apply Forall_app in H. apply H. Qed.
Lemma bok_skipn n l : bytes_ok l -> bytes_ok (skipn n l).
Proof. intros H. rewrite <- (firstn_skipn n l) in H. apply Forall_app in H. apply H. Qed.
Lemma sealed_ok p : bytes_ok p -> bytes_ok (sealed p).
Proof. intros H. apply bok_app; [exact H|apply le_enc_bytes]. Qed.
Lemma sealed_length p : length (sealed p) = (length p + 4)%nat.
Proof. unfold sealed. rewrite app_length, le_enc_length. reflexivity. Qed.
Lemma fcs_right f : bytes_ok f -> fcs_ok f = rightb f.
Proof.
  intros H. unfold fcs_ok, rightb. cbv zeta. rewrite C20_crc_is_ieee by (apply bok_firstn, H).
  reflexivity.
Qed.
Lemma crc_ieee_bound p : crc_ieee p < 2 ^ 32.
Proof.
  unfold crc_ieee. pose proof (fold_bound (message_bits p) ones32 ltac:(reflexivity)) as B.
  revert B. generalize (fold_left shift_bit (message_bits p) ones32). intros x B.
  destruct (N.eq_dec (N.lxor x ones32) 0) as [E|E]; [rewrite E; reflexivity|].
  apply N.log2_lt_pow2; [lia|].
  eapply N.le_lt_trans; [apply N.log2_lxor|].
  apply N.max_lub_lt; [|reflexivity].
  destruct (N.eq_dec x 0) as [->|X]; [reflexivity|]. apply N.log2_lt_pow2; lia.
Qed.
Lemma right_sealed p : rightb (sealed p) = true.
Proof.
  unfold rightb. cbv zeta. rewrite sealed_length.
  replace (length p + 4 - 4)%nat with (length p + 0)%nat by lia. unfold sealed.
  rewrite firstn_app_2, skipn_app, skipn_all2, app_nil_l by lia.
  replace (length p + 0 - length p)%nat with 0%nat by lia. cbn [firstn skipn].
  rewrite app_nil_r, le_dec_enc. apply N.eqb_eq.
  apply N.mod_small. exact (crc_ieee_bound p).
Qed.
Lemma right_iff f : bytes_ok f -> (4 <= length f)%nat ->
  rightb f = true <-> exists p, f = sealed p.
Proof.
  intros B L. split; [|intros [p ->]; apply right_sealed].
  unfold rightb. cbv zeta. intros H. apply N.eqb_eq in H.
  exists (firstn (length f - 4) f). unfold sealed. rewrite <- H.
  rewrite le_enc_dec.
  - symmetry. apply firstn_skipn.
  - rewrite skipn_length. lia.
  - apply bok_skipn, B.
Qed.

(** Steps *)
Definition sound (s : mst) : Prop :=
  bytes_ok (m_txbuf s) /\
  Forall (fun x => bytes_ok (f_bytes x) /\ (14 <= length (f_bytes x))%nat) (m_fifo s).
Definition same_cfg (s s' : mst) : Prop :=
  m_regs s' A_TX1 = m_regs s A_TX1 /\ m_regs s' A_RX1 = m_regs s A_RX1.

Definition tx_frame (s : mst) (p : list N) : list N := if tx_ins s then sealed p else p.

Lemma mac_tx_more s d : tx_enable s = true ->
  N.of_nat (length (m_txbuf s ++ d)) <= 65532 ->
  mac_tx s d false = Ok (set_txbuf s (m_txbuf s ++ d), []).
Proof.
  intros E L. unfold mac_tx. rewrite E. cbn [negb]. rewrite app_length in L.
  replace (2 ^ 31 <=? N.of_nat (length d)) with false
    by (symmetry; apply N.leb_gt; change (2 ^ 31) with 2147483648; lia).
  replace (N.of_nat (length d) <? bufsize - N.of_nat (length (m_txbuf s))) with true
    by (symmetry; apply N.ltb_lt; unfold bufsize; lia).
  reflexivity.
Qed.

Lemma mac_tx_last s d : tx_enable s = true -> bytes_ok (m_txbuf s ++ d) ->
  14 <= N.of_nat (length (m_txbuf s ++ d)) <= 65532 ->
  let f := tx_frame s (m_txbuf s ++ d) in
  mac_tx s d true =
  Ok (set_txbuf (adds s Tx (frame_list (good_tx s f) f)) [], [PhyTx f]).
Proof.
  intros E B L f. unfold mac_tx. rewrite E. cbn [negb]. pose proof L as L'. rewrite app_length in L'.
  replace (2 ^ 31 <=? N.of_nat (length d)) with false
    by (symmetry; apply N.leb_gt; change (2 ^ 31) with 2147483648; lia).
  replace (N.of_nat (length d) <? bufsize - N.of_nat (length (m_txbuf s))) with true
    by (symmetry; apply N.ltb_lt; unfold bufsize; lia).
  cbn [negb]. cbv zeta. subst f. revert B L. generalize (m_txbuf s ++ d). intros b B L.
  replace (N.of_nat (length b) <? 14) with false by (symmetry; apply N.ltb_ge; lia).
  unfold good_tx, tx_frame. destruct (tx_ins s).
  - replace (bufsize <? N.of_nat (length b) + 4) with false
      by (symmetry; apply N.ltb_ge; unfold bufsize; lia).
    cbn [rbind orb]. rewrite C20_crc_is_ieee by exact B.
    change (b ++ le_enc 4 (crc_ieee b)) with (sealed b).
    unfold frame_list. cbn [app]. rewrite adds_app, add_all_adds, add_good_adds. reflexivity.
  - cbn [rbind orb]. rewrite fcs_right by exact B.
    unfold frame_list. destruct (tx_ignore s || rightb b); cbn [app].
    + rewrite adds_app, add_all_adds, add_good_adds. reflexivity.
    + rewrite add_all_adds. reflexivity.
Qed.

(** Every successful transmission step. *)
Lemma mac_tx_any s d eop s1 o1 : sound s -> bytes_ok d -> mac_tx s d eop = Ok (s1, o1) ->
  (o1 = [] /\ exists b, bytes_ok b /\ s1 = set_txbuf s b) \/
  (exists f, o1 = [PhyTx f] /\ bytes_ok f /\ (14 <= length f)%nat /\
             s1 = set_txbuf (adds s Tx (frame_list (good_tx s f) f)) []).
Proof.
  intros [B F] D. unfold mac_tx.
  destruct (tx_enable s) eqn:E; cbn [negb].
  2: { intros H. injection H as <- <-. left. split; [reflexivity|].
       exists (m_txbuf s). split; [exact B|]. destruct s; reflexivity. }
  destruct (2 ^ 31 <=? N.of_nat (length d)); [discriminate|].
  destruct (N.of_nat (length d) <? bufsize - N.of_nat (length (m_txbuf s))); [|discriminate].
  cbn [negb]. cbv zeta. assert (B2 : bytes_ok (m_txbuf s ++ d)) by now apply bok_app.
  revert B2. generalize (m_txbuf s ++ d). intros b Bb.
  destruct eop; cbn [negb].
  2: { intros H. injection H as <- <-. left. split; [reflexivity|]. now exists b. }
  destruct (N.of_nat (length b) <? 14) eqn:L.
  { intros H. injection H as <- <-. left. split; [reflexivity|]. now exists b. }
  apply N.ltb_ge in L. intros H. right. unfold good_tx.
  destruct (tx_ins s).
  - destruct (bufsize <? N.of_nat (length b) + 4); [discriminate|]. cbn [rbind] in H.
    rewrite C20_crc_is_ieee in H by exact Bb.
    change (b ++ le_enc 4 (crc_ieee b)) with (sealed b) in H.
    injection H as <- <-. exists (sealed b).
    split; [reflexivity|]. split; [now apply sealed_ok|].
    split; [rewrite sealed_length; lia|].
    unfold frame_list. cbn [orb app]. rewrite adds_app, add_all_adds, add_good_adds. reflexivity.
  - cbn [rbind] in H. rewrite fcs_right in H by exact Bb. injection H as <- <-. exists b.
    split; [reflexivity|]. split; [exact Bb|]. split; [lia|].
    unfold frame_list. cbn [orb]. destruct (tx_ignore s || rightb b); cbn [app].
    + rewrite adds_app, add_all_adds, add_good_adds. reflexivity.
    + rewrite add_all_adds. reflexivity.
Qed.

Definition rx_list (good : bool) (f : list N) : list (ctr * N) :=
  (if good then [] else [(BadFcs, 1)]) ++ all_list f ++ (if good then good_list f else []).
Lemma rx_look c good f : look c (rx_list good f) = look c (frame_list good f).
Proof. unfold rx_list, frame_list. rewrite !look_app. lia. Qed.

Lemma rx_turn_take s x rest : sound s -> m_fifo s = x :: rest ->
  rx_turn s =
  if rx_enable s then
    let f := f_bytes x in
    Ok (adds (set_fifo s rest) Rx (rx_list (good_rx s f) f),
        RxTook f :: if good_rx s f then [MacRx f (f_sw x)] else [])
  else Ok (set_fifo s rest, []).
Proof.
  intros [_ F] E. rewrite E in F. apply Forall_cons_iff in F. destruct F as [[B L] _].
  unfold rx_turn. rewrite E. cbv zeta.
  change (rx_enable (set_fifo s rest)) with (rx_enable s).
  change (rx_ignore (set_fifo s rest)) with (rx_ignore s).
  destruct (rx_enable s); cbn [negb]; [|reflexivity].
  replace (length (f_bytes x) <? 4)%nat with false by (symmetry; apply Nat.ltb_ge; lia).
  rewrite andb_false_r. rewrite fcs_right by exact B. fold (good_rx s (f_bytes x)).
  unfold rx_list. destruct (good_rx s (f_bytes x)); cbn [app].
  - replace (length (f_bytes x) <? 14)%nat with false by (symmetry; apply Nat.ltb_ge; lia).
    rewrite adds_app, add_all_adds, add_good_adds. reflexivity.
  - rewrite app_nil_r, add_all_adds. reflexivity.
Qed.

Lemma reg_any ins s r a d : steady (OReg r a d) ->
  exists s1 o1, step ins s (OReg r a d) = Ok (s1, o1) /\ same_cfg s s1 /\
    m_txbuf s1 = m_txbuf s /\ m_fifo s1 = m_fifo s /\
    ((o1 = [] /\ m_acc s1 = m_acc s) \/ (o1 = [Ticked] /\ forall d c, m_acc s1 d c = 0)).
Proof.
  intros (_ & L & K & W). cbn [step]. unfold reg_acc.
  assert (X : exists s2 d2,
    (if (length d =? 4)%nat then
       if negb (known a) then Unmodelled
       else if r then Ok (s, le_enc 4 (m_regs s a))
       else Ok (set_regs s (wr (m_regs s) a (N.ldiff (le_dec d) (w1c a))), d)
     else Ok (s, d)) = Ok (s2, d2) /\ same_cfg s s2 /\ m_txbuf s2 = m_txbuf s /\
    m_fifo s2 = m_fifo s /\ m_acc s2 = m_acc s /\ (length d2 <= 4)%nat).
  { destruct (Nat.eqb_spec (length d) 4) as [E|E].
    - rewrite (K E). cbn [negb]. destruct r.
      + exists s, (le_enc 4 (m_regs s a)). split; [reflexivity|].
        split; [now split|]. do 3 (split; [reflexivity|]). rewrite le_enc_length. lia.
      + exists (set_regs s (wr (m_regs s) a (N.ldiff (le_dec d) (w1c a)))), d.
        split; [reflexivity|]. destruct (W eq_refl) as (w1 & w2 & w3).
        split; [|do 3 (split; [reflexivity|]); exact L].
        unfold same_cfg. cbn [set_regs m_regs]. unfold wr.
        rewrite !(proj2 (N.eqb_neq _ _)) by congruence. now split.
    - exists s, d. split; [reflexivity|]. split; [now split|].
      do 3 (split; [reflexivity|]). exact L. }
  destruct X as (s2 & d2 & -> & C & T & F & A & L2). cbn [rbind].
  replace (4 <? length d2)%nat with false by (symmetry; apply Nat.ltb_ge; lia).
  destruct (a =? A_TICK).
  - cbv zeta. pose proof (tick_keeps s2) as K2. pose proof (tick_acc s2) as K3.
    revert K2 K3. generalize (tick s2). intros k (t1 & t2 & _ & t4 & t5) K3.
    destruct C as [C1 C2].
    eexists _, _. split; [reflexivity|]. cbn [fst snd].
    destruct (N.odd (le_dec d2)).
    + split; [split; [exact (eq_trans t1 C1)|exact (eq_trans t2 C2)]|].
      split; [exact (eq_trans t4 T)|]. split; [exact (eq_trans t5 F)|].
      right. split; [reflexivity|]. exact K3.
    + split; [split; [exact (eq_trans t1 C1)|exact (eq_trans t2 C2)]|].
      split; [exact (eq_trans t4 T)|]. split; [exact (eq_trans t5 F)|].
      right. split; [reflexivity|]. exact K3.
  - eexists _, _. split; [reflexivity|]. cbn [fst snd].
    split; [exact C|]. split; [exact T|]. split; [exact F|]. left. now split.
Qed.

Lemma cfg_tx s s' : same_cfg s s' -> tx_enable s' = tx_enable s /\ tx_ins s' = tx_ins s /\
  (forall f, good_tx s' f = good_tx s f) /\ (forall p, tx_frame s' p = tx_frame s p).
Proof.
  intros [A _]. unfold tx_frame, good_tx, tx_enable, tx_ins, tx_ignore. rewrite A. now repeat split.
Qed.
Lemma cfg_rx s s' : same_cfg s s' -> rx_enable s' = rx_enable s /\
  (forall f, good_rx s' f = good_rx s f).
Proof. intros [_ A]. unfold good_rx, rx_enable, rx_ignore. rewrite A. now split. Qed.
Lemma cfg_adds s s2 d l : m_regs s2 = m_regs s -> same_cfg s (adds s2 d l).
Proof. intros E. destruct (adds_keeps d l s2) as (a & _). split; rewrite a, E; reflexivity. Qed.
Lemma cfg_refl s s2 : m_regs s2 = m_regs s -> same_cfg s s2.
Proof. intros E. split; now rewrite E. Qed.

Lemma sent_app a b : sent (a ++ b) = sent a ++ sent b.
Proof. apply flat_map_app. Qed.
Lemma taken_app a b : taken (a ++ b) = taken a ++ taken b.
Proof. apply flat_map_app. Qed.
Lemma delivered_app a b : delivered (a ++ b) = delivered a ++ delivered b.
Proof. apply flat_map_app. Qed.

(** What one steady step does, apart from the transmit buffer. *)
Lemma phy_any ins s d sw : sound s -> steady (OPhy d sw) ->
  exists s1, step ins s (OPhy d sw) = Ok (s1, []) /\ sound s1 /\ m_regs s1 = m_regs s /\
    m_acc s1 = m_acc s /\ m_txbuf s1 = m_txbuf s /\
    ((length (m_fifo s) < 2)%nat ->
     map f_bytes (m_fifo s1) = map f_bytes (m_fifo s) ++ [if ins then sealed d else d] /\
     length (m_fifo s1) = S (length (m_fifo s))).
Proof.
  intros [B F] [Bd Ld]. cbn [step]. unfold phy_rx.
  replace (2 ^ 31 - 4 <=? N.of_nat (length d)) with false by (symmetry; apply N.leb_gt; lia).
  cbv zeta. cbn [rmap rbind]. rewrite C20_crc_is_ieee by exact Bd.
  change (d ++ le_enc 4 (crc_ieee d)) with (sealed d).
  eexists. split; [reflexivity|].
  destruct (Nat.ltb_spec (length (m_fifo s)) 2) as [E|E].
  - split.
    { split; [exact B|]. cbn [set_fifo m_fifo]. apply Forall_app. split; [exact F|].
      constructor; [|constructor]. cbn [f_bytes].
      destruct ins; [split; [now apply sealed_ok|rewrite sealed_length; lia]|split; [exact Bd|lia]]. }
    do 3 (split; [reflexivity|]). intros _. cbn [set_fifo m_fifo].
    rewrite map_app, app_length. split; [reflexivity|]. cbn [length]. lia.
  - split; [split; assumption|]. do 3 (split; [reflexivity|]). lia.
Qed.

Lemma turn_any s : sound s ->
  exists s1 o1, rx_turn s = Ok (s1, o1) /\ sound s1 /\ m_regs s1 = m_regs s /\
    m_txbuf s1 = m_txbuf s /\ sent o1 = [] /\
    delivered o1 = filter (good_rx s) (taken o1) /\
    length (m_fifo s1) = pred (length (m_fifo s)) /\
    (rx_enable s = true -> taken o1 ++ map f_bytes (m_fifo s1) = map f_bytes (m_fifo s)) /\
    ((o1 = [] /\ m_acc s1 = m_acc s) \/
     exists f t, o1 = RxTook f :: t /\ taken t = [] /\ sent t = [] /\ ~ In Ticked t /\
       bytes_ok f /\ (14 <= length f)%nat /\
       exists s2, m_acc s2 = m_acc s /\ s1 = adds s2 Rx (rx_list (good_rx s f) f)).
Proof.
  intros S. destruct (m_fifo s) as [|x rest] eqn:E.
  - exists s, []. unfold rx_turn. rewrite E. split; [reflexivity|]. split; [exact S|].
    do 4 (split; [reflexivity|]). split; [reflexivity|]. split; [intros _; reflexivity|]. left. now split.
  - rewrite (rx_turn_take s x rest S E). destruct S as [B F]. rewrite E in F.
    apply Forall_cons_iff in F. destruct F as [[Bx Lx] F]. cbv zeta.
    destruct (rx_enable s) eqn:En.
    + destruct (adds_keeps Rx (rx_list (good_rx s (f_bytes x)) (f_bytes x)) (set_fifo s rest))
        as (k1 & k2 & k3).
      eexists _, _. split; [reflexivity|].
      split; [split; [rewrite k2; exact B|rewrite k3; exact F]|].
      split; [exact k1|]. split; [exact k2|].
      split; [destruct (good_rx s (f_bytes x)); reflexivity|].
      split; [destruct (good_rx s (f_bytes x)) eqn:G; cbn; rewrite G; reflexivity|].
      split; [rewrite k3; reflexivity|].
      split; [intros _; rewrite k3; destruct (good_rx s (f_bytes x)); reflexivity|].
      right. eexists _, _. split; [reflexivity|].
      split; [destruct (good_rx s (f_bytes x)); reflexivity|].
      split; [destruct (good_rx s (f_bytes x)); reflexivity|].
      split; [destruct (good_rx s (f_bytes x)); cbn; intuition discriminate|].
      split; [exact Bx|]. split; [exact Lx|].
      exists (set_fifo s rest). now split.
    + eexists _, _. split; [reflexivity|]. split; [split; assumption|].
      do 4 (split; [reflexivity|]). split; [reflexivity|]. split; [discriminate|]. left. now split.
Qed.

(** Runs *)
Definition pkt_fits (p : list N) : Prop := 14 <= N.of_nat (length p) <= 65532.

Lemma packets_begun l : forall b ps r, packets b l = (ps, r) ->
  Forall pkt_fits ps -> N.of_nat (length r) <= 65532 -> N.of_nat (length b) <= 65532.
Proof.
  induction l as [|o l IH]; intros b ps r.
  { cbn. intros H. injection H as <- <-. auto. }
  destruct o as [d e| | | | ]; cbn [packets]; try apply IH.
  destruct e.
  - destruct (packets [] l) as [ps' r'] eqn:P. intros H F R. injection H as <- <-.
    apply Forall_cons_iff in F. destruct F as [[_ F] _]. rewrite app_length in F. lia.
  - intros H F R. pose proof (IH _ _ _ H F R) as X. rewrite app_length in X. lia.
Qed.

Lemma run_cons ins s o l s1 o1 s2 o2 : step ins s o = Ok (s1, o1) -> run ins s1 l = Ok (s2, o2) ->
  run ins s (o :: l) = Ok (s2, o1 ++ o2).
Proof. intros A B. cbn [run]. rewrite A. cbn [rbind fst snd]. rewrite B. reflexivity. Qed.

Lemma run_all ins l : forall s ps r, sound s -> tx_enable s = true -> Forall steady l ->
  packets (m_txbuf s) l = (ps, r) -> Forall pkt_fits ps -> N.of_nat (length r) <= 65532 ->
  exists s' outs, run ins s l = Ok (s', outs) /\ sent outs = map (tx_frame s) ps /\
    m_txbuf s' = r /\ sound s' /\ same_cfg s s' /\
    delivered outs = filter (good_rx s) (taken outs) /\
    (rx_enable s = true -> paced (length (m_fifo s)) l ->
     taken outs ++ map f_bytes (m_fifo s') = map f_bytes (m_fifo s) ++ arrived ins l).
Proof.
  induction l as [|o l IH]; intros s ps r S E St P F R.
  { cbn in P. injection P as <- <-. exists s, []. split; [reflexivity|].
    do 2 (split; [reflexivity|]). split; [exact S|]. split; [now split|]. split; [reflexivity|].
    intros _ _. cbn [arrived]. rewrite app_nil_r. reflexivity. }
  apply Forall_cons_iff in St. destruct St as [So St].
  assert (Go : forall s1 o1 ps1 pre, step ins s o = Ok (s1, o1) -> sound s1 -> same_cfg s s1 ->
    packets (m_txbuf s1) l = (ps1, r) -> ps = pre ++ ps1 -> sent o1 = map (tx_frame s) pre ->
    delivered o1 = filter (good_rx s) (taken o1) ->
    (rx_enable s = true -> paced (length (m_fifo s)) (o :: l) ->
     paced (length (m_fifo s1)) l /\
     taken o1 ++ map f_bytes (m_fifo s1) ++ arrived ins l =
     map f_bytes (m_fifo s) ++ arrived ins (o :: l)) ->
    exists s' outs, run ins s (o :: l) = Ok (s', outs) /\ sent outs = map (tx_frame s) ps /\
      m_txbuf s' = r /\ sound s' /\ same_cfg s s' /\
      delivered outs = filter (good_rx s) (taken outs) /\
      (rx_enable s = true -> paced (length (m_fifo s)) (o :: l) ->
       taken outs ++ map f_bytes (m_fifo s') = map f_bytes (m_fifo s) ++ arrived ins (o :: l))).
  { intros s1 o1 ps1 pre H S1 C P1 -> Sn Dl Tk. apply Forall_app in F. destruct F as [_ F].
    destruct (cfg_tx _ _ C) as (c1 & c2 & c3 & c4). destruct (cfg_rx _ _ C) as (c5 & c6).
    destruct (IH s1 ps1 r S1 ltac:(congruence) St P1 F R)
      as (s' & outs & h1 & h2 & h3 & h4 & h5 & h6 & h7).
    exists s', (o1 ++ outs). split; [exact (run_cons _ _ _ _ _ _ _ _ H h1)|].
    split; [rewrite sent_app, map_app, Sn, h2; f_equal; now apply map_ext|].
    split; [exact h3|]. split; [exact h4|].
    split; [destruct C, h5; split; congruence|].
    split.
    { rewrite delivered_app, taken_app, filter_app, Dl, h6. f_equal. apply filter_ext, c6. }
    intros En Pa. destruct (Tk En Pa) as [Pa1 Tk1].
    rewrite taken_app, <- app_assoc, (h7 ltac:(congruence) Pa1). exact Tk1. }
  destruct o as [d e|d sw| |rd a d| ]; cbn [packets] in P.
  - assert (Bb : bytes_ok (m_txbuf s ++ d)) by (apply bok_app; [apply S|exact So]).
    destruct e.
    + destruct (packets [] l) as [ps1 r1] eqn:P1. injection P as <- <-.
      apply Forall_cons_iff in F. destruct F as [F0 F].
      pose proof (mac_tx_last s d E Bb F0) as H. cbv zeta in H.
      destruct (adds_keeps Tx (frame_list (good_tx s (tx_frame s (m_txbuf s ++ d)))
        (tx_frame s (m_txbuf s ++ d))) s) as (k1 & k2 & k3).
      apply (Go _ _ ps1 [m_txbuf s ++ d] H).
      * split; [constructor|]. cbn [set_txbuf m_fifo]. rewrite k3. apply S.
      * apply cfg_refl. exact k1.
      * exact P1.
      * reflexivity.
      * reflexivity.
      * reflexivity.
      * intros _ Pa. cbn [set_txbuf m_fifo]. rewrite k3. split; [exact Pa|reflexivity].
    + pose proof (packets_begun _ _ _ _ P F R) as L.
      apply (Go _ _ ps [] (mac_tx_more s d E L)).
      * split; [exact Bb|apply S].
      * now split.
      * exact P.
      * reflexivity.
      * reflexivity.
      * reflexivity.
      * intros _ Pa. split; [exact Pa|reflexivity].
  - destruct (phy_any ins s d sw S So) as (s1 & H & S1 & k1 & k2 & k3 & k4).
    apply (Go _ _ ps [] H S1).
    + now apply cfg_refl.
    + rewrite k3. exact P.
    + reflexivity.
    + reflexivity.
    + reflexivity.
    + intros _ [Pa0 Pa]. destruct (k4 Pa0) as [q1 q2]. rewrite q1, q2. split; [exact Pa|].
      cbn [taken flat_map app arrived]. rewrite <- app_assoc. reflexivity.
  - destruct (turn_any s S) as (s1 & o1 & H & S1 & k1 & k2 & k3 & k4 & k5 & k6 & _).
    apply (Go _ _ ps [] H S1).
    + now apply cfg_refl.
    + rewrite k2. exact P.
    + reflexivity.
    + exact k3.
    + exact k4.
    + intros En Pa. rewrite k5. split; [exact Pa|].
      rewrite app_assoc, (k6 En). reflexivity.
  - destruct (reg_any ins s rd a d So) as (s1 & o1 & H & C & k2 & k3 & k4).
    assert (Z : sent o1 = [] /\ delivered o1 = [] /\ taken o1 = []).
    { destruct k4 as [[-> _]|[-> _]]; repeat split. }
    destruct Z as (z1 & z2 & z3).
    apply (Go _ _ ps [] H).
    + unfold sound. rewrite k2, k3. exact S.
    + exact C.
    + rewrite k2. exact P.
    + reflexivity.
    + exact z1.
    + rewrite z2, z3. reflexivity.
    + intros _ Pa. rewrite k3, z3. split; [exact Pa|reflexivity].
  - destruct So.
Qed.

(** Statistics over a run *)
Definition ticked (l : list out) : bool :=
  existsb (fun o => match o with Ticked => true | _ => false end) l.
Lemma since_quiet l : ticked l = false -> since l = l.
Proof. destruct l as [|o l]; [reflexivity|]. unfold ticked. intros H. cbn [since]. now rewrite H. Qed.
Lemma ticked_app a b : ticked (a ++ b) = ticked a || ticked b.
Proof. apply existsb_app. Qed.
Lemma since_app a b : since (a ++ b) = if ticked b then since b else since a ++ b.
Proof.
  induction a as [|o a IH].
  { cbn [app]. destruct (ticked b) eqn:E; [reflexivity|]. cbn [since app]. now apply since_quiet. }
  cbn [app]. cbn [since]. change (existsb _ (o :: a ++ b)) with (ticked ((o :: a) ++ b)).
  change (existsb _ (o :: a)) with (ticked (o :: a)).
  rewrite ticked_app, IH. destruct (ticked b) eqn:E.
  - rewrite orb_true_r. reflexivity.
  - rewrite orb_false_r. destruct (ticked (o :: a)); reflexivity.
Qed.
Lemma went_app d a b : went d (a ++ b) = went d a ++ went d b.
Proof. destruct d; [apply sent_app|apply taken_app]. Qed.
Lemma total_app g d c a b : total g d c (a ++ b) = total g d c a + total g d c b.
Proof.
  unfold total. rewrite went_app. induction (went d a) as [|f l IH]; [reflexivity|].
  cbn [app fold_right]. rewrite IH. lia.
Qed.
Lemma total_ext g g' d c l : (forall f, g' f = g f) -> total g' d c l = total g d c l.
Proof.
  intros H. unfold total. induction (went d l) as [|f k IH]; [reflexivity|].
  cbn [fold_right]. rewrite IH, H. reflexivity.
Qed.
Lemma good_of_cfg s s' : same_cfg s s' -> forall d f, good_of s' d f = good_of s d f.
Proof.
  intros C [] f; cbn [good_of]; [apply (cfg_tx _ _ C)|apply (cfg_rx _ _ C)].
Qed.

Lemma step_stats ins s o s1 o1 : sound s -> steady o -> step ins s o = Ok (s1, o1) ->
  (forall d c, m_acc s d c + total (good_of s d) d c o1 < 2 ^ 48) ->
  sound s1 /\ same_cfg s s1 /\
  forall d c, m_acc s1 d c =
    if ticked o1 then total (good_of s d) d c (since o1)
    else m_acc s d c + total (good_of s d) d c o1.
Proof.
  intros S So H Bd. destruct o as [d e|d sw| |rd a d| ].
  - cbn [step] in H. destruct (mac_tx_any s d e s1 o1 S So H) as [[-> (b & Bb & ->)]|(f & -> & Bf & Lf & ->)].
    + split; [split; [exact Bb|apply S]|]. split; [now split|].
      intros d' c. cbn. destruct d'; unfold total; cbn; lia.
    + destruct (adds_keeps Tx (frame_list (good_tx s f) f) s) as (k1 & k2 & k3).
      split; [split; [constructor|cbn [set_txbuf m_fifo]; rewrite k3; apply S]|].
      split; [now apply cfg_refl|].
      intros d' c. cbn [set_txbuf m_acc ticked existsb orb].
      rewrite acc_adds.
      * destruct d'; cbn [dir_eqb]; unfold total; cbn [went sent taken flat_map app fold_right];
          [|lia].
        rewrite look_weight by (auto; lia). cbn [good_of]. lia.
      * intros c'. rewrite look_weight by auto.
        pose proof (Bd Tx c') as X. unfold total in X.
        cbn [went sent flat_map app fold_right good_of] in X. lia.
  - destruct (phy_any ins s d sw S So) as (s2 & H2 & S1 & k1 & k2 & k3 & _).
    rewrite H2 in H. injection H as <- <-. split; [exact S1|]. split; [now apply cfg_refl|].
    intros d' c. rewrite k2. cbn. destruct d'; unfold total; cbn; lia.
  - cbn [step] in H. destruct (turn_any s S) as (s2 & o2 & H2 & S1 & k1 & _ & _ & _ & _ & _ & k4).
    rewrite H2 in H. injection H as <- <-. split; [exact S1|]. split; [now apply cfg_refl|].
    destruct k4 as [[-> A]|(f & t & -> & t1 & t2 & t3 & Bf & Lf & s3 & A & ->)].
    + intros d' c. rewrite A. cbn. destruct d'; unfold total; cbn; lia.
    + assert (Q : ticked (RxTook f :: t) = false).
      { unfold ticked. cbn [existsb orb]. apply not_true_is_false. intros X.
        apply existsb_exists in X. destruct X as ([] & X & Y); try discriminate. exact (t3 X). }
      intros d' c. rewrite Q. rewrite acc_adds.
      * rewrite A. destruct d'; cbn [dir_eqb]; unfold total; cbn [went].
        -- change (sent (RxTook f :: t)) with (sent t). rewrite t2. cbn. lia.
        -- change (taken (RxTook f :: t)) with (f :: taken t). rewrite t1.
           cbn [fold_right]. rewrite rx_look, look_weight by auto. cbn [good_of]. lia.
      * intros c'. rewrite A, rx_look, look_weight by auto.
        pose proof (Bd Rx c') as X. unfold total in X. cbn [went] in X.
        change (taken (RxTook f :: t)) with (f :: taken t) in X. rewrite t1 in X.
        cbn [fold_right good_of] in X. lia.
  - destruct (reg_any ins s rd a d So) as (s2 & o2 & H2 & C & k2 & k3 & k4).
    rewrite H2 in H. injection H as <- <-.
    split; [unfold sound; rewrite k2, k3; exact S|]. split; [exact C|].
    destruct k4 as [[-> A]|[-> A]]; intros d' c; rewrite A; cbn; destruct d'; unfold total; cbn; lia.
  - destruct So.
Qed.

Lemma run_stats ins l : forall s s' outs, sound s -> Forall steady l -> run ins s l = Ok (s', outs) ->
  (forall d c, m_acc s d c + total (good_of s d) d c outs < 2 ^ 48) ->
  same_cfg s s' /\
  forall d c, m_acc s' d c =
    if ticked outs then total (good_of s d) d c (since outs)
    else m_acc s d c + total (good_of s d) d c outs.
Proof.
  induction l as [|o l IH]; intros s s' outs S St H Bd.
  { cbn in H. injection H as <- <-. split; [now split|]. intros d c.
    cbn. destruct d; unfold total; cbn; lia. }
  apply Forall_cons_iff in St. destruct St as [So St]. cbn [run] in H.
  destruct (step ins s o) as [[s1 o1]| | |] eqn:E; try discriminate H. cbn [rbind fst snd] in H.
  destruct (run ins s1 l) as [[s2 o2]| | |] eqn:E2; try discriminate H.
  cbn [rmap rbind fst snd] in H. injection H as <- <-.
  assert (B1 : forall d c, m_acc s d c + total (good_of s d) d c o1 < 2 ^ 48).
  { intros d c. pose proof (Bd d c) as X. rewrite total_app in X. lia. }
  destruct (step_stats ins s o s1 o1 S So E B1) as (S1 & C & A1).
  assert (si : forall d c, total (good_of s d) d c (since o1) <= total (good_of s d) d c o1).
  { intros d c. clear. induction o1 as [|x o1 IH]; [cbn; lia|]. cbn [since].
    destruct (existsb _ (x :: o1)); [|lia].
    change (x :: o1) with ([x] ++ o1). rewrite total_app. lia. }
  destruct (IH s1 s2 o2 S1 St E2) as [C2 A2].
  { intros d c. rewrite (total_ext _ _ d c o2 (good_of_cfg _ _ C d)), A1.
    pose proof (Bd d c) as X. rewrite total_app in X. pose proof (si d c) as Y.
    destruct (ticked o1); lia. }
  split; [destruct C, C2; split; congruence|].
  intros d c. rewrite A2, A1, ticked_app, since_app.
  rewrite !(total_ext _ _ d c _ (good_of_cfg _ _ C d)), total_app.
  destruct (ticked o2) eqn:T2; [rewrite orb_true_r; reflexivity|].
  rewrite orb_false_r. destruct (ticked o1); [rewrite total_app; reflexivity|]. lia.
Qed.

(** The access that ends an interval. *)
Lemma write_tick_step ins s :
  (forall d c, m_acc s d c < 2 ^ 64) ->
  exists s1, step ins s write_tick = Ok (s1, [Ticked]) /\
    (forall d c, shown s1 d c = m_acc s d c) /\ N.land (m_regs s1 A_READY) 3 = 3.
Proof.
  intros H. set (s0 := set_regs s (wr (m_regs s) A_TICK 0)).
  exists (set_regs (tick s0) (wr (m_regs (tick s0)) A_READY
           (N.lor (N.ldiff (m_regs (tick s0) A_READY) 3) 3))).
  split; [reflexivity|]. split.
  - intros d c. etransitivity; [|exact (tick_shown s0 d c (H d c))].
    generalize (tick s0). intros k. destruct d, c; reflexivity.
  - generalize (tick s0). intros k. cbn [set_regs m_regs]. unfold wr. rewrite N.eqb_refl.
    apply N.bits_inj. intros i. rewrite N.land_spec, N.lor_spec, N.ldiff_spec.
    destruct (N.testbit 3 i); [now rewrite orb_true_r|now rewrite andb_false_r].
Qed.

(** The counters of one frame add up. *)
Lemma weight_bins good f : sum (map (fun c => weight c good f) bins) = 1.
Proof.
  cbn [map bins]. unfold sum. cbn [fold_right].
  rewrite (bin_weight P64 good f), (bin_weight P65_127 good f), (bin_weight P128_255 good f),
    (bin_weight P256_511 good f), (bin_weight P512_1023 good f), (bin_weight P1024_1518 good f),
    (bin_weight P1519_1522 good f), (bin_weight P1523_1548 good f),
    (bin_weight P1549_2047 good f), (bin_weight P2048_4095 good f),
    (bin_weight P4096_8191 good f), (bin_weight P8192_9215 good f), (bin_weight PLarge good f),
    (bin_weight PSmall good f).
  unfold bin. repeat match goal with |- context [if ?b then _ else _] =>
    lazymatch b with context [ctr_eqb] => fail | _ => destruct b end end; reflexivity.
Qed.
Lemma sum_plus (a b : ctr -> N) l :
  sum (map (fun c => a c + b c) l) = sum (map a l) + sum (map b l).
Proof.
  induction l as [|c l IH]; [reflexivity|]. unfold sum in *. cbn [map fold_right]. lia.
Qed.
Lemma total_bins g d l : sum (map (fun c => total g d c l) bins) = total g d TotalPackets l.
Proof.
  unfold total. induction (went d l) as [|f k IH]; [reflexivity|].
  cbn [fold_right]. rewrite sum_plus, weight_bins, IH. reflexivity.
Qed.
Lemma total_good_bad g d l :
  total g d TotalGoodPackets l + total g d BadFcs l = total g d TotalPackets l.
Proof.
  unfold total. induction (went d l) as [|f k IH]; [reflexivity|].
  cbn [fold_right]. rewrite <- IH. unfold weight at 1 3 5. destruct (g f); cbn [one negb]; lia.
Qed.
Lemma total_casts g d l :
  total g d Unicast l + total g d Multicast l + total g d Broadcast l =
  total g d TotalGoodPackets l.
Proof.
  unfold total. induction (went d l) as [|f k IH]; [reflexivity|].
  assert (W : weight Unicast (g f) f + weight Multicast (g f) f + weight Broadcast (g f) f =
              weight TotalGoodPackets (g f) f).
  { unfold weight. pose proof (to_all_group f) as A.
    destruct (g f), (to_all f), (to_group f); try (discriminate (A eq_refl)); reflexivity. }
  cbn [fold_right]. rewrite <- IH, <- W. lia.
Qed.
Lemma run_app ins l1 l2 : forall s s1 o1 s2 o2, run ins s l1 = Ok (s1, o1) ->
  run ins s1 l2 = Ok (s2, o2) -> run ins s (l1 ++ l2) = Ok (s2, o1 ++ o2).
Proof.
  induction l1 as [|o l1 IH]; intros s s1 o1 s2 o2 H1 H2.
  { cbn in H1. injection H1 as <- <-. exact H2. }
  cbn [run] in H1. destruct (step ins s o) as [[sa oa]| | |] eqn:E; try discriminate H1.
  cbn [rbind fst snd] in H1.
  destruct (run ins sa l1) as [[sb ob]| | |] eqn:E2; try discriminate H1.
  cbn [rmap rbind fst snd] in H1. injection H1 as <- <-.
  rewrite <- app_assoc. exact (run_cons _ _ _ _ _ _ _ _ E (IH _ _ _ _ _ E2 H2)).
Qed.
