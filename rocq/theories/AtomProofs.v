(** Lemmas about the path of a CHI atomic. *)
From Verif Require Import Base BaseFacts TlmModel SnModel SnSpec SnProofs SnProofs2 AtomModel AtomSpec.
From Verif Require CachelineProofs TlmFacts.
Open Scope N_scope.

Lemma home_data_nth l i : (i < 64)%nat -> length (snd l) = 64%nat ->
  nth i (fst (home_data l)) 0 = (if nth i (snd l) 0 =? 255 then nth i (fst l) 0 else 0) /\
  nth i (snd (home_data l)) 0 = (if nth i (snd l) 0 =? 255 then 255 else 0).
Proof.
  intros H L. unfold home_data. cbn [fst snd]. rewrite !nth_map_seq by exact H.
  assert (E : en_at (snd l) i = (nth i (snd l) 0 =? 255)).
  { unfold en_at. destruct (snd l) as [|b r] eqn:Er; [discriminate L|].
    rewrite <- Er in *. rewrite L, Nat.mod_small by exact H. reflexivity. }
  rewrite E. split; reflexivity.
Qed.

(** The data of the requester reaches the buffer of the slave node. *)
Lemma at_sn_atomic acc m q l jd jb : is_atomic q = true ->
  length (snd l) = 64%nat -> length jd = 64%nat -> length jb = 64%nat ->
  exists t, at_sn acc m q (home_data l) jd jb = exec acc m t /\ t_req t = q /\ buffers t /\
    forall i, (i < 64)%nat -> nth i (snd l) 0 = 255 -> nth i (t_data t) 0 = nth i (fst l) 0.
Proof.
  intros A L2 J1 J2. unfold at_sn, new_txn.
  assert (K : is_read q || is_write q = false).
  { unfold is_atomic, OP_AtomicStore, OP_AtomicCompare in A.
    unfold is_read, is_write, OP_ReadNoSnp, OP_ReadNoSnpSep, OP_WriteNoSnpFull, OP_WriteNoSnpPtl. lia. }
  rewrite K. cbn [andb rbind].
  set (c := mkChunk 0 0 (fst (home_data l)) (snd (home_data l))).
  assert (Lc : length (c_data c) = 64%nat /\ length (c_be c) = 64%nat).
  { unfold c, home_data. cbn [c_data c_be fst snd]. rewrite !map_length, !seq_length. split; reflexivity. }
  destruct Lc as [Lc Lb].
  destruct (copy_chunk_ok 64 (mkStx q jd jb 0) c) as (t & E & Rq & B & _ & P);
    [lia | exact Lc | cbn; lia | split; assumption |].
  exists t. rewrite E. cbn [rbind]. split; [reflexivity|]. split; [exact Rq|]. split; [exact B|].
  intros i Hi On. destruct (P i Hi) as [P1 _]. rewrite P1.
  assert (Hh : hit 64 c i = true) by (unfold hit; rewrite Nat.div_small by exact Hi; reflexivity).
  rewrite Hh, Nat.mod_small by exact Hi. cbn [andb].
  destruct (home_data_nth l i Hi L2) as [H1 H2]. rewrite On in H1, H2. cbn [N.eqb] in H1, H2.
  assert (Oc : chunk_on c i = true).
  { unfold chunk_on. destruct (c_be c) as [|b r] eqn:Er; [discriminate Lb|]. rewrite <- Er in *.
    rewrite Lb, Nat.mod_small by exact Hi. unfold c. cbn [c_be]. rewrite H2. reflexivity. }
  rewrite Oc. unfold c. cbn [c_data]. exact H1.
Qed.

Lemma put_length off n src l : off + n <= 64 -> n <= N.of_nat (length src) ->
  length (fst l) = 64%nat -> length (snd l) = 64%nat ->
  length (fst (put off n src l)) = 64%nat /\ length (snd (put off n src l)) = 64%nat.
Proof.
  intros H S L1 L2. unfold put. cbn [fst snd].
  rewrite !overlay_length; rewrite ?firstn_length, ?repeat_length; lia.
Qed.
Lemma put_nth off n src l i : off + n <= 64 -> n <= N.of_nat (length src) ->
  length (fst l) = 64%nat -> length (snd l) = 64%nat ->
  let inside := (off <=? N.of_nat i) && (N.of_nat i <? off + n) in
  nth i (fst (put off n src l)) 0 = (if inside then nth (i - N.to_nat off) src 0 else nth i (fst l) 0) /\
  nth i (snd (put off n src l)) 0 = (if inside then 255 else nth i (snd l) 0).
Proof.
  intros H S L1 L2 inside. unfold put. cbn [fst snd].
  rewrite !CachelineProofs.overlay_nth by (rewrite ?firstn_length, ?repeat_length; lia).
  rewrite firstn_length, repeat_length.
  replace (Nat.min (N.to_nat n) (length src)) with (N.to_nat n) by lia.
  assert (E : ((N.to_nat off <=? i)%nat && (i <? N.to_nat off + N.to_nat n)%nat) = inside) by (unfold inside; lia).
  rewrite E. destruct inside eqn:I; [|split; reflexivity].
  split.
  - change (firstn (N.to_nat n) src) with (slice 0 (N.to_nat n) src).
    rewrite TlmFacts.nth_slice by (unfold inside in I; lia). reflexivity.
  - rewrite (nth_indep _ 0 BE_ON) by (rewrite repeat_length; unfold inside in I; lia).
    apply nth_repeat.
Qed.
Lemma blank_length : length (fst blank) = 64%nat /\ length (snd blank) = 64%nat.
Proof. split; reflexivity. Qed.

Lemma rn_store_nth p i : (i < 64)%nat -> p_be p = [] -> p_addr p mod 64 + p_len p <= 64 ->
  let inside := (p_addr p mod 64 <=? N.of_nat i) && (N.of_nat i <? p_addr p mod 64 + p_len p) in
  nth i (fst (rn_store p)) 0 = (if inside then nth (i - N.to_nat (p_addr p mod 64)) (p_data p) 0 else 0) /\
  nth i (snd (rn_store p)) 0 = (if inside then 255 else 0).
Proof.
  intros Hi Be Hin inside. unfold rn_store. cbn [fst snd]. rewrite !nth_map_seq by exact Hi.
  rewrite line_off_mod, Be. cbn [en_at]. unfold LINE.
  replace (N.min (p_len p) (64 - p_addr p mod 64)) with (p_len p) by lia. rewrite andb_true_r.
  fold inside. split; reflexivity.
Qed.

(** *** The way back *)
Lemma filter_range (f : nat -> bool) a n k : (a + n <= k)%nat ->
  (forall i, (i < k)%nat -> f i = ((a <=? i)%nat && (i <? a + n)%nat)) ->
  length (filter f (seq 0 k)) = n.
Proof.
  intros H E. replace k with (a + (n + (k - a - n)))%nat by lia.
  rewrite seq_app, filter_app, seq_app, filter_app, !app_length. cbn [plus].
  assert (F0 : forall s l, (forall i, (s <= i < s + l)%nat -> f i = false) -> filter f (seq s l) = []).
  { intros s l; revert s. induction l as [|l IH]; intros s G; [reflexivity|].
    cbn [seq filter]. rewrite G by lia. apply IH. intros i Hi. apply G. lia. }
  assert (F1 : forall s l, (forall i, (s <= i < s + l)%nat -> f i = true) -> filter f (seq s l) = seq s l).
  { intros s l; revert s. induction l as [|l IH]; intros s G; [reflexivity|].
    cbn [seq filter]. rewrite G by lia. f_equal. apply IH. intros i Hi. apply G. lia. }
  rewrite (F0 0%nat a), (F1 a n), (F0 (a + n)%nat).
  - rewrite seq_length. cbn. lia.
  - intros i Hi. rewrite E by lia. lia.
  - intros i Hi. rewrite E by lia. lia.
  - intros i Hi. rewrite E by lia. lia.
Qed.

Lemma receive_ok d m a n md : returns d m a n -> a mod 64 + n <= 64 -> length md = 64%nat ->
  exists md', rn_receive md 0 [(0, d_data d, match d_be d with Some be => be | None => [] end)] = Ok (md', n) /\
    length md' = 64%nat /\
    forall i, (i < N.to_nat n)%nat -> nth (N.to_nat (a mod 64) + i) md' 0 = m (a + N.of_nat i).
Proof.
  intros (be & Eb & Ld & Lb & R) Hin Lm. rewrite Eb. cbn [rn_receive].
  assert (E : exists md', rn_copy md 0 (d_data d) be = Ok (md', n) /\ length md' = 64%nat /\
    forall i, (i < N.to_nat n)%nat -> nth (N.to_nat (a mod 64) + i) md' 0 = m (a + N.of_nat i)).
  { unfold rn_copy. rewrite Ld, Lb, Nat.eqb_refl. cbn [negb].
    change ((0 * N.of_nat 64) mod u32) with 0. change ((LINE + u32 - 0) mod u32) with 64.
    change (N.min (N.of_nat 64) 64) with 64. change (LINE <? 64) with false. cbn iota.
    eexists. split; [f_equal; f_equal|].
    - rewrite (filter_range _ (N.to_nat (a mod 64)) (N.to_nat n)); [lia | lia |].
      intros i Hi. destruct (R i ltac:(lia)) as [_ R2]. rewrite R2. change BE_ON with 255.
      destruct ((a mod 64 <=? N.of_nat i) && (N.of_nat i <? a mod 64 + n)) eqn:I;
        rewrite ?N.eqb_refl; cbn [N.eqb andb]; lia.
    - split; [rewrite map_length, seq_length; exact Lm|].
      intros i Hi. rewrite Lm, nth_map_seq by lia.
      destruct (R (N.to_nat (a mod 64) + i)%nat ltac:(lia)) as [R1 R2]. rewrite R1, R2.
      replace ((a mod 64 <=? N.of_nat (N.to_nat (a mod 64) + i)) &&
               (N.of_nat (N.to_nat (a mod 64) + i) <? a mod 64 + n)) with true by lia.
      replace (N.of_nat (N.to_nat (a mod 64) + i) <? 64) with true by lia.
      change (255 =? BE_ON) with true. cbn [andb]. f_equal.
      assert (Hm : a mod 64 <= a) by (apply N.mod_le; discriminate). set (r := a mod 64) in *. clearbody r. clear - Hm Hi. lia. }
  destruct E as (md' & E & L & P). rewrite E. cbn [rbind fst snd]. exists md'.
  rewrite N.add_0_l. split; [reflexivity|]. split; assumption.
Qed.

Lemma rn_read_ok p m md : pay_ok p ->
  (forall i, (i < N.to_nat (p_len p))%nat -> nth (N.to_nat (p_addr p mod 64) + i) md 0 = m (p_addr p + N.of_nat i)) ->
  rn_read p md = bytes_at m (p_addr p) (p_len p).
Proof.
  intros (Ld & Be & _ & Hin) P. apply list_nth_eq.
  - unfold rn_read, bytes_at. rewrite !map_length, !seq_length. exact Ld.
  - intros i Hi. unfold rn_read in Hi |- *. rewrite map_length, seq_length in Hi.
    unfold bytes_at. rewrite !nth_map_seq by lia. rewrite line_off_mod, Be. cbn [en_at]. unfold LINE.
    replace (N.of_nat i <? N.min (p_len p) (64 - p_addr p mod 64)) with true by lia.
    cbn [andb]. apply P. lia.
Qed.

(** With a quiet holder the home does not touch memory or the length. *)
Lemma snoop_quiet acc m p len own h j : quiet h ->
  exists h', home_snoop acc m p len own h j = Ok (m, len, h') /\ quiet h' /\
    (snoops p own = true -> h' = HNone).
Proof.
  intros Q. unfold home_snoop. destruct (snoops p own) eqn:S.
  - exists HNone. destruct Q as [-> | ->]; repeat split; left; reflexivity.
  - exists h. split; [reflexivity|]. split; [exact Q | discriminate].
Qed.

Lemma lanes_ext (l l' : list N) o o' n :
  (forall i, (i < N.to_nat n)%nat -> nth (N.to_nat o + i) l 0 = nth (N.to_nat o' + i) l' 0) ->
  lanes l o n = lanes l' o' n.
Proof.
  intros H. unfold lanes. apply map_ext_in. intros i Hi. apply in_seq in Hi. apply H. lia.
Qed.
