(** Facts about payload accesses and forwarding runs, used by several modules. *)
From Verif Require Import Base BaseFacts TlmModel TlmSpec.
Open Scope N_scope.

Lemma map_seq_shift {A} (f h : nat -> A) p n :
  (forall i, (i < n)%nat -> f i = h (p + i)%nat) ->
  map f (seq 0 n) = map h (seq p n).
Proof.
  intros H. replace (seq p n) with (map (fun i => (p + i)%nat) (seq 0 n)).
  - rewrite map_map. apply map_ext_in. intros i Hi. apply in_seq in Hi. apply H. lia.
  - clear H. assert (G : forall q, map (fun i => (p + i)%nat) (seq q n) = seq (p + q) n).
    { induction n as [|n IH]; intros q; cbn [seq map]; [reflexivity|].
      f_equal. rewrite IH. f_equal. lia. }
    rewrite G. f_equal. lia.
Qed.

Lemma accesses_length g : length (accesses g) = length (g_data g).
Proof. unfold accesses. rewrite map_length, seq_length. reflexivity. Qed.

Lemma nth_slice p n l i :
  (i < n)%nat -> nth i (slice p n l) 0 = nth (p + i) l 0.
Proof.
  intros H. unfold slice.
  revert l. induction p as [|p IH]; intros l; cbn [skipn Nat.add].
  - revert i n H. induction l as [|x l IHl]; intros i n H.
    + rewrite firstn_nil. reflexivity.
    + destruct n as [|n]; [lia|]. destruct i as [|i]; [reflexivity|].
      cbn [firstn nth]. apply IHl. lia.
  - destruct l as [|x l].
    + rewrite firstn_nil. destruct i; reflexivity.
    + apply IH.
Qed.

Lemma map_abyte_accesses g : map a_byte (accesses g) = g_data g.
Proof.
  unfold accesses. rewrite map_map. cbn [a_byte access_at].
  generalize (g_data g) as l. induction l as [|x l IH]; [reflexivity|].
  cbn [length seq map nth]. f_equal.
  rewrite <- IH at 2. rewrite <- seq_shift, map_map. reflexivity.
Qed.

Lemma map_abyte_tail g p :
  map a_byte (map (access_at g) (seq p (length (g_data g) - p))) = skipn p (g_data g).
Proof.
  rewrite <- (map_abyte_accesses g) at 2. unfold accesses.
  destruct (Nat.le_gt_cases p (length (g_data g))) as [H|H].
  - replace (length (g_data g)) with (p + (length (g_data g) - p))%nat at 2 by lia.
    rewrite seq_app, !map_app, Nat.add_0_l.
    rewrite skipn_app, skipn_all2 by (rewrite !map_length, seq_length; lia).
    rewrite !map_length, seq_length, Nat.sub_diag. reflexivity.
  - replace (length (g_data g) - p)%nat with O by lia.
    rewrite skipn_all2 by (rewrite !map_length, seq_length; lia). reflexivity.
Qed.

Lemma be_window (be : option (list N)) bl p j :
  bl = match be with None => 0 | Some b => N.of_nat (length b) end ->
  be_at (if bl =? 0 then None
         else Some (slice (N.to_nat (p mod bl)) (N.to_nat bl)
                      (match be with None => [] | Some b => b ++ b end))) j
  = be_at be (p + j).
Proof.
  intros ->. destruct be as [b|]; [|reflexivity].
  destruct b as [|x b']; [reflexivity|].
  set (b := x :: b') in *. assert (Hb : (0 < length b)%nat) by (unfold b; cbn; lia).
  set (n := N.of_nat (length b)).
  assert (Hn : 0 < n) by (unfold n; lia).
  replace (n =? 0) with false by (symmetry; apply N.eqb_neq; lia).
  assert (Hm : p mod n < n) by (apply N.mod_lt; lia).
  assert (Hj : j mod n < n) by (apply N.mod_lt; lia).
  set (w := slice (N.to_nat (p mod n)) (N.to_nat n) (b ++ b)).
  assert (Hw : length w = length b).
  { unfold w. rewrite slice_length; [unfold n; lia|]. rewrite app_length. lia. }
  assert (E : be_at (Some w) j = (nth (N.to_nat (j mod N.of_nat (length w))) w 0 =? BE_ON)).
  { unfold be_at. destruct w; [cbn in Hw; lia|reflexivity]. }
  rewrite E, Hw. fold n. unfold be_at. unfold b at 1. fold b.
  change (N.of_nat (length b)) with n. f_equal.
  unfold w. rewrite nth_slice by lia.
  rewrite <- N.add_mod_idemp_l, <- N.add_mod_idemp_r by lia.
  set (u := p mod n) in *. set (v := j mod n) in *.
  destruct (N.lt_ge_cases (u + v) n) as [L|L].
  - rewrite N.mod_small by exact L. rewrite app_nth1 by lia. f_equal. lia.
  - replace (u + v) with ((u + v - n) + 1 * n) by lia.
    rewrite N.mod_add by lia. rewrite N.mod_small by lia.
    rewrite app_nth2 by lia. f_equal. lia.
Qed.

(** ** Composition of runs *)
Lemma serial_length {S} (f : byte_step S) l : forall s c s' d e,
  serial f s c l = (s', d, e) -> length d = length l.
Proof.
  induction l as [|a l IH]; intros s c s' d e H; cbn [serial] in H.
  - injection H as <- <- <-. reflexivity.
  - destruct (f s c a) as [[s1 b] [e1|]].
    + injection H as <- <- <-. cbn. rewrite map_length. reflexivity.
    + destruct (serial f s1 c l) as [[s2 d2] e2] eqn:E.
      injection H as <- <- <-. cbn. f_equal. eapply IH; eauto.
Qed.

Lemma serial_app_ok {S} (f : byte_step S) l1 l2 : forall s c s' d,
  serial f s c l1 = (s', d, None) ->
  serial f s c (l1 ++ l2) =
    (let '(s'', d', e) := serial f s' c l2 in (s'', d ++ d', e)).
Proof.
  induction l1 as [|a l IH]; intros s c s' d H; cbn [serial app] in *.
  - injection H as <- <-. destruct (serial f s c l2) as [[? ?] ?]; reflexivity.
  - destruct (f s c a) as [[s1 b] [e1|]]; [discriminate|].
    destruct (serial f s1 c l) as [[s2 d2] e2] eqn:E.
    injection H as <- <- ->. rewrite (IH _ _ _ _ E).
    destruct (serial f s2 c l2) as [[? ?] ?]; reflexivity.
Qed.

Lemma serial_app_err {S} (f : byte_step S) l1 l2 : forall s c s' d e,
  serial f s c l1 = (s', d, Some e) ->
  serial f s c (l1 ++ l2) = (s', d ++ map a_byte l2, Some e).
Proof.
  induction l1 as [|a l IH]; intros s c s' d e H; cbn [serial app] in *.
  - discriminate.
  - destruct (f s c a) as [[s1 b] [e1|]].
    + injection H as <- <- <-. cbn. rewrite map_app. reflexivity.
    + destruct (serial f s1 c l) as [[s2 d2] e2] eqn:E.
      injection H as <- <- ->. rewrite (IH _ _ _ _ _ E). reflexivity.
Qed.

Lemma serial_no_ok {S} (f : byte_step S) l : errors_are_errors f -> forall s c s' d,
  serial f s c l <> (s', d, Some St_OK).
Proof.
  intros Hf. induction l as [|a l IH]; intros s c s' d H; cbn [serial] in H; [discriminate|].
  destruct (f s c a) as [[s1 b] [e1|]] eqn:F.
  - injection H as <- <- ->. eapply Hf; eauto.
  - destruct (serial f s1 c l) as [[s2 d2] e2] eqn:E. injection H as <- <- ->.
    eapply IH; eauto.
Qed.

Lemma serial_keeps_length {S} (f : byte_step S) : keeps_length (serial_target f).
Proof.
  intros s g. unfold serial_target.
  destruct (serial f s (g_cmd g) (accesses g)) as [[s' d] e] eqn:E. cbn.
  rewrite (serial_length _ _ _ _ _ _ _ E). apply accesses_length.
Qed.

Theorem run_serial {S} P c (f : byte_step S) s l s' d st :
  errors_are_errors f ->
  run P c (serial_target f) s l s' d st ->
  exists e, serial f s c l = (s', d, e) /\ st = status_of e.
Proof.
  intros Hf. induction 1 as [s|s g rest s' d st Hp Hc Ht Hne|s g rest s' d s'' d' st Hp Hc Ht Hr [e [IH Hst]]].
  - exists None. auto.
  - unfold serial_target in Ht. rewrite Hc in Ht.
    destruct (serial f s c (accesses g)) as [[s1 d1] e1] eqn:E.
    injection Ht as <- <- <-. destruct e1 as [e1|]; [|exfalso; apply Hne; reflexivity].
    exists (Some e1). split; [|reflexivity]. apply serial_app_err, E.
  - unfold serial_target in Ht. rewrite Hc in Ht.
    destruct (serial f s c (accesses g)) as [[s1 d1] e1] eqn:E.
    injection Ht as <- <- E1. destruct e1 as [e1|].
    { cbn in E1. subst e1. exfalso. eapply serial_no_ok; eauto. }
    exists e. split; [|exact Hst]. rewrite (serial_app_ok _ _ _ _ _ _ _ E), IH. reflexivity.
Qed.

Lemma recording_keeps_length {S} (t : target S) :
  keeps_length t -> keeps_length (recording t).
Proof.
  intros H [s l] g. unfold recording. cbn [fst snd].
  specialize (H s g). destruct (t s g) as [s' [d st]]. exact H.
Qed.

Theorem run_recording {S} P c (t : target S) s0 l s1 d st :
  run P c (recording t) s0 l s1 d st ->
  exists log, snd s1 = snd s0 ++ log /\ delivered P c l st log /\ run P c t (fst s0) l (fst s1) d st.
Proof.
  induction 1 as [s|s g rest s' d st Hp Hc Ht Hne|s g rest s' d s'' d' st Hp Hc Ht Hr [log [IHl [IHd IHr]]]].
  - exists []. rewrite app_nil_r. repeat split; auto; try constructor.
    intros H; exfalso; apply H; reflexivity.
  - unfold recording in Ht. destruct (t (fst s) g) as [s1 [d1 st1]] eqn:E.
    injection Ht as <- <- <-. exists [(g, st1)]. cbn [fst snd].
    split; [reflexivity|]. split; [|eapply run_fail; eauto].
    split; [repeat constructor; auto|]. split; [intros ->; congruence|].
    intros _. exists [], g, rest. cbn. rewrite app_nil_r. repeat split; constructor.
  - unfold recording in Ht. destruct (t (fst s) g) as [s1 [d1 st1]] eqn:E.
    injection Ht as <- <- ->. cbn [fst snd] in *. exists ((g, St_OK) :: log).
    split; [rewrite IHl, <- app_assoc; reflexivity|].
    split; [|eapply run_step; eauto].
    destruct IHd as [D1 [D2 D3]]. split; [constructor; auto|]. split.
    + intros Hs. destruct (D2 Hs) as [D4 D5]. cbn [map concat fst]. rewrite D4.
      split; [reflexivity|]. constructor; auto.
    + intros Hs. destruct (D3 Hs) as [before [last [r [-> [D5 D6]]]]].
      exists ((g, St_OK) :: before), last, r. cbn [app map concat fst].
      split; [reflexivity|]. split; [constructor; auto|].
      rewrite <- app_assoc. f_equal. exact D6.
Qed.

(** ** The all-or-nothing memory *)
Lemma atomic_keeps_length bad : keeps_length (atomic_memory bad).
Proof.
  intros m g. unfold atomic_memory. destruct existsb; [reflexivity|].
  destruct (g_cmd g); cbn; auto. rewrite map_length. apply accesses_length.
Qed.

Definition reads (c : command) (m : mem) (l : list access) : list N :=
  match c with C_READ => map (get m) l | _ => map a_byte l end.
Definition writes (c : command) (m : mem) (l : list access) : mem :=
  match c with C_WRITE => fold_left put l m | _ => m end.

Theorem run_atomic P c bad m l m' d st :
  run P c (atomic_memory bad) m l m' d st ->
  exists n, (n <= length l)%nat /\
    existsb (fun a => bad (a_addr a)) (firstn n l) = false /\
    m' = writes c m (firstn n l) /\
    d = reads c m (firstn n l) ++ map a_byte (skipn n l) /\
    (st = St_OK -> n = length l) /\
    (st <> St_OK -> st = St_ADDRESS /\ existsb (fun a => bad (a_addr a)) l = true).
Proof.
  induction 1 as [m|m g rest m' d st Hp Hc Ht Hne|m g rest m' d m'' d' st Hp Hc Ht Hr
                  [n [H1 [H2 [H3 [H4 [H5 H6]]]]]]].
  - exists O. cbn. repeat split; auto; destruct c; auto; congruence.
  - unfold atomic_memory in Ht.
    destruct (existsb _ (accesses g)) eqn:E.
    + injection Ht as <- <- <-. exists O. cbn [firstn skipn length].
      rewrite map_app, map_abyte_accesses.
      repeat split; auto; try lia; try (destruct c; reflexivity).
      * congruence.
      * rewrite existsb_app, E. reflexivity.
    + exfalso. destruct (g_cmd g); injection Ht as <- <- <-; congruence.
  - unfold atomic_memory in Ht. rewrite Hc in Ht.
    destruct (existsb _ (accesses g)) eqn:E; [discriminate|].
    exists (length (accesses g) + n)%nat.
    assert (F : firstn (length (accesses g) + n) (accesses g ++ rest) = accesses g ++ firstn n rest).
    { rewrite firstn_app_2. reflexivity. }
    assert (K : skipn (length (accesses g) + n) (accesses g ++ rest) = skipn n rest).
    { rewrite skipn_app. rewrite skipn_all2 by lia. cbn. f_equal. lia. }
    rewrite F, K, app_length, !existsb_app, E, H2. cbn [orb].
    split; [lia|]. split; [reflexivity|].
    assert (Hm : m' = writes c m (accesses g) /\ d = reads c m (accesses g)).
    { destruct c; injection Ht as <- <-; cbn; auto using eq_sym, map_abyte_accesses. }
    destruct Hm as [-> ->].
    split. { rewrite H3. destruct c; cbn; auto. rewrite fold_left_app. reflexivity. }
    split. { rewrite H4. destruct c; cbn; rewrite ?map_app, app_assoc; reflexivity. }
    split; [intros Hs; rewrite (H5 Hs); reflexivity|exact H6].
Qed.

Lemma run_weaken {S} (P Q : gp -> Prop) c (t : target S) s l s' d st :
  (forall g, P g -> Q g) -> run P c t s l s' d st -> run Q c t s l s' d st.
Proof. intros H. induction 1; [constructor|eapply run_fail; eauto|eapply run_step; eauto]. Qed.

Lemma atomic_whole bad m g :
  existsb (fun a => bad (a_addr a)) (accesses g) = false ->
  atomic_memory bad m g =
    (writes (g_cmd g) m (accesses g), (reads (g_cmd g) m (accesses g), St_OK)).
Proof.
  intros H. unfold atomic_memory. rewrite H.
  destruct (g_cmd g); cbn; rewrite ?map_abyte_accesses; reflexivity.
Qed.

(** ** Plain payloads: no byte enables, no streaming, inside the address space *)
Definition plain_at (g : gp) (n : N) : Prop :=
  g_be g = None /\ g_sw g = n /\ g_len g = n /\ g_addr g + n <= u64.

Lemma plain_access g n i : plain_at g n -> (i < length (g_data g))%nat ->
  access_at g i = mkAcc (g_addr g + N.of_nat i) true (nth i (g_data g) 0).
Proof.
  intros [Hb [Hs [Hl Hu]]] Hi. unfold access_at, byte_addr, stream_off.
  rewrite Hb, Hs. unfold g_len in Hl. destruct (N.eqb_spec n 0); [lia|].
  rewrite (N.mod_small (N.of_nat i)) by lia. rewrite N.mod_small by lia. reflexivity.
Qed.

Lemma plain_accesses g n : plain_at g n ->
  accesses g = map (fun i => mkAcc (g_addr g + N.of_nat i) true (nth i (g_data g) 0))
                   (seq 0 (length (g_data g))).
Proof.
  intros H. unfold accesses. apply map_ext_in. intros i Hi. apply in_seq in Hi.
  apply (plain_access g n); [exact H|lia].
Qed.

Lemma plain_reads g n m : plain_at g n ->
  map (get m) (accesses g) = map (fun i => m (g_addr g + N.of_nat i)) (seq 0 (length (g_data g))).
Proof. intros H. rewrite (plain_accesses g n H), map_map. reflexivity. Qed.

Lemma put_seq a (h : nat -> N) m k : forall n x,
  fold_left put (map (fun i => mkAcc (a + N.of_nat i) true (h i)) (seq k n)) m x =
  if (a + N.of_nat k <=? x) && (x <? a + N.of_nat k + N.of_nat n) then h (N.to_nat (x - a)) else m x.
Proof.
  intros n x. induction n as [|n IH].
  - cbn [seq map fold_left]. destruct ((a + N.of_nat k <=? x) && (x <? a + N.of_nat k + N.of_nat 0)) eqn:E; [lia|reflexivity].
  - rewrite seq_S, map_app, fold_left_app. cbn [map fold_left]. unfold put at 1. cbn [a_en a_addr a_byte].
    unfold upd. rewrite IH. clear IH.
    destruct (N.eqb_spec x (a + N.of_nat (k + n))) as [->|Hx].
    + replace ((a + N.of_nat k <=? a + N.of_nat (k + n)) && (a + N.of_nat (k + n) <? a + N.of_nat k + N.of_nat (S n)))
        with true by lia. f_equal. lia.
    + replace (x <? a + N.of_nat k + N.of_nat (S n)) with (x <? a + N.of_nat k + N.of_nat n) by lia. reflexivity.
Qed.

Lemma plain_writes g n m x : plain_at g n ->
  fold_left put (accesses g) m x =
  if (g_addr g <=? x) && (x <? g_addr g + n) then nth (N.to_nat (x - g_addr g)) (g_data g) 0 else m x.
Proof.
  intros H. rewrite (plain_accesses g n H), put_seq. destruct H as [_ [_ [Hl _]]]. unfold g_len in Hl.
  rewrite Hl. change (N.of_nat 0) with 0. rewrite N.add_0_r. reflexivity.
Qed.

Lemma plain_bad g n bad : plain_at g n ->
  (forall x, g_addr g <= x < g_addr g + n -> bad x = false) ->
  existsb (fun a => bad (a_addr a)) (accesses g) = false.
Proof.
  intros H Hb. rewrite (plain_accesses g n H). destruct H as [_ [_ [Hl _]]]. unfold g_len in Hl.
  destruct (existsb _ _) eqn:E; [|reflexivity]. apply existsb_exists in E.
  destruct E as [a [Hi Ha]]. apply in_map_iff in Hi. destruct Hi as [i [<- Hi]]. apply in_seq in Hi.
  cbn [a_addr] in Ha. rewrite Hb in Ha by lia. discriminate.
Qed.
