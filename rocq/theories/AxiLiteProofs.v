(** Proofs about the AXI-Lite bridges. *)
From Verif Require Import Base BaseFacts TlmModel TlmSpec TlmFacts AlignerModel AlignerSpec AlignerProofs AxiLiteModel.
Open Scope N_scope.

(** ** Lists *)
Lemma nth_map_seq {A} (f : nat -> A) n i d : (i < n)%nat -> nth i (map f (seq 0 n)) d = f i.
Proof.
  intro H. rewrite (nth_indep _ d (f O)) by (rewrite map_length, seq_length; exact H).
  rewrite map_nth. f_equal. apply seq_nth. exact H.
Qed.

Lemma rotate_nth {A} (d : A) k l i : (i < length l)%nat -> (k <= length l)%nat ->
  nth i (rotate d k l) d = if Nat.ltb i k then nth (i + length l - k) l d else nth (i - k) l d.
Proof.
  intros Hi Hk. unfold rotate. rewrite nth_map_seq by exact Hi.
  destruct (Nat.ltb_spec i k).
  - rewrite Nat.mod_small by lia. f_equal. lia.
  - replace (i + (length l - k))%nat with (i - k + 1 * length l)%nat by lia.
    rewrite Nat.mod_add by lia. rewrite Nat.mod_small by lia. reflexivity.
Qed.

Lemma nth_overlay p d l i : (p + length d <= length l)%nat -> (i < length l)%nat ->
  nth i (overlay p d l) 0 =
  if Nat.leb p i && Nat.ltb i (p + length d) then nth (i - p) d 0 else nth i l 0.
Proof.
  intros H Hi. unfold overlay.
  assert (Lf : length (firstn p l) = p) by (rewrite firstn_length; lia).
  destruct (Nat.leb_spec p i); cbn [andb].
  - rewrite app_nth2 by lia. rewrite Lf. destruct (Nat.ltb_spec i (p + length d)).
    + rewrite app_nth1 by lia. reflexivity.
    + rewrite app_nth2 by lia. rewrite <- (firstn_skipn (p + length d) l) at 2.
      rewrite app_nth2 by (rewrite firstn_length; lia). f_equal. rewrite firstn_length. lia.
  - rewrite app_nth1 by lia. rewrite <- (firstn_skipn p l) at 2. rewrite app_nth1 by lia. reflexivity.
Qed.

Lemma filter_map_ext {A B} (p : B -> bool) (f h : A -> B) l :
  (forall x, In x l -> p (f x) = p (h x) /\ (p (h x) = true -> f x = h x)) ->
  filter p (map f l) = filter p (map h l).
Proof.
  induction l as [|x l IH]; intro H; [reflexivity|]. cbn [map filter].
  destruct (H x (or_introl eq_refl)) as [E1 E2]. rewrite E1.
  rewrite IH by (intros y Hy; apply H; now right).
  destruct (p (h x)); [rewrite E2 by reflexivity|]; reflexivity.
Qed.
Lemma filter_none {A B} (p : B -> bool) (f : A -> B) l :
  (forall x, In x l -> p (f x) = false) -> filter p (map f l) = [].
Proof.
  induction l as [|x l IH]; intro H; [reflexivity|]. cbn [map filter].
  rewrite H by now left. apply IH. intros y Hy. apply H. now right.
Qed.

Lemma put_filter l : forall m : mem, fold_left put l m = fold_left put (filter a_en l) m.
Proof.
  induction l as [|a l IH]; intro m; [reflexivity|]. cbn [fold_left filter].
  unfold put at 2. destruct (a_en a) eqn:E; [|apply IH]. cbn [fold_left]. unfold put at 3. rewrite E. apply IH.
Qed.

(** ** One transfer inside a word of the bus *)
Section Lite.
Context (c : lcfg) (k : N).
Hypothesis bw_pow : lc_bw c = 2 ^ k.
Hypothesis k_aw : k <= lc_aw c.
Hypothesis aw_ok : lc_aw c <= 64.

Definition fits (g : gp) : Prop :=
  0 < g_len g /\ g_addr g mod lc_bw c + g_len g <= lc_bw c /\ g_len g <= g_sw g /\
  g_addr g + g_len g <= 2 ^ lc_aw c.

Lemma bw_pos : 0 < lc_bw c.
Proof. rewrite bw_pow. apply N.neq_0_lt_0, N.pow_nonzero. discriminate. Qed.
Lemma aw_u64 : 2 ^ lc_aw c <= u64.
Proof. change u64 with (2 ^ 64). apply N.pow_le_mono_r; [discriminate|exact aw_ok]. Qed.

Lemma w_len_fits g : fits g -> w_len c g = g_len g.
Proof. intros (L & O & S & _). unfold w_len, lane_off. lia. Qed.
Lemma r_len_fits g : fits g -> r_len c g = g_len g.
Proof. intros (L & O & S & _). unfold r_len, lane_off. lia. Qed.
Lemma lite_addr_fits g : fits g -> lite_addr c (g_addr g) + lane_off c g = g_addr g.
Proof.
  intros (L & O & S & A). pose proof bw_pos. unfold lite_addr, lane_off.
  rewrite (N.mod_small (g_addr g)) by lia.
  rewrite (N.mul_comm (_ / _)). symmetry. apply N.div_mod. lia.
Qed.

Lemma w_strb_nth g i : fits g -> (i < N.to_nat (lc_bw c))%nat ->
  nth i (w_strb c g) false =
  (lane_off c g <=? N.of_nat i) && (N.of_nat i <? lane_off c g + g_len g) &&
  be_at (g_be g) (N.of_nat i - lane_off c g).
Proof.
  intros F Hi. pose proof F as (L & O & S & A). fold (lane_off c g) in O.
  unfold w_strb. rewrite rotate_nth by (rewrite map_length, seq_length; lia).
  rewrite map_length, seq_length, (w_len_fits g F).
  destruct (Nat.ltb_spec i (N.to_nat (lane_off c g))).
  - rewrite nth_map_seq by lia.
    replace (N.of_nat (i + N.to_nat (lc_bw c) - N.to_nat (lane_off c g)) <? g_len g) with false
      by (symmetry; apply N.ltb_ge; lia).
    replace (lane_off c g <=? N.of_nat i) with false by (symmetry; apply N.leb_gt; lia).
    reflexivity.
  - rewrite nth_map_seq by lia.
    replace (N.of_nat (i - N.to_nat (lane_off c g))) with (N.of_nat i - lane_off c g) by lia.
    replace (lane_off c g <=? N.of_nat i) with true by (symmetry; apply N.leb_le; lia).
    cbn [andb]. f_equal. destruct (N.ltb_spec (N.of_nat i) (lane_off c g + g_len g));
      [apply N.ltb_lt|apply N.ltb_ge]; lia.
Qed.

Lemma w_data_nth g i : fits g -> (i < length (g_data g))%nat ->
  nth (N.to_nat (lane_off c g) + i) (w_data c g) 0 = nth i (g_data g) 0.
Proof.
  intros F Hi. pose proof F as (L & O & S & A). fold (lane_off c g) in O. unfold g_len in *.
  unfold w_data. rewrite (w_len_fits g F).
  rewrite firstn_all2 by (unfold g_len; lia).
  rewrite nth_overlay by (rewrite repeat_length; lia).
  replace (Nat.leb _ _) with true by (symmetry; apply Nat.leb_le; lia).
  replace (Nat.ltb _ _) with true by (symmetry; apply Nat.ltb_lt; lia).
  cbn [andb]. f_equal. lia.
Qed.

Lemma drop_be_at ws n i : (i < n)%nat ->
  be_at (drop_be (map (fill_be ws) (seq 0 n))) (N.of_nat i) = nth i ws false.
Proof.
  intro Hi. unfold drop_be. destruct (forallb _ _) eqn:E.
  - rewrite forallb_forall in E. cbn [be_at].
    assert (Hin : In (fill_be ws i) (map (fill_be ws) (seq 0 n))) by (apply in_map, in_seq; lia).
    apply E in Hin. unfold fill_be in Hin. destruct (nth i ws false); [reflexivity|discriminate Hin].
  - destruct n as [|n]; [lia|]. unfold be_at.
    destruct (map (fill_be ws) (seq 0 (Datatypes.S n))) eqn:M; [discriminate|]. rewrite <- M. clear M.
    rewrite map_length, seq_length. rewrite N.mod_small by lia. rewrite Nat2N.id.
    rewrite nth_map_seq by exact Hi. unfold fill_be. destruct (nth i ws false); reflexivity.
Qed.

(** The payload sent by the slave side asks for the same enabled bytes. *)
Lemma write_payload_same junk g : fits g ->
  filter a_en (accesses (write_payload c junk (g_addr g) (w_data c g) (w_strb c g))) =
  filter a_en (accesses g).
Proof.
  intros F. pose proof F as (L & O & S & A). fold (lane_off c g) in O. pose proof bw_pos. pose proof aw_u64.
  set (wp := write_payload _ _ _ _ _).
  assert (Ld : length (g_data wp) = N.to_nat (lc_bw c))
    by (unfold wp, write_payload; cbn [g_data]; rewrite map_length, seq_length; reflexivity).
  assert (En : forall i, (i < N.to_nat (lc_bw c))%nat -> a_en (access_at wp i) = nth i (w_strb c g) false).
  { intros i Hi. unfold access_at, wp, write_payload. cbn [a_en g_be]. apply drop_be_at. exact Hi. }
  unfold accesses at 1. rewrite Ld.
  set (o := N.to_nat (lane_off c g)). set (n := length (g_data g)).
  assert (Hon : (o + n <= N.to_nat (lc_bw c))%nat) by (unfold o, n, g_len in *; lia).
  replace (seq 0 (N.to_nat (lc_bw c))) with
    (seq 0 o ++ seq o n ++ seq (o + n) (N.to_nat (lc_bw c) - (o + n)))
    by (rewrite <- !seq_app; f_equal; lia).
  rewrite !map_app, !filter_app.
  rewrite (filter_none a_en _ (seq 0 o)).
  2:{ intros i Hi. apply in_seq in Hi. rewrite En by lia. rewrite w_strb_nth by (auto; lia).
      replace (lane_off c g <=? N.of_nat i) with false by (symmetry; apply N.leb_gt; unfold o in Hi; lia). reflexivity. }
  rewrite (filter_none a_en _ (seq (o + n) _)).
  2:{ intros i Hi. apply in_seq in Hi. rewrite En by lia. rewrite w_strb_nth by (auto; lia).
      replace (N.of_nat i <? lane_off c g + g_len g) with false
        by (symmetry; apply N.ltb_ge; unfold o, n, g_len in *; lia).
      rewrite andb_false_r. reflexivity. }
  rewrite app_nil_l, app_nil_r. unfold accesses. fold n.
  replace (seq o n) with (map (fun i => (o + i)%nat) (seq 0 n)).
  2:{ clearbody o n. clear. revert o. induction n as [|n IH]; intro o; [reflexivity|]. cbn [seq map]. rewrite Nat.add_0_r. f_equal.
      rewrite <- (IH (Datatypes.S o)). rewrite <- seq_shift, map_map. apply map_ext. intro; lia. }
  rewrite map_map. apply filter_map_ext. intros i Hi. apply in_seq in Hi.
  assert (Hws : nth (o + i) (w_strb c g) false = be_at (g_be g) (N.of_nat i)).
  { rewrite w_strb_nth by (auto; lia).
    replace (lane_off c g <=? N.of_nat (o + i)) with true by (symmetry; apply N.leb_le; unfold o; lia).
    replace (N.of_nat (o + i) <? lane_off c g + g_len g) with true
      by (symmetry; apply N.ltb_lt; unfold o, n, g_len in *; lia).
    cbn [andb]. f_equal. unfold o. lia. }
  split; [rewrite En by lia; exact Hws|].
  intro E. cbn [a_en access_at] in E.
  unfold access_at. f_equal.
  - unfold byte_addr. f_equal. unfold wp, write_payload. cbn [g_addr g_sw]. unfold stream_off.
    destruct (N.eqb_spec (lc_bw c) 0); [lia|]. destruct (N.eqb_spec (g_sw g) 0); [lia|].
    rewrite !N.mod_small by (unfold n, g_len in *; lia).
    rewrite <- (lite_addr_fits g F) at 2. unfold o. lia.
  - unfold wp, write_payload. cbn [g_be]. rewrite drop_be_at by lia. exact Hws.
  - unfold wp, write_payload. cbn [g_data]. rewrite nth_map_seq by lia. unfold fill_lane. rewrite Hws, E.
    apply w_data_nth; [exact F|lia].
Qed.

(** ** On a memory *)
Definition whole_words (bad : N -> bool) : Prop := forall x, bad x = bad (x / lc_bw c * lc_bw c).

Lemma word_end a : a < 2 ^ lc_aw c -> a / lc_bw c * lc_bw c + lc_bw c <= 2 ^ lc_aw c.
Proof.
  intro H. pose proof bw_pos.
  assert (E : 2 ^ lc_aw c = 2 ^ (lc_aw c - k) * lc_bw c).
  { rewrite bw_pow, <- N.pow_add_r. f_equal. lia. }
  rewrite E in *. rewrite <- N.mul_succ_l. apply N.mul_le_mono_r.
  apply N.le_succ_l. apply N.div_lt_upper_bound; [lia|]. rewrite N.mul_comm. exact H.
Qed.

Lemma word_bad bad g p : whole_words bad -> fits g ->
  g_addr p = lite_addr c (g_addr g) -> g_sw p = lc_bw c -> length (g_data p) = N.to_nat (lc_bw c) ->
  existsb (fun a => bad (a_addr a)) (accesses p) = existsb (fun a => bad (a_addr a)) (accesses g).
Proof.
  intros Hb F Ap Sp Lp. pose proof F as (L & O & S & A). pose proof bw_pos as B. pose proof aw_u64 as U.
  assert (Ha : g_addr g < 2 ^ lc_aw c) by lia.
  pose proof (word_end _ Ha) as W.
  set (w := g_addr g / lc_bw c * lc_bw c) in *.
  assert (Lw : lite_addr c (g_addr g) = w) by (unfold lite_addr; rewrite (N.mod_small (g_addr g)) by exact Ha; reflexivity).
  assert (In_word : forall x, x < lc_bw c -> bad (w + x) = bad w).
  { intros x Hx. rewrite (Hb (w + x)). f_equal. unfold w at 1 2.
    rewrite N.add_comm, N.div_add by lia. rewrite N.div_small by exact Hx. reflexivity. }
  assert (Ew : g_addr g = w + g_addr g mod lc_bw c) by (unfold w; rewrite N.mul_comm; apply N.div_mod; lia).
  assert (G : forall q, (forall i, (i < length (g_data q))%nat -> exists x, x < lc_bw c /\ a_addr (access_at q i) = w + x) ->
              (0 < length (g_data q))%nat -> existsb (fun a => bad (a_addr a)) (accesses q) = bad w).
  { intros q Hq Hn. destruct (existsb _ _) eqn:E.
    - apply existsb_exists in E as (a & Hi & Hbad). unfold accesses in Hi. apply in_map_iff in Hi as (i & <- & Hi).
      apply in_seq in Hi. destruct (Hq i) as (x & Hx & Ex); [lia|]. rewrite Ex, In_word in Hbad by exact Hx. now rewrite Hbad.
    - destruct (bad w) eqn:Bw; [|reflexivity]. rewrite <- E. apply existsb_exists.
      exists (access_at q 0). split.
      + unfold accesses. apply in_map. apply in_seq. lia.
      + destruct (Hq 0%nat Hn) as (x & Hx & ->). now apply In_word. }
  rewrite (G p), (G g); [reflexivity| | | | ].
  - intros i Hi. unfold access_at, byte_addr, stream_off. cbn [a_addr]. unfold g_len in *.
    destruct (N.eqb_spec (g_sw g) 0); [lia|]. rewrite (N.mod_small (N.of_nat i)) by lia.
    exists (g_addr g mod lc_bw c + N.of_nat i). split; [lia|].
    rewrite N.mod_small by lia. rewrite Ew at 1. lia.
  - unfold g_len in L. lia.
  - intros i Hi. unfold access_at, byte_addr, stream_off. cbn [a_addr]. rewrite Ap, Sp, Lw.
    destruct (N.eqb_spec (lc_bw c) 0); [lia|]. rewrite (N.mod_small (N.of_nat i)) by lia.
    exists (N.of_nat i). split; [lia|]. apply N.mod_small. lia.
  - lia.
Qed.

Lemma lite_write {S} junk (t : target S) s g : fits g -> g_cmd g = C_WRITE ->
  lite_transport c junk t s g =
  (let '(s', (_, st)) := t s (write_payload c junk (g_addr g) (w_data c g) (w_strb c g)) in
   Ok (L_Done s' (g_data g) (tlm_of_resp (resp_of_tlm st)))).
Proof.
  intros F C. pose proof F as (L & O & Sw & A). unfold lite_transport. rewrite C.
  replace (g_len g =? 0) with false by (symmetry; apply N.eqb_neq; lia).
  replace (lc_bw c <? g_len g) with false by (symmetry; apply N.ltb_ge; lia).
  replace (g_sw g =? 0) with false by (symmetry; apply N.eqb_neq; lia). reflexivity.
Qed.
Lemma lite_read {S} junk (t : target S) s g : fits g -> g_cmd g = C_READ ->
  lite_transport c junk t s g =
  (let '(s', (rd, st)) := t s (read_payload c junk (g_addr g)) in
   Ok (L_Done s' (r_copy c g rd) (tlm_of_resp (resp_of_tlm st)))).
Proof.
  intros F C. pose proof F as (L & O & Sw & A). unfold lite_transport. rewrite C.
  replace (g_len g =? 0) with false by (symmetry; apply N.eqb_neq; lia).
  replace (lc_bw c <? g_len g) with false by (symmetry; apply N.ltb_ge; lia).
  replace (g_sw g =? 0) with false by (symmetry; apply N.eqb_neq; lia).
  rewrite (r_len_fits g F), N.ltb_irrefl. reflexivity.
Qed.

(** byte [i] of a read is lane [off + i] *)
Lemma r_copy_nth g rd i : fits g -> (i < length (g_data g))%nat ->
  nth i (r_copy c g rd) 0 =
  if be_at (g_be g) (N.of_nat i) then nth (N.to_nat (lane_off c g) + i) rd 0 else nth i (g_data g) 0.
Proof.
  intros F Hi. unfold r_copy. rewrite nth_map_seq by exact Hi. rewrite (r_len_fits g F).
  replace (N.of_nat i <? g_len g) with true by (symmetry; apply N.ltb_lt; unfold g_len; lia). reflexivity.
Qed.
Lemma r_copy_length g rd : length (r_copy c g rd) = length (g_data g).
Proof. unfold r_copy. now rewrite map_length, seq_length. Qed.

Lemma read_copy junk g (m : mem) : fits g -> (N.to_nat (lc_bw c) <= length junk)%nat ->
  r_copy c g (map (get m) (accesses (read_payload c junk (g_addr g)))) = map (get m) (accesses g).
Proof.
  intros F J. pose proof F as (L & O & S & A). fold (lane_off c g) in O.
  pose proof bw_pos. pose proof aw_u64. unfold g_len in *.
  apply (nth_ext _ _ 0 0).
  { rewrite r_copy_length, map_length, accesses_length. reflexivity. }
  rewrite r_copy_length. intros i Hi. rewrite (r_copy_nth g _ i F Hi).
  assert (Lr : length (g_data (read_payload c junk (g_addr g))) = N.to_nat (lc_bw c))
    by (cbn [read_payload g_data]; rewrite firstn_length; lia).
  unfold accesses. rewrite !map_map, Lr. rewrite !nth_map_seq by lia.
  unfold get at 2. cbn [access_at a_en a_addr a_byte]. destruct (be_at (g_be g) (N.of_nat i)); [|reflexivity].
  unfold get. cbn [access_at a_en a_addr a_byte read_payload g_be be_at]. f_equal.
  unfold byte_addr. f_equal. cbn [read_payload g_addr g_sw]. unfold stream_off.
  destruct (N.eqb_spec (lc_bw c) 0); [lia|]. destruct (N.eqb_spec (g_sw g) 0); [lia|].
  rewrite !N.mod_small by lia. rewrite <- (lite_addr_fits g F) at 2. lia.
Qed.

Lemma lite_memory junk bad (m : mem) g : fits g -> whole_words bad ->
  (N.to_nat (lc_bw c) <= length junk)%nat -> g_cmd g <> C_IGNORE ->
  exists d, lite_transport c junk (atomic_memory bad) m g =
    Ok (L_Done (fst (atomic_memory bad m g)) d (snd (snd (atomic_memory bad m g)))) /\
  length d = length (g_data g) /\
  (g_cmd g = C_WRITE \/ snd (snd (atomic_memory bad m g)) = St_OK -> d = fst (snd (atomic_memory bad m g))).
Proof.
  intros F Hb J Hc.
  assert (Lr : length (g_data (read_payload c junk (g_addr g))) = N.to_nat (lc_bw c))
    by (cbn [read_payload g_data]; rewrite firstn_length; lia).
  destruct (g_cmd g) eqn:C; [| |contradiction].
  - rewrite (lite_read junk _ m g F C). unfold atomic_memory at 1.
    rewrite (word_bad bad g (read_payload c junk (g_addr g)) Hb F eq_refl eq_refl Lr).
    unfold atomic_memory. rewrite C. destruct (existsb _ (accesses g)); cbn [read_payload g_cmd fst snd].
    + exists (r_copy c g (firstn (N.to_nat (lc_bw c)) junk)). split; [reflexivity|]. split; [apply r_copy_length|].
      intros [H|H]; discriminate.
    + eexists. split; [reflexivity|]. split; [apply r_copy_length|]. intros _. apply read_copy; assumption.
  - rewrite (lite_write junk _ m g F C). unfold atomic_memory at 1.
    rewrite (word_bad bad g (write_payload c junk (g_addr g) (w_data c g) (w_strb c g)) Hb F eq_refl eq_refl)
      by (cbn [write_payload g_data]; rewrite map_length, seq_length; reflexivity).
    unfold atomic_memory. rewrite C. destruct (existsb _ (accesses g)); cbn [write_payload g_cmd fst snd].
    + exists (g_data g). auto.
    + exists (g_data g). split; [|auto]. cbn [tlm_of_resp resp_of_tlm]. do 2 f_equal.
      rewrite put_filter. symmetry. rewrite put_filter. f_equal. symmetry. exact (write_payload_same junk g F).
Qed.

(** ** Behind the aligner *)
Definition ram : target mem := atomic_memory (fun _ => false).

Lemma natural_fits g :
  limits (lite_acfg c) g -> g_addr g < u64 -> g_len g <= g_sw g ->
  Forall (fun a => a_addr a < 2 ^ lc_aw c) (accesses g) -> fits g.
Proof.
  intros ((L0 & L1) & _ & Nat) U S Fa. pose proof bw_pos as B. pose proof aw_u64 as AU.
  assert (O : g_addr g mod lc_bw c + g_len g <= lc_bw c).
  { destruct (Nat eq_refl) as [Z|(j & Z & Lj)].
    - rewrite Z, N.mod_0_l by lia. exact L1.
    - destruct (N.le_gt_cases k j) as [K|K].
      + assert (M : g_addr g mod lc_bw c = 0).
        { apply N.mod_divide in Z; [|apply N.pow_nonzero; discriminate]. apply N.mod_divide; [lia|].
          destruct Z as [z Z]. exists (z * 2 ^ (j - k)). rewrite Z, bw_pow, <- N.mul_assoc, <- N.pow_add_r. do 2 f_equal. lia. }
        rewrite M. exact L1.
      + rewrite bw_pow in *. set (a := g_addr g) in *.
        assert (Ek : 2 ^ k = 2 ^ j * 2 ^ (k - j)) by (rewrite <- N.pow_add_r; f_equal; lia).
        assert (P : 2 ^ j <> 0) by (apply N.pow_nonzero; discriminate).
        assert (Q : 2 ^ (k - j) <> 0) by (apply N.pow_nonzero; discriminate).
        rewrite Ek. rewrite N.mod_mul_r by assumption. rewrite Z, N.add_0_l.
        assert (R : a / 2 ^ j mod 2 ^ (k - j) < 2 ^ (k - j)) by (apply N.mod_lt; exact Q).
        eapply N.le_trans; [apply N.add_le_mono_l; exact Lj|].
        rewrite <- N.mul_succ_r. apply N.mul_le_mono_l. apply N.le_succ_l. exact R. }
  split; [exact L0|]. split; [exact O|]. split; [exact S|].
  assert (Hl : In (access_at g (length (g_data g) - 1)) (accesses g)).
  { unfold accesses. apply in_map. apply in_seq. unfold g_len in L0. lia. }
  rewrite Forall_forall in Fa. specialize (Fa _ Hl). cbn [access_at a_addr] in Fa.
  unfold byte_addr, stream_off in Fa. destruct (N.eqb_spec (g_sw g) 0); [lia|]. unfold g_len in *.
  rewrite (N.mod_small (N.of_nat _) (g_sw g)) in Fa by lia.
  (* the word does not wrap *)
  assert (We : g_addr g / lc_bw c * lc_bw c + lc_bw c <= u64).
  { assert (E : u64 = 2 ^ (64 - k) * lc_bw c).
    { rewrite bw_pow, <- N.pow_add_r. change u64 with (2 ^ 64). f_equal. lia. }
    rewrite E in *. rewrite <- N.mul_succ_l. apply N.mul_le_mono_r. apply N.le_succ_l.
    apply N.div_lt_upper_bound; [lia|]. rewrite N.mul_comm. exact U. }
  pose proof (N.div_mod (g_addr g) (lc_bw c)) as D. rewrite (N.mul_comm (lc_bw c)) in D.
  rewrite N.mod_small in Fa by lia. lia.
Qed.

Lemma lite_run junk : (N.to_nat (lc_bw c) <= length junk)%nat ->
  forall g0 cmd s l s' d st, cmd <> C_IGNORE -> g_sw g0 <> 0 ->
  run (limits_sw (lite_acfg c) g0) cmd (lite_target c junk ram) s l s' d st ->
  Forall (fun a => a_addr a < 2 ^ lc_aw c) l -> snd s = false ->
  s' = (writes cmd (fst s) l, false) /\ d = reads cmd (fst s) l /\ st = St_OK.
Proof.
  intros J g0 cmd s l s' d st Hc Hs R.
  assert (NS : no_streaming (lite_acfg c)).
  { exists (lite_validate c). split; [reflexivity|]. intros a n w V. unfold lite_validate in V.
    apply andb_prop in V as [_ V]. apply negb_true_iff, N.ltb_ge in V. exact V. }
  assert (Step : forall s g, limits_sw (lite_acfg c) g0 g -> g_cmd g = cmd -> snd s = false ->
            Forall (fun a => a_addr a < 2 ^ lc_aw c) (accesses g) ->
            lite_target c junk ram s g = ((writes cmd (fst s) (accesses g), false), (reads cmd (fst s) (accesses g), St_OK))).
  { intros [m b] g (Lim & U & Sw) C Hb Fa. cbn [fst snd] in *. subst b.
    assert (F : fits g) by (apply natural_fits; auto).
    destruct (lite_memory junk (fun _ => false) m g F) as (d0 & E & _ & Ed); [intro; reflexivity|exact J|congruence|].
    unfold lite_target, ram. cbn [fst snd]. rewrite E.
    pose proof (atomic_whole (fun _ => false) m g) as W.
    assert (Z : existsb (fun a => (fun _ : N => false) (a_addr a)) (accesses g) = false).
    { clear. induction (accesses g); auto. }
    rewrite (W Z) in *. cbn [fst snd] in *. rewrite Ed by (now right). rewrite C. reflexivity. }
  induction R as [s|s g rest s' d st Hp Hcm Ht Hne|s g rest s' d s'' d' st Hp Hcm Ht Hr IH]; intros Fa Hb.
  - destruct s as [m b]. cbn [fst snd] in *. subst b. destruct cmd; auto.
  - apply Forall_app in Fa as [Fa _]. rewrite (Step s g Hp Hcm Hb Fa) in Ht.
    apply (f_equal (fun p => snd (snd p))) in Ht. cbn [snd] in Ht. congruence.
  - apply Forall_app in Fa as [Fa Fr]. rewrite (Step s g Hp Hcm Hb Fa) in Ht.
    injection Ht as <- <-. destruct IH as (E1 & E2 & E3); [exact Fr|reflexivity|].
    rewrite E1, E2, E3. cbn [fst]. destruct cmd; cbn [writes reads]; rewrite ?map_app, ?fold_left_app; auto.
Qed.

Lemma lite_keeps junk bad : keeps_length (lite_target c junk (atomic_memory bad)).
Proof.
  intros [m b] g. unfold lite_target. cbn [fst snd].
  destruct (lite_transport c junk (atomic_memory bad) m g) as [o| | |] eqn:E; try reflexivity.
  unfold lite_transport in E.
  destruct ((g_len g =? 0) || (lc_bw c <? g_len g)); [apply Ok_inj in E; subst o; reflexivity|].
  destruct (g_cmd g).
  - destruct (atomic_memory bad m (read_payload c junk (g_addr g))) as [s' [rd st]].
    destruct (g_sw g =? 0); [discriminate|]. destruct (r_len c g <? g_len g); apply Ok_inj in E; subst o; apply r_copy_length.
  - destruct (g_sw g =? 0); [discriminate|].
    destruct (atomic_memory bad m (write_payload c junk (g_addr g) (w_data c g) (w_strb c g))) as [s' [rd st]].
    apply Ok_inj in E; subst o; reflexivity.
  - destruct (g_sw g =? 0); [discriminate|].
    destruct (atomic_memory bad m (write_payload c junk (g_addr g) (w_data c g) (w_strb c g))) as [s' [rd st]].
    apply Ok_inj in E; subst o; reflexivity.
Qed.

Lemma lite_aligned_ram junk (m : mem) g : (N.to_nat (lc_bw c) <= length junk)%nat ->
  gp_ok g -> 0 < g_len g -> g_sw g <> 0 -> g_cmd g <> C_IGNORE ->
  Forall (fun a => a_addr a < 2 ^ lc_aw c) (accesses g) ->
  lite_aligned c junk ram m g = Ok ((fst (ram m g), false), snd (ram m g)).
Proof.
  intros J G L S C Fa.
  assert (Us : usable (lite_acfg c)).
  { pose proof bw_pos. unfold usable, lite_acfg. cbn [ac_bus ac_max ac_bound]. lia. }
  destruct (align_run_sw (lite_acfg c) (lite_target c junk ram) g (m, false) Us G L (lite_keeps junk _))
    as (s' & d & st & E & R).
  destruct (lite_run junk J g (g_cmd g) _ _ _ _ _ C S R Fa eq_refl) as (E1 & E2 & E3).
  unfold lite_aligned. rewrite E, E1, E2, E3. cbn [fst]. unfold ram.
  rewrite atomic_whole; [reflexivity|]. clear. induction (accesses g); auto.
Qed.
End Lite.
