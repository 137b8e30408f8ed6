From Verif Require Import Base BaseFacts TlmModel TlmSpec TlmFacts WrapModel WrapSpec.
From Coq Require Import Permutation.
Open Scope N_scope.

Lemma window_length (b : list N) o bl :
  bl = N.of_nat (length b) -> o <= bl ->
  length (slice (N.to_nat o) (N.to_nat bl) (b ++ b)) = length b.
Proof. intros -> H. rewrite slice_length; [lia|]. rewrite app_length. lia. Qed.

Lemma be_window_raw g o j :
  be_at (if g_be_len g =? 0 then None
         else Some (slice (N.to_nat (o mod g_be_len g)) (N.to_nat (g_be_len g))
                      (match g_be g with None => [] | Some b => b ++ b end))) j
  = be_at (g_be g) (o + j).
Proof. apply be_window. reflexivity. Qed.

Lemma stream_off_id g j : not_streaming g -> j < g_len g -> stream_off (g_sw g) j = j.
Proof.
  intros [H|H] Hj; unfold stream_off.
  - rewrite H. reflexivity.
  - destruct (g_sw g =? 0); [reflexivity|]. apply N.mod_small.
    eapply N.lt_le_trans; eauto.
Qed.

Section Geometry.
  Variable g : gp.
  Hypothesis Hl : 0 < g_len g.

  Let len := g_len g.
  Let base := wrap_base g.
  Let pos := g_addr g - base.

  Lemma base_le : base <= g_addr g.
  Proof. unfold base, wrap_base. rewrite N.mul_comm. apply N.mul_div_le. lia. Qed.

  Lemma pos_mod : pos = g_addr g mod len.
  Proof.
    unfold pos, base, wrap_base, len. rewrite N.mod_eq by lia. rewrite N.mul_comm. reflexivity.
  Qed.

  Lemma pos_lt : pos < len.
  Proof. rewrite pos_mod. apply N.mod_lt. unfold len. lia. Qed.

  Lemma addr_split : g_addr g = base + pos.
  Proof. pose proof base_le. unfold pos. lia. Qed.
End Geometry.

Lemma firstn_length_le' (l : list N) n : n <= N.of_nat (length l) ->
  length (firstn (N.to_nat n) l) = N.to_nat n.
Proof. intros H. apply firstn_length_le. lia. Qed.

Lemma slice0 n (l : list N) : slice 0 n l = firstn n l.
Proof. reflexivity. Qed.

Lemma nth_skipn (l : list N) : forall p i, nth i (skipn p l) 0 = nth (p + i) l 0.
Proof.
  induction l as [|x l IH]; intros [|p] i; cbn [skipn Nat.add]; auto.
  - now destruct i.
  - cbn [nth]. apply IH.
Qed.

Lemma wrap_first g st b :
  not_streaming g -> 0 < g_len g -> g_len g < u32 ->
  (forall j, be_at b j = be_at (g_be g) j) ->
  let pos := g_addr g - wrap_base g in
  accesses (mkGp (g_cmd g) (g_addr g) (firstn (N.to_nat (g_len g - pos)) (g_data g)) b (g_sw g) st)
  = map (wrap_access_at g) (seq 0 (N.to_nat (g_len g - pos))).
Proof.
  intros Hs H0 H32 Hb pos. unfold accesses. cbn [g_data].
  rewrite firstn_length_le' by (unfold g_len; lia).
  pose proof (pos_lt g H0) as Hp. fold pos in Hp.
  pose proof (addr_split g H0) as Ha. fold pos in Ha.
  apply map_ext_in. intros i Hi. apply in_seq in Hi. cbn [Nat.add] in Hi.
  unfold access_at, wrap_access_at. cbn [g_data g_be]. f_equal.
  - unfold byte_addr. cbn [g_addr g_sw].
    rewrite stream_off_id by (auto; lia). fold pos.
    rewrite (N.mod_small (pos + N.of_nat i)) by lia. f_equal. lia.
  - apply Hb.
  - rewrite <- (slice0 _ (g_data g)), nth_slice by lia. reflexivity.
Qed.

Lemma wrap_second g st b :
  not_streaming g -> 0 < g_len g -> g_len g < u32 ->
  let pos := g_addr g - wrap_base g in
  (forall j, be_at b j = be_at (g_be g) (g_len g - pos + j)) ->
  accesses (mkGp (g_cmd g) (wrap_base g) (skipn (N.to_nat (g_len g - pos)) (g_data g)) b (g_sw g) st)
  = map (wrap_access_at g) (seq (N.to_nat (g_len g - pos)) (N.to_nat pos)).
Proof.
  intros Hs H0 H32 pos Hb. unfold accesses. cbn [g_data].
  pose proof (pos_lt g H0) as Hp. fold pos in Hp.
  replace (length (skipn (N.to_nat (g_len g - pos)) (g_data g))) with (N.to_nat pos)
    by (rewrite skipn_length; unfold g_len in *; lia).
  apply map_seq_shift. intros i Hi.
  unfold access_at, wrap_access_at. cbn [g_data g_be]. f_equal.
  - unfold byte_addr. cbn [g_addr g_sw].
    rewrite stream_off_id by (auto; lia). fold pos.
    replace (pos + N.of_nat (N.to_nat (g_len g - pos) + i)) with (N.of_nat i + 1 * g_len g) by lia.
    rewrite N.mod_add by lia. rewrite (N.mod_small (N.of_nat i)) by lia. reflexivity.
  - rewrite Hb. f_equal. lia.
  - apply nth_skipn.
Qed.

Lemma be_at_raw g j :
  be_at (if g_be_len g =? 0 then None
         else Some (slice (N.to_nat 0) (N.to_nat (g_be_len g))
                      (match g_be g with None => [] | Some b => b ++ b end))) j
  = be_at (g_be g) j.
Proof.
  change (be_at (g_be g) j) with (be_at (g_be g) (0 + j)). rewrite <- (be_window_raw g 0 j).
  destruct (N.eqb_spec (g_be_len g) 0) as [H|H]; [reflexivity|].
  rewrite N.mod_0_l by exact H. reflexivity.
Qed.

Theorem we_run {S} two (t : bool -> target S) g s :
  gp_ok g -> 0 < g_len g -> not_streaming g -> keeps_length (t true) ->
  two = true \/ g_addr g mod g_len g = 0 ->
  exists s' d' st',
    we_transport two t s true g = Ok (s', (d', st')) /\
    run (fun _ => True) (g_cmd g) (t true) s (wrap_accesses g) s' d' st'.
Proof.
  intros [Ha [Hl32 [Hsw Hbe]]] H0 Hs Ht Hm.
  pose proof (pos_lt g H0) as Hp. pose proof (pos_mod g H0) as Hpm.
  unfold we_transport. cbn [negb].
  replace (g_len g =? 0) with false by (symmetry; apply N.eqb_neq; lia).
  fold (wrap_base g).
  set (pos := g_addr g - wrap_base g) in *.
  rewrite (N.mod_small pos) by lia.
  destruct (N.eqb_spec pos 0) as [Ez|Ez].
  - rewrite andb_false_r.
    set (g' := mkGp _ _ _ _ _ _).
    assert (E : accesses g' = wrap_accesses g).
    { unfold g'. pose proof (addr_split g H0) as Hsp. fold pos in Hsp.
      rewrite Ez, N.add_0_r in Hsp. rewrite <- Hsp.
      pose proof (wrap_first g (g_status g) (g_be g) Hs H0 Hl32 (fun _ => eq_refl)) as W.
      cbn zeta in W. fold pos in W. rewrite Ez, N.sub_0_r in W.
      rewrite firstn_all2 in W by (unfold g_len; lia). rewrite W.
      unfold wrap_accesses. do 2 f_equal. unfold g_len. apply Nat2N.id. }
    destruct (t true s g') as [s1 [d1 st1]] eqn:Et. exists s1, d1, st1. split; [reflexivity|].
    rewrite <- E, <- (app_nil_r (accesses g')), <- (app_nil_r d1).
    destruct (status_eqb st1 St_OK) eqn:Es.
    + replace st1 with St_OK in * by (destruct st1; try discriminate; reflexivity).
      eapply run_step; eauto. constructor.
    + eapply (run_fail _ _ _ _ _ []); eauto. intros ->; discriminate.
  - destruct Hm as [->|Hm]; [|rewrite Hpm in Ez; contradiction]. cbn [andb negb].
    set (g1 := mkGp _ (g_addr g) _ _ _ _). set (g2 := mkGp _ (wrap_base g) _ _ _ _).
    assert (E1 : accesses g1 = map (wrap_access_at g) (seq 0 (N.to_nat (g_len g - pos)))).
    { apply (wrap_first g); auto. intros j. apply be_at_raw. }
    assert (E2 : accesses g2 = map (wrap_access_at g) (seq (N.to_nat (g_len g - pos)) (N.to_nat pos))).
    { apply (wrap_second g); auto. intros j. apply be_window_raw. }
    assert (E : wrap_accesses g = accesses g1 ++ accesses g2).
    { unfold wrap_accesses. rewrite E1, E2, <- map_app. f_equal.
      replace (length (g_data g)) with (N.to_nat (g_len g - pos) + N.to_nat pos)%nat
        by (unfold g_len in *; lia).
      rewrite seq_app. reflexivity. }
    rewrite E. destruct (t true s g1) as [s1 [d1 st1]] eqn:Et.
    assert (Fail : st1 <> St_OK -> exists s' d' st',
      Ok (s1, (d1 ++ skipn (N.to_nat (g_len g - pos)) (g_data g), st1)) = Ok (s', (d', st')) /\
      run (fun _ => True) (g_cmd g) (t true) s (accesses g1 ++ accesses g2) s' d' st').
    { intros Hne. eexists _, _, _. split; cycle 1.
      - eapply run_fail; [exact I|reflexivity|exact Et|exact Hne].
      - rewrite map_abyte_accesses. reflexivity. }
    destruct st1; try (apply Fail; discriminate). clear Fail.
    destruct (t true s1 g2) as [s2 [d2 st2]] eqn:Et2.
    exists s2, (d1 ++ d2), st2. split; [reflexivity|].
    eapply run_step; [exact I|reflexivity|exact Et|].
    rewrite <- (app_nil_r (accesses g2)), <- (app_nil_r d2).
    destruct (status_eqb st2 St_OK) eqn:Es.
    + replace st2 with St_OK in * by (destruct st2; try discriminate; reflexivity).
      eapply run_step; eauto. constructor.
    + eapply (run_fail _ _ _ _ _ []); eauto. intros ->; discriminate.
Qed.

(** The addresses of a wrapping burst are those of the aligned block. *)
Lemma wrap_addresses g :
  0 < g_len g -> wrap_base g + g_len g <= u64 ->
  Permutation (map a_addr (wrap_accesses g))
              (map (fun i => wrap_base g + N.of_nat i) (seq 0 (length (g_data g)))).
Proof.
  intros H0 Hu. pose proof (pos_lt g H0) as Hp.
  unfold wrap_accesses. rewrite map_map. cbn [a_addr wrap_access_at].
  set (pos := g_addr g - wrap_base g) in *. set (n := length (g_data g)).
  assert (Hn : g_len g = N.of_nat n) by reflexivity.
  set (k := N.to_nat (g_len g - pos)).
  replace (seq 0 n) with (seq 0 k ++ seq k (N.to_nat pos)) at 1
    by (rewrite <- seq_app; f_equal; unfold k; lia).
  replace (seq 0 n) with (seq 0 (N.to_nat pos) ++ seq (N.to_nat pos) k)
    by (rewrite <- seq_app; f_equal; unfold k; lia).
  rewrite !map_app, Permutation_app_comm. apply Permutation_app; apply Permutation_refl'.
  - symmetry. apply map_seq_shift. intros i Hi.
    replace (pos + N.of_nat (k + i)) with (N.of_nat i + 1 * g_len g) by (unfold k; lia).
    rewrite N.mod_add by lia. rewrite (N.mod_small (N.of_nat i)) by lia.
    symmetry. apply N.mod_small. lia.
  - apply map_seq_shift. intros i Hi.
    rewrite (N.mod_small (pos + N.of_nat i)) by (unfold k in Hi; lia).
    rewrite N.mod_small by (unfold k in Hi; lia). lia.
Qed.
