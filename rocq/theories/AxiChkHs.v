(** Lemmas about axi_handshakes_checker for AXI4: its counters are the amounts
    due, its waits are the cycles waited. *)
From Coq Require Import NArith ZArith List Bool Lia.
From Verif Require Import Base AxiChkModel AxiChkSpec AxiChkRead AxiChkWrite.
Import ListNotations.
Local Open Scope N_scope.

(** ** One channel *)
Section Chan.
Context {A : Type} (max : N) (name : which) (ch : cyc -> chan A) (exp : list cyc -> bool).
Hypothesis Hmax : 0 < max < 2 ^ 32.

Definition waiting (h : list cyc) : bool :=
  match rev h with
  | [] => false
  | c :: _ => c_valid (ch c) && negb (c_ready (ch c))
  end.

Lemma waiting_snoc h c : waiting (h ++ [c]) = c_valid (ch c) && negb (c_ready (ch c)).
Proof. unfold waiting. rewrite rev_unit. reflexivity. Qed.

Lemma after_snoc h c : after_transfer ch (h ++ [c]) =
  if c_valid (ch c) && c_ready (ch c) then [] else after_transfer ch h ++ [c].
Proof. unfold after_transfer. rewrite fold_left_app. reflexivity. Qed.

Lemma stalled_snoc h c : stalled ch (h ++ [c]) =
  if c_valid (ch c) && c_ready (ch c) then O
  else (stalled ch h + (if c_valid (ch c) then 1 else 0))%nat.
Proof.
  unfold stalled. rewrite after_snoc. destruct (c_valid (ch c) && c_ready (ch c)); [reflexivity|].
  rewrite filter_app, app_length. cbn [filter]. destruct (c_valid (ch c)); reflexivity.
Qed.

Lemma absent_snoc h c : absent ch exp (h ++ [c]) =
  if c_valid (ch c) && c_ready (ch c) then O
  else (absent ch exp h + (if negb (c_valid (ch c)) && exp h then 1 else 0))%nat.
Proof.
  unfold absent. rewrite rev_unit. cbn [absent_rev]. rewrite rev_involutive.
  destruct (c_valid (ch c) && c_ready (ch c)); [reflexivity|]. apply Nat.add_comm.
Qed.

Definition step_ok (h : list cyc) (c : cyc) : Prop :=
  (waiting h = true -> c_valid (ch c) = true) /\
  N.of_nat (stalled ch (h ++ [c])) < max /\ N.of_nat (absent ch exp (h ++ [c])) < max.

Definition hm_inv (h : list cyc) (m : hm) : Prop :=
  h_valid m = N.of_nat (absent ch exp h) /\ h_ready m = N.of_nat (stalled ch h) /\
  N.of_nat (absent ch exp h) < max /\ N.of_nat (stalled ch h) < max /\
  ((0 < stalled ch h)%nat <-> waiting h = true).

Lemma hm_inv0 : hm_inv [] hm0.
Proof.
  unfold hm_inv. cbn. repeat split; try lia; try discriminate.
Qed.

Lemma hm_one h m c : hm_inv h m ->
  exists m' reps,
    hm_run max name m (exp h) (c_valid (ch c)) (c_ready (ch c)) =
      (m', reps, c_valid (ch c) && c_ready (ch c)) /\
    (reps = [] <-> step_ok h c) /\ (reps = [] -> hm_inv (h ++ [c]) m').
Proof.
  intros [Hv [Hr [Lv [Ls Hw]]]]. unfold hm_run, step_ok, hm_inv.
  rewrite stalled_snoc, absent_snoc, waiting_snoc.
  destruct (c_valid (ch c)) eqn:Ev; [destruct (c_ready (ch c)) eqn:Er|]; cbn [negb andb].
  - eexists _, _. split; [reflexivity|]. cbn.
    split; [split; [intros _; repeat split; lia|reflexivity]|].
    intros _. repeat split; try lia; try discriminate.
  - eexists _, _. split; [reflexivity|]. cbn [h_valid h_ready].
    assert (Ew : w32 (h_ready m + 1) = h_ready m + 1)
      by (unfold w32; apply N.mod_small; lia).
    rewrite Ew. destruct (N.eqb_spec (h_ready m + 1) max) as [E|E].
    + split; [split; [discriminate|intros [_ [H _]]; exfalso; lia]|discriminate].
    + split; [split; [intros _; repeat split; lia|reflexivity]|].
      intros _. repeat split; try reflexivity; lia.
  - assert (Ew : w32 (h_valid m + 1) = h_valid m + 1)
      by (unfold w32; apply N.mod_small; lia).
    eexists _, _. split; [reflexivity|]. rewrite Ew. cbn [h_valid h_ready].
    assert (Hz : (h_ready m =? 0) = negb (waiting h)).
    { destruct (waiting h); cbn [negb]; [|]; destruct (N.eqb_spec (h_ready m) 0); try reflexivity;
        exfalso; lia. }
    rewrite Hz. destruct (waiting h) eqn:Ewt; cbn [negb].
    { split; [split|]; intros H; exfalso.
      - apply app_eq_nil in H as [_ H]; discriminate.
      - destruct H as [H _]; specialize (H eq_refl); discriminate.
      - apply app_eq_nil in H as [_ H]; discriminate. }
    rewrite app_nil_r, Nat.add_0_r.
    destruct (exp h); cbn [andb].
    + destruct (N.eqb_spec (h_valid m + 1) max) as [E|E].
      * split; [split; [discriminate|intros [_ [_ H]]; exfalso; lia]|discriminate].
      * split; [split; [intros _; repeat split; try lia; discriminate|reflexivity]|].
        intros _. repeat split; try lia; try discriminate; try (intros; exfalso; lia).
        all: intros Hx; apply Hw in Hx; discriminate.
    + split; [split; [intros _; repeat split; try lia; discriminate|reflexivity]|].
      intros _. repeat split; try lia; try discriminate.
      all: intros Hx; apply Hw in Hx; discriminate.
Qed.

Lemma behaves_nil : behaves max ch exp [].
Proof.
  split.
  - intros [|x p] c1 c2 q E; discriminate.
  - intros p q E. symmetry in E. apply app_eq_nil in E as [-> _]. cbn. lia.
Qed.

Lemma behaves_snoc h c : behaves max ch exp (h ++ [c]) <->
  behaves max ch exp h /\ step_ok h c.
Proof.
  unfold behaves, step_ok. split.
  - intros [H1 H2]. split; [split|split].
    + intros p c1 c2 q E. apply (H1 p c1 c2 (q ++ [c])). rewrite E, <- app_assoc. reflexivity.
    + intros p q E. apply (H2 p (q ++ [c])). rewrite E, app_assoc. reflexivity.
    + unfold waiting. destruct h as [|c1 h _] using rev_ind; [discriminate|].
      rewrite rev_unit. intros Hw. apply andb_prop in Hw as [Hv Hr].
      apply (H1 h c1 c []); [rewrite <- app_assoc; reflexivity|exact Hv|].
      destruct (c_ready (ch c1)); [discriminate|reflexivity].
    + apply (H2 (h ++ [c]) []). symmetry. apply app_nil_r.
  - intros [[H1 H2] [H3 H4]]. split.
    + intros p c1 c2 q E Hv Hr. destruct q as [|x q _] using rev_ind.
      * change (p ++ [c1; c2]) with (p ++ [c1] ++ [c2]) in E. rewrite app_assoc in E.
        apply app_inj_tail in E as [-> ->]. apply H3. rewrite waiting_snoc, Hv, Hr. reflexivity.
      * rewrite !app_comm_cons, app_assoc in E. apply app_inj_tail in E as [E _].
        apply (H1 p c1 c2 q E Hv Hr).
    + intros p q E. destruct q as [|x q _] using rev_ind.
      * rewrite app_nil_r in E. subst p. exact H4.
      * rewrite app_assoc in E. apply app_inj_tail in E as [E _]. apply (H2 p q E).
Qed.
End Chan.

(** ** The counters *)
Definition cnt (id : N) (l : list N) : nat := length (filter (fun i => i =? id) l).
Definition cnt_a (id : N) (l : list axp) : nat := length (filter (fun a => ax_id a =? id) l).
Definition cnt_b (id : N) (l : list bp) : nat := length (filter (fun b => b_id b =? id) l).

Lemma cnt_app id l1 l2 : cnt id (l1 ++ l2) = (cnt id l1 + cnt id l2)%nat.
Proof. unfold cnt. rewrite filter_app, app_length. reflexivity. Qed.
Lemma cnt_a_app id l1 l2 : cnt_a id (l1 ++ l2) = (cnt_a id l1 + cnt_a id l2)%nat.
Proof. unfold cnt_a. rewrite filter_app, app_length. reflexivity. Qed.
Lemma cnt_b_app id l1 l2 : cnt_b id (l1 ++ l2) = (cnt_b id l1 + cnt_b id l2)%nat.
Proof. unfold cnt_b. rewrite filter_app, app_length. reflexivity. Qed.
Lemma cnt_ids id l : cnt id (map ax_id l) = cnt_a id l.
Proof.
  unfold cnt, cnt_a. induction l as [|a l IH]; [reflexivity|]. cbn.
  destruct (ax_id a =? id); cbn; rewrite IH; reflexivity.
Qed.
Lemma cnt_in id l : (0 < cnt id l)%nat -> in_list l id = true.
Proof.
  unfold cnt, in_list. induction l as [|x l IH]; cbn; [lia|].
  rewrite (N.eqb_sym id x). destruct (x =? id); [reflexivity|]. exact IH.
Qed.
Lemma remove1_cnt id l : in_list l id = true -> forall j,
  cnt j l = (cnt j (remove1 l id) + (if (id =? j)%N then 1 else 0))%nat.
Proof.
  induction l as [|x l IH]; [discriminate|]. intros H j.
  change (x :: l) with ([x] ++ l) at 1. rewrite cnt_app. cbn [remove1].
  unfold in_list in H. cbn [existsb] in H. rewrite (N.eqb_sym id x) in H.
  destruct (N.eqb_spec x id) as [->|E].
  - unfold cnt at 1. cbn. destruct (id =? j); cbn; lia.
  - cbn in H. change (x :: remove1 l id) with ([x] ++ remove1 l id).
    rewrite cnt_app, (IH H j). lia.
Qed.
Lemma remove1_len id l : in_list l id = true -> length l = S (length (remove1 l id)).
Proof.
  induction l as [|x l IH]; [discriminate|]. intros H. cbn [remove1].
  unfold in_list in H. cbn [existsb] in H. rewrite (N.eqb_sym id x) in H.
  destruct (x =? id); [reflexivity|]. cbn. rewrite (IH H). reflexivity.
Qed.

Lemma total_app l1 l2 : total_len (l1 ++ l2) = total_len l1 + total_len l2.
Proof. 
  induction l1 as [|a l1 IH]; [reflexivity|]. cbn [app].
  change (total_len (a :: l1 ++ l2)) with (ax_len a + 1 + total_len (l1 ++ l2)).
  change (total_len (a :: l1)) with (ax_len a + 1 + total_len l1). rewrite IH. lia.
Qed.
Lemma total_one a : total_len [a] = ax_len a + 1.
Proof. unfold total_len. cbn [fold_right]. lia. Qed.
Lemma total_ge l : N.of_nat (length l) <= total_len l.
Proof. induction l as [|a l IH]; cbn [length total_len fold_right]; [lia|]. 
  fold (total_len l). lia. Qed.

Lemma s32_small z : (- 2 ^ 31 <= z < 2 ^ 31)%Z -> s32 z = z.
Proof.
  intros H. unfold s32. rewrite Z.mod_small; [lia|].
  change (2 ^ 32)%Z with 4294967296%Z. change (2 ^ 31)%Z with 2147483648%Z in *. lia.
Qed.

Definition cinv (A : list axp) (B : list wp) (X : list bp) (q : wcnt) : Prop :=
  q_wd q = (Z.of_N (total_len A) - Z.of_nat (length B))%Z /\
  q_naw q = N.of_nat (length A - lasts B) /\ q_nlast q = N.of_nat (lasts B - length A) /\
  q_awids q = map ax_id (skipn (lasts B) A) /\
  q_nb q = N.of_nat (length (q_bids q)) /\
  (length (q_bids q) + length X = length (firstn (lasts B) A))%nat /\
  (forall id, (cnt id (q_bids q) + cnt_b id X)%nat = cnt_a id (firstn (lasts B) A)).

Lemma lasts_le B : (lasts B <= length B)%nat.
Proof.
  induction B as [|d B IH] using rev_ind; [cbn; lia|].
  rewrite lasts_app, lasts_one, app_length. cbn. destruct (w_last d); lia.
Qed.

Lemma cinv_aw A B X q a : cinv A B X q ->
  total_len (A ++ [a]) < 2 ^ 31 -> N.of_nat (length B) < 2 ^ 31 ->
  cinv (A ++ [a]) B X (hs_aw false q a).
Proof.
  intros [H1 [H2 [H3 [H4 [H5 [H6 H7]]]]]] Hb1 Hb2.
  pose proof (total_ge A) as Ga. pose proof (lasts_le B) as Lb.
  rewrite total_app, total_one in Hb1.
  assert (Ewd : s32 (q_wd q + Z.of_N (w32 (ax_len a + 1))) =
                (Z.of_N (total_len (A ++ [a])) - Z.of_nat (length B))%Z).
  { unfold w32. rewrite (N.mod_small (ax_len a + 1))
      by (change (2 ^ 31) with 2147483648 in Hb1; change (2 ^ 32) with 4294967296; lia).
    rewrite total_app, total_one. rewrite s32_small; [rewrite H1; lia|].
    rewrite H1. change (2 ^ 31) with 2147483648 in Hb1, Hb2.
    change (2 ^ 31)%Z with 2147483648%Z. lia. }
  unfold hs_aw. cbn [andb]. rewrite Ewd, H2, H3.
  destruct (N.ltb_spec (N.of_nat (length A - lasts B)) (N.of_nat (lasts B - length A))) as [L|L].
  - assert (Ll : (length A < lasts B)%nat) by lia.
    assert (E1 : firstn (lasts B) (A ++ [a]) = firstn (lasts B) A ++ [a]).
    { rewrite !firstn_all2; [reflexivity|lia|rewrite app_length; cbn; lia]. }
    assert (Eb : N.of_nat (length (q_bids q)) + 1 < 2 ^ 32).
    { rewrite firstn_length in H6. change (2 ^ 31) with 2147483648 in *.
      change (2 ^ 32) with 4294967296. lia. }
    unfold cinv. cbn [q_wd q_nb q_naw q_nlast q_awids q_bids]. rewrite E1, !app_length.
    cbn [length].
    split; [reflexivity|]. split; [lia|]. split; [lia|].
    split. { rewrite H4, !skipn_all2; [reflexivity|rewrite app_length; cbn; lia|lia]. }
    split. { unfold w32. rewrite N.mod_small; lia. }
    split; [lia|]. intros id. rewrite cnt_app, cnt_a_app, <- H7.
    unfold cnt at 2, cnt_a. cbn. destruct (ax_id a =? id); cbn; lia.
  - assert (Ll : (lasts B <= length A)%nat) by lia.
    assert (E1 : firstn (lasts B) (A ++ [a]) = firstn (lasts B) A).
    { rewrite firstn_app. replace (lasts B - length A)%nat with O by lia.
      cbn [firstn]. apply app_nil_r. }
    unfold cinv. cbn [q_wd q_nb q_naw q_nlast q_awids q_bids]. rewrite E1, !app_length.
    cbn [length].
    split; [reflexivity|]. split.
    { unfold w32. change (2 ^ 31) with 2147483648 in *. change (2 ^ 32) with 4294967296.
      rewrite N.mod_small; lia. }
    split; [lia|]. split.
    { rewrite H4, skipn_app, map_app. replace (lasts B - length A)%nat with O by lia.
      reflexivity. }
    split; [exact H5|]. split; [exact H6|exact H7].
Qed.

Lemma cinv_w A B X q d : cinv A B X q ->
  total_len A < 2 ^ 31 -> N.of_nat (length (B ++ [d])) < 2 ^ 31 ->
  exists q', hs_w false q d = Ok q' /\ cinv A (B ++ [d]) X q'.
Proof.
  intros [H1 [H2 [H3 [H4 [H5 [H6 H7]]]]]] Hb1 Hb2.
  pose proof (total_ge A) as Ga. pose proof (lasts_le B) as Lb.
  rewrite app_length in Hb2. cbn [length] in Hb2.
  unfold hs_w.
  destruct (Z.leb_spec (q_wd q) (- 2 ^ 31)) as [L|L].
  { exfalso. rewrite H1 in L. change (2 ^ 31) with 2147483648 in Hb2.
    change (2 ^ 31)%Z with 2147483648%Z in L. lia. }
  clear L. cbn [andb].
  assert (Ewd : (q_wd q - 1)%Z = (Z.of_N (total_len A) - Z.of_nat (length (B ++ [d])))%Z)
    by (rewrite H1, app_length; cbn [length]; lia).
  rewrite Ewd. unfold cinv. rewrite lasts_app, lasts_one.
  destruct (w_last d) eqn:El.
  - rewrite H2, H3.
    destruct (N.ltb_spec (N.of_nat (lasts B - length A)) (N.of_nat (length A - lasts B))) as [L|L].
    + assert (Ll : (lasts B < length A)%nat) by lia.
      destruct (nth_error A (lasts B)) as [a|] eqn:Ea;
        [|apply nth_error_None in Ea; lia].
      assert (Esk : skipn (lasts B) A = a :: skipn (S (lasts B)) A).
      { clear -Ea. revert A Ea. induction (lasts B) as [|n IH]; intros [|x A] Ea; try discriminate.
        - injection Ea as ->. reflexivity.
        - cbn in Ea. cbn [skipn]. apply IH in Ea. exact Ea. }
      rewrite Esk in H4. cbn [map] in H4. rewrite H4. eexists. split; [reflexivity|].
      cbn [q_wd q_nb q_naw q_nlast q_awids q_bids].
      rewrite Nat.add_1_r, (firstn_next _ _ _ Ea), !app_length. cbn [length].
      assert (Eb : N.of_nat (length (q_bids q)) + 1 < 2 ^ 32).
      { rewrite firstn_length in H6. change (2 ^ 31) with 2147483648 in *.
        change (2 ^ 32) with 4294967296. lia. }
      split; [reflexivity|]. split; [lia|]. split; [lia|]. split; [reflexivity|].
      split. { unfold w32. rewrite N.mod_small; lia. }
      split; [lia|]. intros id. rewrite cnt_app, cnt_a_app, <- H7.
      unfold cnt at 2, cnt_a. cbn. destruct (ax_id a =? id); cbn; lia.
    + assert (Ll : (length A <= lasts B)%nat) by lia.
      eexists. split; [reflexivity|]. cbn [q_wd q_nb q_naw q_nlast q_awids q_bids].
      assert (F1 : firstn (lasts B) A = A) by (apply firstn_all2; lia).
      assert (F2 : firstn (lasts B + 1) A = A) by (apply firstn_all2; lia).
      rewrite F1 in H6. setoid_rewrite F1 in H7. rewrite F2.
      split; [reflexivity|]. split; [lia|]. split.
      { unfold w32. change (2 ^ 31) with 2147483648 in *. change (2 ^ 32) with 4294967296.
        rewrite N.mod_small; lia. }
      split. { rewrite H4, !skipn_all2 by lia. reflexivity. }
      split; [exact H5|]. split; [exact H6|exact H7].
  - rewrite Nat.add_0_r. eexists. split; [reflexivity|].
    cbn [q_wd q_nb q_naw q_nlast q_awids q_bids]. repeat (split; [assumption || reflexivity|]).
    assumption.
Qed.

Lemma cinv_b A B X q b : cinv A B X q ->
  total_len A < 2 ^ 31 ->
  (cnt_b (b_id b) (X ++ [b]) <= cnt_a (b_id b) (firstn (lasts B) A))%nat ->
  cinv A B (X ++ [b]) (hs_b q b).
Proof.
  intros [H1 [H2 [H3 [H4 [H5 [H6 H7]]]]]] Hb1 Hc.
  pose proof (total_ge A) as Ga.
  rewrite cnt_b_app in Hc. unfold cnt_b at 2 in Hc. cbn in Hc. rewrite N.eqb_refl in Hc.
  cbn in Hc. pose proof (H7 (b_id b)) as H7b.
  assert (Hin : in_list (q_bids q) (b_id b) = true) by (apply cnt_in; lia).
  unfold hs_b. rewrite Hin. unfold cinv. cbn [q_wd q_nb q_naw q_nlast q_awids q_bids].
  pose proof (remove1_len _ _ Hin) as Hl. rewrite app_length. cbn [length].
  repeat (split; [assumption|]). split.
  { rewrite H5, Hl. unfold w32. rewrite Nat2N.inj_succ.
    replace (N.succ (N.of_nat (length (remove1 (q_bids q) (b_id b)))) + 2 ^ 32 - 1)
      with (N.of_nat (length (remove1 (q_bids q) (b_id b))) + 1 * 2 ^ 32) by lia.
    rewrite N.mod_add by discriminate. apply N.mod_small.
    rewrite firstn_length in H6. change (2 ^ 31) with 2147483648 in *.
    change (2 ^ 32) with 4294967296. lia. }
  split; [lia|]. intros id. rewrite cnt_b_app, <- H7.
  rewrite (remove1_cnt _ _ Hin id). unfold cnt_b at 2. cbn.
  destruct (b_id b =? id); cbn; lia.
Qed.

(** ** One cycle *)
Definition hinv (max : N) (h : list cyc) (s : hst) : Prop :=
  hm_inv max c_ar (fun _ => false) h (k_ar s) /\ hm_inv max c_r due_r h (k_r s) /\
  hm_inv max c_aw due_aw h (k_aw s) /\ hm_inv max c_w due_w h (k_w s) /\
  hm_inv max c_b due_b h (k_b s) /\
  k_rt s + N.of_nat (length (rbeats h)) = total_len (reads h) /\
  cinv (writes h) (wbeats h) (answers h) (cnt_of s).

Lemma hinv_init max : 0 < max < 2 ^ 32 -> hinv max [] hst0.
Proof.
  intros H. unfold hinv, hst0. cbn [k_ar k_r k_aw k_w k_b].
  do 5 (split; [apply hm_inv0; exact H|]). split; [reflexivity|].
  unfold cinv. cbn. repeat split; reflexivity.
Qed.

Lemma taken_some {A} (x : chan A) :
  taken x = if c_valid x && c_ready x then Some (c_pay x) else None.
Proof. reflexivity. Qed.

Lemma wbeats_len h : (length (wbeats h) <= length h)%nat.
Proof.
  induction h as [|c h IH] using rev_ind; [cbn; lia|].
  rewrite wbeats_app, wbeats_one, !app_length. cbn. destruct (taken (c_w c)); cbn; lia.
Qed.

Lemma hs_one max h s c : 0 < max < 2 ^ 32 -> hinv max h s ->
  justified (h ++ [c]) -> bounded (h ++ [c]) ->
  exists s' reps, hs_cycle max false s c = Ok (s', reps) /\
    (reps = [] <->
      step_ok max c_ar (fun _ => false) h c /\ step_ok max c_r due_r h c /\
      step_ok max c_aw due_aw h c /\ step_ok max c_w due_w h c /\ step_ok max c_b due_b h c) /\
    (reps = [] -> hinv max (h ++ [c]) s').
Proof.
  intros Hm [Iar [Ir [Iaw [Iw [Ib [Hrt Hc]]]]]] Hj [B1 [B2 B3]].
  destruct (Hj (h ++ [c]) []) as [J1 J2]; [symmetry; apply app_nil_r|].
  unfold hs_cycle.
  assert (Er : (0 <? k_rt s) = due_r h).
  { unfold due_r. destruct (N.ltb_spec 0 (k_rt s)), (N.ltb_spec (N.of_nat (length (rbeats h))) (total_len (reads h)));
      try reflexivity; lia. }
  pose proof Hc as [C1 [_ [_ [_ [C5 [C6 _]]]]]]. cbn [cnt_of q_wd q_nb q_bids] in C1, C5, C6.
  assert (Eaw : (k_wd s <? 0)%Z = due_aw h).
  { unfold due_aw. rewrite C1. destruct (Z.ltb_spec (Z.of_N (total_len (writes h)) - Z.of_nat (length (wbeats h))) 0), (N.ltb_spec (total_len (writes h)) (N.of_nat (length (wbeats h))));
      try reflexivity; lia. }
  assert (Ew : (0 <? k_wd s)%Z = due_w h).
  { unfold due_w. rewrite C1. destruct (Z.ltb_spec 0 (Z.of_N (total_len (writes h)) - Z.of_nat (length (wbeats h)))), (N.ltb_spec (N.of_nat (length (wbeats h))) (total_len (writes h)));
      try reflexivity; lia. }
  assert (Eb : (0 <? k_nb s) = due_b h).
  { unfold due_b, complete. rewrite C5. destruct (N.ltb_spec 0 (N.of_nat (length (k_bids s)))), (Nat.ltb_spec (length (answers h)) (length (firstn (lasts (wbeats h)) (writes h))));
      try reflexivity; lia. }
  cbv zeta. rewrite Er, Eaw, Ew, Eb.
  destruct (hm_one max CAr c_ar (fun _ => false) Hm h _ c Iar) as [m1 [p1 [E1 [F1 G1]]]].
  destruct (hm_one max CR c_r due_r Hm h _ c Ir) as [m2 [p2 [E2 [F2 G2]]]].
  destruct (hm_one max CAw c_aw due_aw Hm h _ c Iaw) as [m3 [p3 [E3 [F3 G3]]]].
  destruct (hm_one max CW c_w due_w Hm h _ c Iw) as [m4 [p4 [E4 [F4 G4]]]].
  destruct (hm_one max CB c_b due_b Hm h _ c Ib) as [m5 [p5 [E5 [F5 G5]]]].
  cbv beta in E1. rewrite E1, E2, E3, E4, E5. clear E1 E2 E3 E4 E5.
  (* the write counters *)
  pose proof (wbeats_len (h ++ [c])) as Wl. pose proof B2 as B2'.
  assert (Wl2 : (length (wbeats h) <= length (wbeats (h ++ [c])))%nat)
    by (rewrite wbeats_app, app_length; lia).
  assert (Q1 : cinv (writes (h ++ [c])) (wbeats h) (answers h)
    (if c_valid (c_aw c) && c_ready (c_aw c)
     then hs_aw false (cnt_of s) (c_pay (c_aw c)) else cnt_of s)).
  { rewrite writes_app, writes_one in B2' |- *. rewrite taken_some in B2' |- *.
    destruct (c_valid (c_aw c) && c_ready (c_aw c)).
    - apply cinv_aw; [exact Hc|exact B2'|]. clear -B3 Wl Wl2. lia.
    - rewrite app_nil_r. exact Hc. }
  set (q1 := if c_valid (c_aw c) && c_ready (c_aw c) then _ else _) in *. clearbody q1.
  assert (Q2 : exists q2, (if c_valid (c_w c) && c_ready (c_w c)
      then hs_w false q1 (c_pay (c_w c)) else Ok q1) = Ok q2 /\
      cinv (writes (h ++ [c])) (wbeats (h ++ [c])) (answers h) q2).
  { rewrite wbeats_app, wbeats_one in Wl |- *. rewrite taken_some in Wl |- *.
    destruct (c_valid (c_w c) && c_ready (c_w c)).
    - apply cinv_w; [exact Q1|exact B2|]. clear -B3 Wl. cbn [opt] in Wl. lia.
    - rewrite app_nil_r. exists q1. split; [reflexivity|exact Q1]. }
  destruct Q2 as [q2 [E2 Q2]]. rewrite E2. cbn [rbind]. clear E2 Q1 q1.
  assert (Q3 : cinv (writes (h ++ [c])) (wbeats (h ++ [c])) (answers (h ++ [c]))
    (if c_valid (c_b c) && c_ready (c_b c) then hs_b q2 (c_pay (c_b c)) else q2)).
  { rewrite answers_app, answers_one in J2 |- *. rewrite taken_some in J2 |- *.
    destruct (c_valid (c_b c) && c_ready (c_b c)).
    - apply cinv_b; [exact Q2|exact B2|apply J2].
    - rewrite app_nil_r. exact Q2. }
  set (q3 := if c_valid (c_b c) && c_ready (c_b c) then _ else _) in *. clearbody q3.
  (* the read counter *)
  eexists _, _. split; [reflexivity|]. split.
  - rewrite <- F1, <- F2, <- F3, <- F4, <- F5. split.
    + intros E. apply app_eq_nil in E as [? E]. apply app_eq_nil in E as [? E].
      apply app_eq_nil in E as [? E]. apply app_eq_nil in E as [? ?]. tauto.
    + intros [-> [-> [-> [-> ->]]]]. reflexivity.
  - intros E. apply app_eq_nil in E as [Z1 E]. apply app_eq_nil in E as [Z2 E].
    apply app_eq_nil in E as [Z3 E]. apply app_eq_nil in E as [Z4 Z5].
    unfold hinv. cbn [k_ar k_r k_aw k_w k_b k_rt].
    split; [apply G1, Z1|]. split; [apply G2, Z2|]. split; [apply G3, Z3|].
    split; [apply G4, Z4|]. split; [apply G5, Z5|]. split.
    + clear -Hrt J1 B1. rewrite reads_app, rbeats_app, app_length, total_app in *.
      assert (Ea : reads [c] = match taken (c_ar c) with Some a => [a] | None => [] end)
        by (unfold reads; cbn; destruct (taken (c_ar c)); reflexivity).
      assert (Eb : rbeats [c] = match taken (c_r c) with Some a => [a] | None => [] end)
        by (unfold rbeats; cbn; destruct (taken (c_r c)); reflexivity).
      rewrite Ea, Eb in *. rewrite !taken_some in *.
      change (2 ^ 31) with 2147483648 in B1.
      assert (Ert : (if c_valid (c_ar c) && c_ready (c_ar c)
          then w32 (k_rt s + (ax_len (c_pay (c_ar c)) + 1)) else k_rt s) =
          k_rt s + total_len (if c_valid (c_ar c) && c_ready (c_ar c)
                              then [c_pay (c_ar c)] else [])).
      { destruct (c_valid (c_ar c) && c_ready (c_ar c)).
        - rewrite total_one in *. unfold w32. apply N.mod_small.
          change (2 ^ 32) with 4294967296. lia.
        - cbn. lia. }
      destruct (c_valid (c_ar c) && c_ready (c_ar c)); rewrite Ert;
        destruct (c_valid (c_r c) && c_ready (c_r c)); cbn [length] in *;
        rewrite ?total_one in *; change (total_len []) with 0 in *; try lia.
      all: unfold w32; change (2 ^ 32) with 4294967296.
      all: match goal with |- (?x + 4294967296 - 1) mod _ + _ = _ =>
             replace (x + 4294967296 - 1) with ((x - 1) + 1 * 4294967296) by lia end.
      all: rewrite N.mod_add by discriminate; rewrite N.mod_small by lia; lia.
    + unfold cnt_of. cbn [k_wd k_nb k_naw k_nlast k_awids k_wids k_bids].
      destruct q3. exact Q3.
Qed.

Lemma justified_prefix p q : justified (p ++ q) -> justified p.
Proof.
  intros H p1 q1 E. apply (H p1 (q1 ++ q)). rewrite E, app_assoc. reflexivity.
Qed.
Lemma bounded_prefix p q : bounded (p ++ q) -> bounded p.
Proof.
  unfold bounded. rewrite reads_app, writes_app, !total_app, app_length. lia.
Qed.

Lemma hs_hist max : 0 < max < 2 ^ 32 -> forall h, justified h -> bounded h ->
  (forall s, steps (hs_cycle max false) hst0 h = Ok (s, []) ->
     hinv max h s /\ hs_conform max h) /\
  (hs_conform max h -> quiet (steps (hs_cycle max false) hst0 h)).
Proof.
  intros Hm. induction h as [|c h IH] using rev_ind; intros Hj Hb.
  - split.
    + intros s E. cbn in E. injection E as <-. split; [apply hinv_init, Hm|].
      unfold hs_conform. repeat (split; [apply behaves_nil, Hm|]). apply behaves_nil, Hm.
    + intros _. exists hst0. reflexivity.
  - destruct (IH (justified_prefix _ _ Hj) (bounded_prefix _ _ Hb)) as [I1 I2]. split.
    + intros s E. assert (Hq : quiet (steps (hs_cycle max false) hst0 (h ++ [c])))
        by (exists s; exact E).
      apply quiet_app in Hq as [s1 [E1 _]]. rewrite steps_app, E1 in E.
      cbn [rbind fst snd] in E. rewrite steps_one in E. destruct (I1 s1 E1) as [Hi Hc].
      destruct (hs_one max h s1 c Hm Hi Hj Hb) as [s2 [reps [E2 [F G]]]].
      rewrite E2 in E. cbn in E. injection E as -> ->.
      split; [apply G; reflexivity|]. destruct (proj1 F eq_refl) as [F1 [F2 [F3 [F4 F5]]]].
      destruct Hc as [D1 [D2 [D3 [D4 D5]]]]. unfold hs_conform.
      split; [apply behaves_snoc; auto|]. split; [apply behaves_snoc; auto|].
      split; [apply behaves_snoc; auto|]. split; apply behaves_snoc; auto.
    + intros [D1 [D2 [D3 [D4 D5]]]].
      apply behaves_snoc in D1 as [D1 K1]. apply behaves_snoc in D2 as [D2 K2].
      apply behaves_snoc in D3 as [D3 K3]. apply behaves_snoc in D4 as [D4 K4].
      apply behaves_snoc in D5 as [D5 K5].
      destruct (I2 (conj D1 (conj D2 (conj D3 (conj D4 D5))))) as [s1 E1].
      destruct (I1 s1 E1) as [Hi _].
      destruct (hs_one max h s1 c Hm Hi Hj Hb) as [s2 [reps [E2 [F G]]]].
      assert (reps = []) as -> by (apply F; tauto).
      exists s2. rewrite steps_app, E1. cbn [rbind fst snd]. rewrite steps_one, E2. reflexivity.
Qed.

Lemma hs_exact max tr : 0 < max < 2 ^ 32 ->
  Forall justified (periods true [] tr) -> Forall bounded (periods true [] tr) ->
  (quiet (hs_run max false tr) <-> Forall (hs_conform max) (periods true [] tr)).
Proof.
  intros Hm Hj Hb. unfold hs_run. rewrite clocked_quiet.
  rewrite !Forall_forall in *. split; intros H h Hin.
  - destruct (H h Hin) as [s E]. apply (hs_hist max Hm h (Hj h Hin) (Hb h Hin)) in E. tauto.
  - apply (hs_hist max Hm h (Hj h Hin) (Hb h Hin)), H, Hin.
Qed.
