(** Lemmas about the AXI4-Lite checker. *)
From Coq Require Import NArith ZArith List Bool Lia.
From Verif Require Import Base AxiChkModel AxiChkSpec AxiChkRead AxiChkWrite AxiChkHs AxiChkMon
  LiteChkModel LiteChkSpec.
Import ListNotations.
Local Open Scope N_scope.

(** ** The reset loop for a step that keeps no state and always succeeds *)
Lemma clocked_reports {R} (f : cyc -> list R) tr :
  exists s, steps (clocked tt (fun (s : unit) c => Ok (s, f c))) (true, tt) tr =
    Ok (s, flat_map (fun h => flat_map f h) (periods true [] tr)).
Proof.
  set (step := fun (s : unit) c => Ok (s, f c)).
  enough (G : forall tr (on : bool) cur, (on = false -> cur = []) ->
    exists s reps, steps (clocked tt step) (on, tt) tr = Ok (s, reps) /\
      flat_map (fun h => flat_map f h) (periods on cur tr) = flat_map f cur ++ reps).
  { destruct (G tr true [] (fun H => match Bool.diff_true_false H with end)) as [s [reps [E1 E2]]].
    exists s. rewrite E1, E2. reflexivity. }
  clear tr. induction tr as [|e tr IH]; intros on cur Hc.
  - exists (on, tt), []. split; [reflexivity|]. cbn. rewrite !app_nil_r. reflexivity.
  - destruct e as [rn c|]; cbn [steps clocked periods fst snd].
    + destruct on; [destruct rn|].
      * destruct (IH true (cur ++ [c])) as [s [reps [E1 E2]]]; [discriminate|].
        cbn. rewrite E1. exists s, (f c ++ reps). split; [reflexivity|].
        rewrite E2, flat_map_app, <- app_assoc. cbn. rewrite app_nil_r. reflexivity.
      * destruct (IH false []) as [s [reps [E1 E2]]]; [reflexivity|].
        cbn [rbind fst snd]. rewrite E1. exists s, reps. split; [reflexivity|].
        cbn [flat_map]. rewrite E2. reflexivity.
      * rewrite (Hc eq_refl). destruct (IH rn []) as [s [reps [E1 E2]]]; [reflexivity|].
        cbn [rbind fst snd]. rewrite E1. exists s, reps. split; [reflexivity|]. exact E2.
    + destruct (IH false []) as [s [reps [E1 E2]]]; [reflexivity|].
      cbn [rbind fst snd]. rewrite E1. exists s, reps. split; [reflexivity|].
      cbn [flat_map]. rewrite E2. reflexivity.
Qed.

(** ** Handshakes *)
Definition of_opt {A} (x : chan A) : nat := if c_valid x && c_ready x then 1 else 0.

Lemma n_ar_snoc h c : n_ar (h ++ [c]) = (n_ar h + of_opt (c_ar c))%nat.
Proof.
  unfold n_ar, reads, of_opt. rewrite flat_map_app, app_length. cbn.
  rewrite app_nil_r. unfold taken. destruct (c_valid (c_ar c) && c_ready (c_ar c)); reflexivity.
Qed.
Lemma n_r_snoc h c : n_r (h ++ [c]) = (n_r h + of_opt (c_r c))%nat.
Proof.
  unfold n_r, rbeats, of_opt. rewrite flat_map_app, app_length. cbn.
  rewrite app_nil_r. unfold taken. destruct (c_valid (c_r c) && c_ready (c_r c)); reflexivity.
Qed.
Lemma n_aw_snoc h c : n_aw (h ++ [c]) = (n_aw h + of_opt (c_aw c))%nat.
Proof.
  unfold n_aw, writes, of_opt. rewrite flat_map_app, app_length. cbn.
  rewrite app_nil_r. unfold taken. destruct (c_valid (c_aw c) && c_ready (c_aw c)); reflexivity.
Qed.
Lemma n_w_snoc h c : n_w (h ++ [c]) = (n_w h + of_opt (c_w c))%nat.
Proof.
  unfold n_w, wbeats, of_opt. rewrite flat_map_app, app_length. cbn.
  rewrite app_nil_r. unfold taken. destruct (c_valid (c_w c) && c_ready (c_w c)); reflexivity.
Qed.
Lemma n_b_snoc h c : n_b (h ++ [c]) = (n_b h + of_opt (c_b c))%nat.
Proof.
  unfold n_b, answers, of_opt. rewrite flat_map_app, app_length. cbn.
  rewrite app_nil_r. unfold taken. destruct (c_valid (c_b c) && c_ready (c_b c)); reflexivity.
Qed.
Lemma of_opt_le {A} (x : chan A) : (of_opt x <= 1)%nat.
Proof. unfold of_opt. destruct (c_valid x && c_ready x); lia. Qed.

Lemma n_le h : (n_ar h <= length h /\ n_r h <= length h /\ n_aw h <= length h /\
  n_w h <= length h /\ n_b h <= length h)%nat.
Proof.
  induction h as [|c h IH] using rev_ind; [cbn; lia|].
  rewrite n_ar_snoc, n_r_snoc, n_aw_snoc, n_w_snoc, n_b_snoc, app_length. cbn [length].
  pose proof (of_opt_le (c_ar c)). pose proof (of_opt_le (c_r c)).
  pose proof (of_opt_le (c_aw c)). pose proof (of_opt_le (c_w c)).
  pose proof (of_opt_le (c_b c)). lia.
Qed.

(** a 32-bit counter that is the difference of two numbers of transfers *)
Definition diff (k : N) (up down : nat) : Prop :=
  k < 2 ^ 32 /\ (Z.of_N k mod 2 ^ 32 = (Z.of_nat up - Z.of_nat down) mod 2 ^ 32)%Z.

Lemma diff_pos k up down : diff k up down -> (up < 2 ^ 31)%nat -> (down < 2 ^ 31)%nat ->
  (0 <? k) = negb (Nat.eqb down up).
Proof.
  intros [Hk E] Hu Hd.
  assert (Pu : (Z.of_nat up < 2147483648)%Z).
  { apply Nat2Z.inj_lt in Hu. rewrite Nat2Z.inj_pow in Hu. exact Hu. }
  assert (Pd : (Z.of_nat down < 2147483648)%Z).
  { apply Nat2Z.inj_lt in Hd. rewrite Nat2Z.inj_pow in Hd. exact Hd. }
  clear Hu Hd. change (2 ^ 32) with 4294967296 in Hk. change (2 ^ 32)%Z with 4294967296%Z in E.
  rewrite (Z.mod_small (Z.of_N k)) in E by lia.
  destruct (Nat.eqb_spec down up) as [->|Hne].
  - rewrite Z.sub_diag in E. cbn in E. destruct (N.ltb_spec 0 k); [lia|reflexivity].
  - destruct (N.ltb_spec 0 k) as [L|L]; [reflexivity|]. exfalso.
    assert (k = 0) by lia. subst k. cbn [Z.of_N] in E.
    destruct (Z.lt_ge_cases (Z.of_nat down) (Z.of_nat up)).
    + rewrite Z.mod_small in E by lia. lia.
    + replace (Z.of_nat up - Z.of_nat down)%Z
        with ((Z.of_nat up - Z.of_nat down + 4294967296) + (-1) * 4294967296)%Z in E by lia.
      rewrite Z.mod_add, Z.mod_small in E by lia. lia.
Qed.

Lemma diff_step k up down {A B} (x : chan A) (y : chan B) : diff k up down ->
  diff (let k1 := if c_valid x && c_ready x then w32 (k + 1) else k in
        if c_valid y && c_ready y then w32 (k1 + 2 ^ 32 - 1) else k1)
       (up + of_opt x) (down + of_opt y).
Proof.
  intros [Hk E].
  assert (H1 : diff (if c_valid x && c_ready x then w32 (k + 1) else k) (up + of_opt x) down).
  { unfold of_opt. destruct (c_valid x && c_ready x).
    - split; [apply N.mod_lt; discriminate|]. unfold w32.
      rewrite N2Z.inj_mod. change (Z.of_N (2 ^ 32)) with (2 ^ 32)%Z.
      rewrite Z.mod_mod by discriminate.
      replace (Z.of_N (k + 1)) with (Z.of_N k + 1)%Z by lia.
      replace (Z.of_nat (up + 1) - Z.of_nat down)%Z
        with ((Z.of_nat up - Z.of_nat down) + 1)%Z by lia.
      rewrite Z.add_mod, E, <- Z.add_mod by discriminate. reflexivity.
    - rewrite Nat.add_0_r. split; assumption. }
  cbv zeta. set (k1 := if c_valid x && c_ready x then _ else _) in *. clearbody k1.
  clear Hk E. destruct H1 as [Hk E]. unfold of_opt at 2. destruct (c_valid y && c_ready y).
  - split; [apply N.mod_lt; discriminate|]. unfold w32.
    rewrite N2Z.inj_mod. change (Z.of_N (2 ^ 32)) with (2 ^ 32)%Z.
    rewrite Z.mod_mod by discriminate.
    replace (Z.of_N (k1 + 2 ^ 32 - 1)) with ((Z.of_N k1 + (-1)) + 1 * 2 ^ 32)%Z by (clear; lia).
    rewrite Z.mod_add by discriminate.
    replace (Z.of_nat (up + of_opt x) - Z.of_nat (down + 1))%Z
      with ((Z.of_nat (up + of_opt x) - Z.of_nat down) + (-1))%Z by (clear; lia).
    rewrite Z.add_mod, E, <- Z.add_mod by discriminate. reflexivity.
  - rewrite Nat.add_0_r. split; assumption.
Qed.

Definition linv (max : N) (h : list cyc) (s : lst) : Prop :=
  hm_inv max c_ar (fun _ => false) h (j_ar s) /\ hm_inv max c_r took_r h (j_r s) /\
  hm_inv max c_aw owes_aw h (j_aw s) /\ hm_inv max c_w owes_w h (j_w s) /\
  hm_inv max c_b took_b h (j_b s) /\
  diff (j_rt s) (n_ar h) (n_r h) /\ j_wd s = (Z.of_nat (n_aw h) - Z.of_nat (n_w h))%Z /\
  diff (j_nb s) (n_w h) (n_b h).

Lemma linv_init max : 0 < max < 2 ^ 32 -> linv max [] lst0.
Proof.
  intros H. unfold linv, lst0. cbn [j_ar j_r j_aw j_w j_b j_rt j_wd j_nb].
  do 5 (split; [apply hm_inv0; exact H|]).
  split; [split; reflexivity|]. split; [reflexivity|split; reflexivity].
Qed.

Lemma lh_one max h s c : 0 < max < 2 ^ 32 -> linv max h s ->
  (length (h ++ [c]) < 2 ^ 31)%nat ->
  exists s' reps, lh_cycle max s c = Ok (s', reps) /\
    (reps = [] <->
      step_ok max c_ar (fun _ => false) h c /\ step_ok max c_r took_r h c /\
      step_ok max c_aw owes_aw h c /\ step_ok max c_w owes_w h c /\
      step_ok max c_b took_b h c) /\
    (reps = [] -> linv max (h ++ [c]) s').
Proof.
  intros Hm [Iar [Ir [Iaw [Iw [Ib [Dr [Dw Db]]]]]]] Hl.
  rewrite app_length in Hl. cbn [length] in Hl.
  pose proof (n_le h) as [L1 [L2 [L3 [L4 L5]]]].
  assert (P : (Z.of_nat (n_aw h) < 2 ^ 31 - 1 /\ Z.of_nat (n_w h) < 2 ^ 31 - 1)%Z).
  { apply Nat2Z.inj_lt in Hl. rewrite Nat2Z.inj_pow in Hl.
    change (Z.of_nat 2 ^ Z.of_nat 31)%Z with 2147483648%Z in Hl.
    change (2 ^ 31)%Z with 2147483648%Z. lia. }
  assert (Er : (0 <? j_rt s) = took_r h) by (apply diff_pos; [exact Dr| |]; eapply Nat.le_lt_trans; [|exact Hl| |exact Hl]; lia).
  assert (Eb : (0 <? j_nb s) = took_b h) by (apply diff_pos; [exact Db| |]; eapply Nat.le_lt_trans; [|exact Hl| |exact Hl]; lia).
  assert (Eaw : (j_wd s <? 0)%Z = owes_aw h).
  { rewrite Dw. unfold owes_aw.
    destruct (Z.ltb_spec (Z.of_nat (n_aw h) - Z.of_nat (n_w h)) 0), (Nat.ltb_spec (n_aw h) (n_w h));
      try reflexivity; clear -H H0; lia. }
  assert (Ew : (0 <? j_wd s)%Z = owes_w h).
  { rewrite Dw. unfold owes_w.
    destruct (Z.ltb_spec 0 (Z.of_nat (n_aw h) - Z.of_nat (n_w h))), (Nat.ltb_spec (n_w h) (n_aw h));
      try reflexivity; clear -H H0; lia. }
  unfold lh_cycle. cbv zeta. rewrite Er, Eaw, Ew, Eb.
  destruct (hm_one max CAr c_ar (fun _ => false) Hm h _ c Iar) as [m1 [p1 [E1 [F1 G1]]]].
  destruct (hm_one max CR c_r took_r Hm h _ c Ir) as [m2 [p2 [E2 [F2 G2]]]].
  destruct (hm_one max CAw c_aw owes_aw Hm h _ c Iaw) as [m3 [p3 [E3 [F3 G3]]]].
  destruct (hm_one max CW c_w owes_w Hm h _ c Iw) as [m4 [p4 [E4 [F4 G4]]]].
  destruct (hm_one max CB c_b took_b Hm h _ c Ib) as [m5 [p5 [E5 [F5 G5]]]].
  cbv beta in E1. rewrite E1, E2, E3, E4, E5. clear E1 E2 E3 E4 E5.
  assert (W1 : (if c_valid (c_aw c) && c_ready (c_aw c)
      then if (2 ^ 31 - 1 <=? j_wd s)%Z then UB else Ok (j_wd s + 1)%Z else Ok (j_wd s)) =
      Ok (Z.of_nat (n_aw (h ++ [c])) - Z.of_nat (n_w h))%Z).
  { rewrite n_aw_snoc. unfold of_opt. destruct (c_valid (c_aw c) && c_ready (c_aw c)).
    - destruct (Z.leb_spec (2 ^ 31 - 1) (j_wd s)) as [L|L]; [exfalso; clear -L P Dw; lia|].
      f_equal. clear -Dw. lia.
    - f_equal. clear -Dw. lia. }
  rewrite W1. cbn [rbind]. clear W1.
  assert (W2 : (if c_valid (c_w c) && c_ready (c_w c)
      then if (Z.of_nat (n_aw (h ++ [c])) - Z.of_nat (n_w h) <=? - 2 ^ 31)%Z then UB
           else Ok (Z.of_nat (n_aw (h ++ [c])) - Z.of_nat (n_w h) - 1)%Z
      else Ok (Z.of_nat (n_aw (h ++ [c])) - Z.of_nat (n_w h))%Z) =
      Ok (Z.of_nat (n_aw (h ++ [c])) - Z.of_nat (n_w (h ++ [c])))%Z).
  { rewrite n_w_snoc. unfold of_opt. destruct (c_valid (c_w c) && c_ready (c_w c)).
    - destruct (Z.leb_spec (Z.of_nat (n_aw (h ++ [c])) - Z.of_nat (n_w h)) (- 2 ^ 31)) as [L|L];
        [exfalso; clear -L P; lia|]. f_equal. clear. lia.
    - f_equal. clear. lia. }
  rewrite W2. cbn [rbind]. clear W2.
  eexists _, _. split; [reflexivity|]. split.
  - rewrite <- F1, <- F2, <- F3, <- F4, <- F5. split.
    + intros E. apply app_eq_nil in E as [? E]. apply app_eq_nil in E as [? E].
      apply app_eq_nil in E as [? E]. apply app_eq_nil in E as [? ?]. tauto.
    + intros [-> [-> [-> [-> ->]]]]. reflexivity.
  - intros E. apply app_eq_nil in E as [Z1 E]. apply app_eq_nil in E as [Z2 E].
    apply app_eq_nil in E as [Z3 E]. apply app_eq_nil in E as [Z4 Z5].
    unfold linv. cbn [j_ar j_r j_aw j_w j_b j_rt j_wd j_nb].
    split; [apply G1, Z1|]. split; [apply G2, Z2|]. split; [apply G3, Z3|].
    split; [apply G4, Z4|]. split; [apply G5, Z5|].
    split; [rewrite n_ar_snoc, n_r_snoc; apply diff_step, Dr|].
    split; [reflexivity|]. rewrite n_w_snoc, n_b_snoc; apply diff_step, Db.
Qed.

Lemma lh_hist max : 0 < max < 2 ^ 32 -> forall h, (length h < 2 ^ 31)%nat ->
  (forall s, steps (lh_cycle max) lst0 h = Ok (s, []) ->
     linv max h s /\ lite_enforced max h) /\
  (lite_enforced max h -> quiet (steps (lh_cycle max) lst0 h)).
Proof.
  intros Hm. induction h as [|c h IH] using rev_ind; intros Hb.
  - split.
    + intros s E. cbn in E. injection E as <-. split; [apply linv_init, Hm|].
      unfold lite_enforced. repeat (split; [apply behaves_nil, Hm|]). apply behaves_nil, Hm.
    + intros _. exists lst0. reflexivity.
  - assert (Hb' : (length h < 2 ^ 31)%nat)
      by (rewrite app_length in Hb; eapply Nat.le_lt_trans; [|exact Hb]; apply Nat.le_add_r).
    destruct (IH Hb') as [I1 I2]. split.
    + intros s E. assert (Hq : quiet (steps (lh_cycle max) lst0 (h ++ [c])))
        by (exists s; exact E).
      apply quiet_app in Hq as [s1 [E1 _]]. rewrite steps_app, E1 in E.
      cbn [rbind fst snd] in E. rewrite steps_one in E. destruct (I1 s1 E1) as [Hi Hc].
      destruct (lh_one max h s1 c Hm Hi Hb) as [s2 [reps [E2 [F G]]]].
      rewrite E2 in E. cbn in E. injection E as -> ->.
      split; [apply G; reflexivity|]. destruct (proj1 F eq_refl) as [F1 [F2 [F3 [F4 F5]]]].
      destruct Hc as [D1 [D2 [D3 [D4 D5]]]]. unfold lite_enforced.
      split; [apply behaves_snoc; auto|]. split; [apply behaves_snoc; auto|].
      split; [apply behaves_snoc; auto|]. split; apply behaves_snoc; auto.
    + intros [D1 [D2 [D3 [D4 D5]]]].
      apply behaves_snoc in D1 as [D1 K1]. apply behaves_snoc in D2 as [D2 K2].
      apply behaves_snoc in D3 as [D3 K3]. apply behaves_snoc in D4 as [D4 K4].
      apply behaves_snoc in D5 as [D5 K5].
      destruct (I2 (conj D1 (conj D2 (conj D3 (conj D4 D5))))) as [s1 E1].
      destruct (I1 s1 E1) as [Hi _].
      destruct (lh_one max h s1 c Hm Hi Hb) as [s2 [reps [E2 [F G]]]].
      assert (reps = []) as -> by (apply F; tauto).
      exists s2. rewrite steps_app, E1. cbn [rbind fst snd]. rewrite steps_one, E2. reflexivity.
Qed.

Lemma lh_exact max tr : 0 < max < 2 ^ 32 ->
  Forall (fun h => (length h < 2 ^ 31)%nat) (periods true [] tr) ->
  (quiet (lh_run max tr) <-> Forall (lite_enforced max) (periods true [] tr)).
Proof.
  intros Hm Hb. unfold lh_run. rewrite clocked_quiet.
  rewrite !Forall_forall in *. split; intros H h Hin.
  - destruct (H h Hin) as [s E]. apply (lh_hist max Hm h (Hb h Hin)) in E. tauto.
  - apply (lh_hist max Hm h (Hb h Hin)), H, Hin.
Qed.

(** ** For traffic in order, the two readings of "due" agree. *)
Lemma absent_same {A} (ch : cyc -> chan A) e1 e2 : forall h,
  (forall p q, h = p ++ q -> e1 p = e2 p) -> absent ch e1 h = absent ch e2 h.
Proof.
  induction h as [|c h IH] using rev_ind; intros H; [reflexivity|].
  rewrite !absent_snoc. destruct (c_valid (ch c) && c_ready (ch c)); [reflexivity|].
  rewrite (H h [c]) by reflexivity. f_equal. apply IH. intros p1 q1 E.
  apply (H p1 (q1 ++ [c])). rewrite E, app_assoc. reflexivity.
Qed.

Lemma behaves_same {A} max (ch : cyc -> chan A) e1 e2 h :
  (forall p q, h = p ++ q -> e1 p = e2 p) -> behaves max ch e1 h -> behaves max ch e2 h.
Proof.
  intros H [H1 H2]. split; [exact H1|]. intros p q E. specialize (H2 p q E).
  rewrite <- (absent_same ch e1 e2 p); [exact H2|].
  intros p1 q1 E1. apply (H p1 (q1 ++ q)). rewrite E, E1, app_assoc. reflexivity.
Qed.

Lemma order_due h : in_order h -> forall p q, h = p ++ q ->
  took_r p = owes_r p /\ took_b p = owes_b p.
Proof.
  intros H p q E. destruct (H p q E) as [H1 [H2 H3]].
  unfold took_r, owes_r, took_b, owes_b. rewrite Nat.min_r by exact H2.
  split.
  - destruct (Nat.eqb_spec (n_r p) (n_ar p)), (Nat.ltb_spec (n_r p) (n_ar p)); try reflexivity; lia.
  - destruct (Nat.eqb_spec (n_b p) (n_w p)), (Nat.ltb_spec (n_b p) (n_w p)); try reflexivity; lia.
Qed.

Lemma order_conform max h : in_order h -> (lite_enforced max h <-> lite_conform max h).
Proof.
  intros H. pose proof (order_due h H) as Hd. unfold lite_enforced, lite_conform.
  split; intros [D1 [D2 [D3 [D4 D5]]]];
    (split; [exact D1|]); (split; [|split; [exact D3|split; [exact D4|]]]).
  - apply (behaves_same _ _ took_r); [intros p q E; apply (Hd p q E)|exact D2].
  - apply (behaves_same _ _ took_b); [intros p q E; apply (Hd p q E)|exact D5].
  - apply (behaves_same _ _ owes_r); [intros p q E; symmetry; apply (Hd p q E)|exact D2].
  - apply (behaves_same _ _ owes_b); [intros p q E; symmetry; apply (Hd p q E)|exact D5].
Qed.

(** ** Payload comparison *)
Lemma eq2_ok a b : eq2 a b = true <-> a = b.
Proof.
  unfold eq2. destruct a as [a1 a2], b as [b1 b2]. cbn [fst snd]. split.
  - intros H. apply andb_prop in H as [H1 H2]. apply N.eqb_eq in H1, H2. congruence.
  - intros [= -> ->]. rewrite !N.eqb_refl. reflexivity.
Qed.

(** ** The threads together *)
Lemma thread_off {S R} (tag : R -> lreport) (x : res (S * list R)) : thread false tag x = Ok [].
Proof. reflexivity. Qed.
Lemma thread_quiet {S R} on (tag : R -> lreport) (x : res (S * list R)) :
  thread on tag x = Ok [] <-> (on = true -> quiet x).
Proof.
  unfold thread, quiet. destruct on.
  - split.
    + intros H _. destruct x as [[s r]| | |]; cbn in H; try discriminate.
      injection H as H. apply map_eq_nil in H. subst r. exists s. reflexivity.
    + intros H. destruct (H eq_refl) as [s ->]. reflexivity.
  - split; [discriminate|reflexivity].
Qed.
Lemma both_quiet x y : both x y = Ok [] <-> x = Ok [] /\ y = Ok [].
Proof.
  unfold both. destruct x as [a| | |], y as [b| | |]; cbn;
    split; intros H; try discriminate; try (destruct H; discriminate).
  - injection H as H. apply app_eq_nil in H as [-> ->]. split; reflexivity.
  - destruct H as [[= ->] [= ->]]. reflexivity.
Qed.

(** ** Signals *)
Lemma signals_pick ch c1 c2 :
  c_pay (signals ch c1) = c_pay (signals ch c2) <->
  c_pay (ls_pick ch c1) = c_pay (ls_pick ch c2).
Proof.
  destruct ch; cbn; unfold l_ax, l_w, l_r, l_b; split; intros H; injection H; intros; congruence.
Qed.
Lemma signals_valid ch c : c_valid (signals ch c) = c_valid (ls_pick ch c).
Proof. destruct ch; reflexivity. Qed.
Lemma signals_ready ch c : c_ready (signals ch c) = c_ready (ls_pick ch c).
Proof. destruct ch; reflexivity. Qed.

Lemma signals_stable ch l : stable (signals ch) l -> stable (ls_pick ch) l.
Proof.
  intros H p c1 c2 q E V R. rewrite <- signals_valid in V. rewrite <- signals_ready in R.
  destruct (H p c1 c2 q E V R) as [H1 H2]. rewrite signals_valid in H1.
  split; [exact H1|]. apply signals_pick, H2.
Qed.

(** ** Resets *)
Lemma rs_clean l : clean_resets l -> quiet (rs_run l).
Proof.
  enough (G : clean_resets l -> exists s, rs_run l = Ok (s, []) /\
    (s = true -> exists p cs, l = p ++ Fall :: map (Edge false) cs)).
  { intros H. destruct (G H) as [s [E _]]. exists s. exact E. }
  unfold rs_run. induction l as [|e l IH] using rev_ind; intros H.
  - exists false. split; [reflexivity|discriminate].
  - destruct IH as [s [E Hs]].
    { intros p cs c q El. apply (H p cs c (q ++ [e])). rewrite El.
      rewrite <- app_assoc. cbn [app]. rewrite <- app_assoc. reflexivity. }
    rewrite steps_app, E. cbn [rbind fst snd]. rewrite steps_one.
    destruct e as [rn c|]; unfold rs_step.
    + destruct s; cbn [andb]; [destruct rn|].
      * destruct (Hs eq_refl) as [p [cs El]].
        assert (Hl : all_low c).
        { apply (H p cs c []). rewrite El, <- app_assoc. reflexivity. }
        destruct Hl as [L1 [L2 [L3 [L4 L5]]]]. rewrite L1, L2, L3, L4, L5.
        exists false. split; [reflexivity|discriminate].
      * destruct (Hs eq_refl) as [p [cs El]].
        exists true. split; [reflexivity|]. intros _. exists p, (cs ++ [c]).
        rewrite El, map_app, <- app_assoc. reflexivity.
      * exists false. split; [reflexivity|discriminate].
    + exists true. split; [reflexivity|]. intros _. exists l, []. reflexivity.
Qed.

(** ** Responses *)
Definition as_report (x : which * N) : lresp :=
  match fst x with CR => BadR (snd x) | _ => BadB (snd x) end.

Lemma lr_cycle_eq s c : lr_cycle s c = Ok (s, map as_report (errors_of c)).
Proof.
  unfold lr_cycle, errors_of, taken. f_equal. f_equal. rewrite map_app, !map_map.
  destruct (c_valid (c_r c) && c_ready (c_r c)), (c_valid (c_b c) && c_ready (c_b c));
    cbn [opt filter map app]; destruct (r_resp (c_pay (c_r c)) =? 0), (b_resp (c_pay (c_b c)) =? 0);
    reflexivity.
Qed.

Lemma steps_ext {E S R} (f g : S -> E -> res (S * list R)) : (forall s e, f s e = g s e) ->
  forall l s, steps f s l = steps g s l.
Proof.
  intros H. induction l as [|e l IH]; intros s; [reflexivity|]. cbn. rewrite H.
  destruct (g s e) as [[s1 r]| | |]; cbn; try reflexivity. rewrite IH. reflexivity.
Qed.

Lemma lr_exact tr : exists s, lr_run tr =
  Ok (s, map as_report (flat_map (fun h => flat_map errors_of h) (periods true [] tr))).
Proof.
  destruct (clocked_reports (fun c => map as_report (errors_of c)) tr) as [s E].
  exists s. unfold lr_run.
  rewrite (steps_ext _ (clocked tt (fun s c => Ok (s, map as_report (errors_of c))))).
  - rewrite E.
    assert (M : forall (h : list cyc), flat_map (fun c => map as_report (errors_of c)) h =
                  map as_report (flat_map errors_of h)).
    { induction h as [|c h IH]; [reflexivity|]. cbn. rewrite map_app, IH. reflexivity. }
    assert (M2 : forall l, flat_map (fun h => flat_map (fun c => map as_report (errors_of c)) h) l =
                  map as_report (flat_map (fun h => flat_map errors_of h) l)).
    { induction l as [|h l IH]; [reflexivity|]. cbn [flat_map]. rewrite map_app, IH, M. reflexivity. }
    rewrite M2. reflexivity.
  - intros [b u] e. unfold clocked. destruct e as [rn c|]; [|reflexivity].
    destruct b, rn; cbn [fst snd]; try reflexivity. rewrite lr_cycle_eq. reflexivity.
Qed.

Lemma lr_quiet tr : quiet (lr_run tr) <->
  Forall (fun h => Forall (fun c => errors_of c = []) h) (periods true [] tr).
Proof.
  destruct (lr_exact tr) as [s E].
  assert (F : forall (h : list cyc), flat_map errors_of h = [] <-> Forall (fun c => errors_of c = []) h).
  { induction h as [|c h IH]; [split; constructor|]. cbn [flat_map]. split.
    - intros H. apply app_eq_nil in H as [H1 H2]. constructor; [exact H1|apply IH, H2].
    - intros H. inversion_clear H as [|x y H1 H2]. rewrite H1. apply IH, H2. }
  assert (G : forall l, flat_map (fun h => flat_map errors_of h) l = [] <->
              Forall (fun h => Forall (fun c => errors_of c = []) h) l).
  { induction l as [|h l IH]; [split; constructor|]. cbn [flat_map]. split.
    - intros H. apply app_eq_nil in H as [H1 H2]. constructor; [apply F, H1|apply IH, H2].
    - intros H. inversion_clear H as [|x y H1 H2]. apply F in H1. rewrite H1. apply IH, H2. }
  rewrite <- G. split.
  - intros [s' H]. rewrite E in H. injection H as _ H.
    apply map_eq_nil in H. exact H.
  - intros H. exists s. rewrite E, H. reflexivity.
Qed.

(** ** Runs that end in the same edge over and over *)
Lemma map_again {A B} (f : A -> B) x n : map f (repeat x n) = repeat (f x) n.
Proof. induction n as [|n IH]; [reflexivity|]. cbn. rewrite IH. reflexivity. Qed.

Lemma steps_rest {E S R} (f : S -> E -> res (S * list R)) s l e n s1 :
  steps f s l = Ok (s1, []) -> f s1 e = Ok (s1, []) ->
  steps f s (l ++ repeat e n) = Ok (s1, []).
Proof.
  intros E1 E2. rewrite steps_app, E1. cbn [rbind fst snd].
  assert (H : steps f s1 (repeat e n) = Ok (s1, [])).
  { induction n as [|n IH]; [reflexivity|]. cbn. rewrite E2. cbn. rewrite IH. reflexivity. }
  rewrite H. reflexivity.
Qed.

Lemma lite_rest f l e n a b c d g h i j :
  steps (st_step eq2 (ls_pick CAw)) (SIdle, false) l = Ok (a, []) ->
  st_step eq2 (ls_pick CAw) a e = Ok (a, []) ->
  steps (st_step eq2 (ls_pick CAr)) (SIdle, false) l = Ok (b, []) ->
  st_step eq2 (ls_pick CAr) b e = Ok (b, []) ->
  steps (st_step eq2 (ls_pick CW)) (SIdle, false) l = Ok (c, []) ->
  st_step eq2 (ls_pick CW) c e = Ok (c, []) ->
  steps (st_step eq2 (ls_pick CB)) (SIdle, false) l = Ok (d, []) ->
  st_step eq2 (ls_pick CB) d e = Ok (d, []) ->
  steps (st_step eq2 (ls_pick CR)) (SIdle, false) l = Ok (g, []) ->
  st_step eq2 (ls_pick CR) g e = Ok (g, []) ->
  steps (clocked tt lr_cycle) (true, tt) l = Ok (h, []) ->
  clocked tt lr_cycle h e = Ok (h, []) ->
  steps (clocked lst0 (lh_cycle (l_max f))) (true, lst0) l = Ok (i, []) ->
  clocked lst0 (lh_cycle (l_max f)) i e = Ok (i, []) ->
  steps rs_step false l = Ok (j, []) -> rs_step j e = Ok (j, []) ->
  lite_run f (l ++ repeat e n) = Ok [].
Proof.
  intros A1 A2 B1 B2 C1 C2 D1 D2 G1 G2 H1 H2 I1 I2 J1 J2.
  unfold lite_run. rewrite !both_quiet, !thread_quiet.
  unfold ls_run, st_run, lr_run, lh_run, rs_run.
  split; [intros _; exists a; apply steps_rest; assumption|].
  split; [intros _; exists b; apply steps_rest; assumption|].
  split; [intros _; exists c; apply steps_rest; assumption|].
  split; [intros _; exists d; apply steps_rest; assumption|].
  split; [intros _; exists g; apply steps_rest; assumption|].
  split; [intros _; exists h; apply steps_rest; assumption|].
  split; [intros _; exists i; apply steps_rest; assumption|].
  intros _; exists j; apply steps_rest; assumption.
Qed.

(** ** Deciding [behaves] on a given list *)
Definition step_okb {A} (max : N) (ch : cyc -> chan A) (e : list cyc -> bool) (p : list cyc)
    (c : cyc) : bool :=
  (negb (waiting ch p) || c_valid (ch c)) && (N.of_nat (stalled ch (p ++ [c])) <? max)
  && (N.of_nat (absent ch e (p ++ [c])) <? max).
Fixpoint behavesb {A} (max : N) (ch : cyc -> chan A) (e : list cyc -> bool) (p q : list cyc)
    : bool :=
  match q with
  | [] => true
  | c :: q' => step_okb max ch e p c && behavesb max ch e (p ++ [c]) q'
  end.
Lemma behaves_check {A} max (ch : cyc -> chan A) e h :
  (0 <? max) && behavesb max ch e [] h = true -> behaves max ch e h.
Proof.
  intros H. apply andb_prop in H as [Hm H]. apply N.ltb_lt in Hm.
  assert (G : forall q p, behaves max ch e p -> behavesb max ch e p q = true ->
              behaves max ch e (p ++ q)).
  { induction q as [|c q IH]; intros p Hp Hq; [rewrite app_nil_r; exact Hp|].
    cbn [behavesb] in Hq. apply andb_prop in Hq as [Hc Hq].
    change (c :: q) with ([c] ++ q). rewrite app_assoc. apply IH; [|exact Hq].
    apply behaves_snoc. split; [exact Hp|]. unfold step_okb in Hc.
    apply andb_prop in Hc as [Hc H3]. apply andb_prop in Hc as [H1 H2].
    apply N.ltb_lt in H2, H3. split; [|split; assumption].
    intros W. rewrite W in H1. exact H1. }
  apply (G h []); [|exact H]. split.
  - intros [|x p] c1 c2 q E; discriminate.
  - intros p q E. symmetry in E. apply app_eq_nil in E as [-> _]. cbn. split; exact Hm.
Qed.
