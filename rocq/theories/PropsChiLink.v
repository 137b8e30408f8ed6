(** The CHI link layer: C93 (credits and delivery) and C94 (link states). *)
From Verif Require Import Base ChiLinkModel ChiLinkSpec ChiLinkProofs.

(** ** C93 *)
(** Credits are conserved on every channel of both directions; a stopped link has them all
    at the receiver and nothing on its wires. *)
Theorem C93_credits n m s b i c : reached n m s -> nth_error (d_ch (way b s)) i = Some c ->
  credits c = 15%nat /\
  (d_st (way b s) = Stop -> c_rx c = 15%nat /\ c_tx c = 0%nat /\ c_lv c = false /\ c_fv c = None).
Proof.
  intros R N. pose proof (nth_ok b s i c (reached_ok n m s R) N) as O. destruct O as [A B _ _].
  split; [exact A|]. intros S. destruct (B S) as (T & L & F). unfold credits in A.
  rewrite T, L, F in A. cbn in A. unfold MAX_CREDITS in A. repeat split; try assumption. lia.
Qed.

(** The receiver's list is the packets given to the transmitter, in order and each once,
    up to those on the wire or still in the transmitter's list. *)
Theorem C93_delivery_partial n m ls b i : (i < length (d_ch (way b (start n m))))%nat ->
  exists c rest, nth_error (d_ch (way b (run (start n m) ls))) i = Some c /\
    packets (c_got c) ++ flying c ++ rest = given b i ls /\ length rest <= length (c_list c).
Proof.
  intros I. destruct (nth_error (d_ch (way b (start n m))) i) as [c0|] eqn:N;
    [|apply nth_error_None in N; lia].
  assert (Z : c0 = chan0).
  { apply nth_error_In in N. destruct b; cbn in N; exact (repeat_spec _ _ _ N). }
  destruct (delivered b ls _ i c0 (sok_start n m) N) as (c & N' & A). rewrite Z in A.
  exists c, (waiting c). split; [exact N'|]. split; [exact A|].
  unfold waiting. destruct (c_done c); [|lia]. destruct (c_list c); cbn; lia.
Qed.

(** While the link stays in Run, a packet leaves at least every second edge and arrives one
    edge later. *)
Theorem C93_progress n m ls0 ls b i c k : let s := run (start n m) ls0 in
  nth_error (d_ch (way b s)) i = Some c ->
  always (fun t => d_st (way b t) = Run) s ls -> length ls = (2 * k + 1)%nat ->
  exists c', nth_error (d_ch (way b (run s ls))) i = Some c' /\
    (Nat.min (length (packets (c_got c)) + k) (length (given b i ls0))
       <= length (packets (c_got c')))%nat.
Proof.
  intros s N R L. assert (H : sok s) by apply sok_run, sok_start.
  assert (G : all c = given b i ls0).
  { destruct (nth_error (d_ch (way b (start n m))) i) as [c0|] eqn:N0.
    - assert (Z : c0 = chan0).
      { apply nth_error_In in N0. destruct b; cbn in N0; exact (repeat_spec _ _ _ N0). }
      destruct (delivered b ls0 _ i c0 (sok_start n m) N0) as (c' & N' & A).
      fold s in N'. rewrite N in N'. injection N' as <-. rewrite A, Z. reflexivity.
    - apply nth_error_None in N0. assert (Q : (i < length (d_ch (way b s)))%nat)
        by (apply nth_error_Some; congruence). unfold s in Q. rewrite count_run in Q. lia. }
  destruct (exists_last (l := ls)) as (ls' & l & ->); [intros ->; cbn in L; lia|].
  rewrite app_length in L. cbn [length] in L.
  assert (R' : always (fun t => d_st (way b t) = Run) s ls').
  { intros j J. specialize (R j ltac:(rewrite app_length; lia)).
    rewrite firstn_app in R. replace (j - length ls')%nat with 0%nat in R by lia.
    cbn [firstn] in R. rewrite app_nil_r in R. exact R. }
  destruct (sends b k s ls' i c H N R' ltac:(lia)) as (c1 & N1 & S1).
  specialize (R (length ls') ltac:(rewrite app_length; cbn; lia)).
  rewrite firstn_app, Nat.sub_diag, firstn_all in R. cbn [firstn] in R. rewrite app_nil_r in R.
  rewrite run_snoc. set (t := run s ls') in *.
  assert (Ht : sok t) by now apply sok_run.
  destruct (all_step _ _ _ i c1 (step_way b t l) (way_ok b t Ht) N1) as (c2 & N2 & _ & E2).
  exists c2. split; [exact N2|]. rewrite R in E2. rewrite E2.
  pose proof (nth_ok b t i c1 Ht N1) as O. rewrite R in O.
  rewrite run_arrives by now apply process_ok. rewrite sent_process, <- G.
  assert (length (packets (c_got c)) <= sent c)%nat by (unfold sent; lia). lia.
Qed.

(** A direction being deactivated is stopped after at most 17 edges. *)
Theorem C93_deactivates n m s b ls : reached n m s -> d_st (way b s) = Deactivate ->
  (17 <= length ls)%nat -> exists k, (k <= 17)%nat /\ d_st (way b (run s (firstn k ls))) = Stop.
Proof.
  intros R D L. pose proof (reached_ok n m s R) as H.
  apply (stops b 15 s ls H D); [|exact L]. intros c I. apply In_nth_error in I.
  destruct I as [i I]. exact (owed_max _ _ (nth_ok b s i c H I)).
Qed.

Definition quiet (a b : lstate) : label := mkL [] [] a b (fun _ => false) (fun _ => false).
Definition give (xs : list N) : label := mkL [xs] [] Run Run (fun _ => false) (fun _ => true).
Example C93_case :
  let s := run (start 1 1) (repeat (quiet Run Run) 3 ++ [give [5; 6; 7]%N] ++ repeat (quiet Run Run) 3) in
  exists c, nth_error (d_ch (s_ab s)) 0 = Some c /\ packets (c_got c) = [5; 6; 7]%N /\
    credits c = 15%nat /\ d_st (s_ab s) = Run.
Proof. eexists. split; [vm_compute; reflexivity|]. vm_compute. repeat split. Qed.
Example C93_deactivates_case :
  let s := run (start 3 3) (repeat (quiet Run Run) 30 ++ [quiet Stop Run]) in
  d_st (s_ab s) = Deactivate /\ d_st (s_ab (run s (repeat (quiet Stop Run) 17))) = Stop.
Proof. vm_compute. split; reflexivity. Qed.

(** The credits returned at deactivation arrive as packets too. *)
Theorem C93_return_refuted : exists s c, reached 1 1 s /\
  nth_error (d_ch (s_ab s)) 0 = Some c /\ c_got c = [Ret; Ret].
Proof.
  eexists. eexists. split.
  { exists (repeat (quiet Run Run) 2 ++ repeat (quiet Stop Run) 5). reflexivity. }
  split; [vm_compute; reflexivity|]. reflexivity.
Qed.
(** A credit on the wire at a reset is lost; the next deactivation never ends. *)
Theorem C93_reset_refuted : exists s s' ls, reached 1 1 s /\ reset s = Ok s' /\
  forall ls', d_st (s_ab (run (run s' ls) ls')) = Deactivate.
Proof.
  assert (P : forall t, (exists c, d_ch (s_ab t) = [c] /\ (credits c < 15)%nat) ->
    d_st (s_ab t) = Deactivate -> forall l,
    (exists c, d_ch (s_ab (step t l)) = [c] /\ (credits c < 15)%nat) /\
    d_st (s_ab (step t l)) = Deactivate).
  { intros t (c & C & L) D l. destruct (steps t l) as [[E _ _ _ S] _].
    destruct (S D) as [e F]. rewrite E in *. unfold edges in *. rewrite C in *.
    cbn [offer map] in *. set (p := process c (hd [] (l_ab l))) in *.
    assert (Q : (credits (chan_edge (d_st (s_ab t)) p) < 15)%nat).
    { pose proof (credits_edge (d_st (s_ab t)) p) as K. change (credits p) with (credits c) in K. lia. }
    split; [eexists; split; [reflexivity|exact Q]|]. rewrite F. cbn [all_deactivated].
    assert (U : forall x, (credits x < 15)%nat -> deactivated x = false).
    { intros x X. apply Nat.eqb_neq. unfold credits, MAX_CREDITS in *. lia. }
    destruct (e 0%nat); rewrite U; try assumption; reflexivity. }
  eexists. eexists. exists (repeat (quiet Run Run) 3 ++ [quiet Stop Run]).
  split; [exists (repeat (quiet Run Run) 3); reflexivity|]. split; [vm_compute; reflexivity|].
  intros ls'.
  match goal with |- context [run (run ?x ?y) _] => set (t := run x y) end.
  assert (T : (exists c, d_ch (s_ab t) = [c] /\ (credits c < 15)%nat) /\ d_st (s_ab t) = Deactivate).
  { split; [eexists; split; [vm_compute; reflexivity|vm_compute; lia]|vm_compute; reflexivity]. }
  clearbody t. revert t T. induction ls' as [|l ls' IH]; intros t [T D]; [exact D|].
  exact (IH (step t l) (P t T D l)).
Qed.
(** A reset while a packet waits deletes the caller's object. *)
Theorem C93_reset_pending_refuted : exists s, reached 1 1 s /\ reset s = UB.
Proof. eexists. split; [exists [give [5]%N]; reflexivity|]. vm_compute. reflexivity. Qed.

(** ** C94 *)
(** Two bridges that are left alone reach Run in both directions at the second edge and
    stay there. *)
Theorem C94_start n m ls : Forall (fun l => l_a l = Run /\ l_b l = Run) ls ->
  (2 <= length ls)%nat ->
  d_st (s_ab (run (start n m) ls)) = Run /\ d_st (s_ba (run (start n m) ls)) = Run.
Proof.
  intros F L. destruct ls as [|l [|l' ls]]; cbn [length] in L; try lia.
  inversion_clear F as [|? ? [F1 F2] F']. inversion_clear F' as [|? ? [F3 F4] F''].
  set (good := fun s => d_st (s_ab s) = Run /\ d_st (s_ba s) = Run /\
    p_deact (s_a s) = false /\ p_deact (s_b s) = false).
  assert (K : forall ls s, Forall (fun l => l_a l = Run /\ l_b l = Run) ls -> good s -> good (run s ls)).
  { clear. induction ls as [|l ls IH]; intros s F G; [exact G|].
    inversion_clear F as [|? ? [F1 F2] F']. apply (IH (step s l) F').
    destruct s as [[r1 a1 c1] [r2 a2 c2] [pa da] [pb db]]. destruct G as (G1 & G2 & G3 & G4).
    unfold d_st in G1, G2. cbn in G1, G2, G3, G4. subst da db.
    destruct r1, a1; try discriminate G1. destruct r2, a2; try discriminate G2.
    unfold good, step, port_edge, d_st. rewrite F1, F2. cbn. auto. }
  destruct (K ls (step (step (start n m) l) l') F'') as (A & B & _).
  { unfold good, step, port_edge, d_st, start. rewrite F1, F2, F3, F4. cbn. auto. }
  split; [exact A|exact B].
Qed.
(** A bridge told to stop has its transmit direction stopped after at most 20 edges, and
    it stays stopped, whatever the other side does. *)
Theorem C94_stop n m s b ls : reached n m s -> Forall (fun l => want b l = Stop) ls ->
  (20 <= length ls)%nat -> d_st (way b (run s ls)) = Stop.
Proof.
  intros R F L.
  assert (St : forall ls s, Forall (fun l => want b l = Stop) ls -> d_st (way b s) = Stop ->
    d_st (way b (run s ls)) = Stop).
  { clear. induction ls as [|l ls IH]; intros s F D; [exact D|]. inversion_clear F as [|? ? F1 F'].
    apply (IH (step s l) F'). pose proof (want_stop b s l F1) as W. rewrite D in W. exact W. }
  assert (De : forall ls s, reached n m s -> Forall (fun l => want b l = Stop) ls ->
    (17 <= length ls)%nat -> d_st (way b s) = Deactivate -> d_st (way b (run s ls)) = Stop).
  { clear - St. intros ls s R F L D. destruct (C93_deactivates n m s b ls R D L) as (k & K & E).
    rewrite <- (firstn_skipn k ls), run_app. apply St; [|exact E].
    rewrite <- (firstn_skipn k ls) in F. apply Forall_app in F. exact (proj2 F). }
  assert (Re : forall s l, reached n m s -> reached n m (step s l)).
  { clear. intros s l [ls ->]. exists (ls ++ [l]). now rewrite run_snoc. }
  assert (Ru : forall ls s, reached n m s -> Forall (fun l => want b l = Stop) ls ->
    (18 <= length ls)%nat -> d_st (way b s) = Run -> d_st (way b (run s ls)) = Stop).
  { intros [|l ls'] t Rt Ft Lt Dt; cbn [length] in Lt; [lia|]. inversion_clear Ft as [|? ? F1 F'].
    apply (De ls' (step t l)); [now apply Re|exact F'|lia|].
    pose proof (want_stop b t l F1) as W. rewrite Dt in W. exact W. }
  destruct (d_st (way b s)) eqn:D.
  - now apply St.
  - destruct ls as [|l ls]; cbn [length] in L; [lia|]. inversion_clear F as [|? ? F1 F'].
    apply (Ru ls (step s l)); [now apply Re|exact F'|lia|].
    exact (ds_act _ _ _ (step_way b s l) D).
  - apply Ru; try assumption. lia.
  - apply De; try assumption. lia.
Qed.
Example C94_case :
  d_st (s_ab (run (start 3 3) (repeat (quiet Run Run) 10 ++ repeat (quiet Stop Run) 20))) = Stop.
Proof. vm_compute. reflexivity. Qed.

(** One early stop and both directions keep going down and up again: from then on, with
    both sides asked to run, they are never in Run at the same time. *)
Definition bare (c : chan) : chan :=
  mkC (c_tx c) (c_list c) (c_done c) (c_fv c) (c_lv c) (c_rx c) [].
Definition bare_dir (d : dir) : dir := mkD (d_req d) (d_ack d) (map bare (d_ch d)).
Definition bare_sys (s : sys) : sys := mkS (bare_dir (s_ab s)) (bare_dir (s_ba s)) (s_a s) (s_b s).
Lemma bare_edge st c xs : bare (chan_edge st (process (bare c) xs)) = bare (chan_edge st (process c xs)).
Proof.
  destruct c as [tx l dn fv lv rx got]. unfold bare, chan_edge, process.
  cbn [c_tx c_list c_done c_fv c_lv c_rx c_got].
  destruct st, lv, tx, dn, rx; try destruct fv; destruct (l ++ xs) as [|x [|y z]]; reflexivity.
Qed.
Lemma rx_edge_bare st c xs : c_rx (chan_edge st (process (bare c) xs)) = c_rx (chan_edge st (process c xs)).
Proof. apply (f_equal c_rx (bare_edge st c xs)). Qed.
Lemma bare_edges d ns : map bare (edges (bare_dir d) ns) = map bare (edges d ns).
Proof.
  unfold edges. change (d_st (bare_dir d)) with (d_st d). cbn [bare_dir d_ch].
  generalize (d_ch d) as cs. intros cs. revert ns. induction cs as [|c cs IH]; intros ns; [reflexivity|].
  cbn [map offer]. rewrite bare_edge, IH. reflexivity.
Qed.
Lemma bare_all early old new : forall k,
  all_deactivated early k (map bare old) (map bare new) = all_deactivated early k old new.
Proof.
  revert new. induction old as [|o old IH]; intros [|x new] k; cbn [map all_deactivated]; try reflexivity.
  rewrite IH. destruct (early k); reflexivity.
Qed.
Lemma bare_idle early d ns : all_deactivated early 0 (d_ch (bare_dir d)) (edges (bare_dir d) ns) =
  all_deactivated early 0 (d_ch d) (edges d ns).
Proof.
  rewrite <- (bare_all early (d_ch (bare_dir d))), <- (bare_all early (d_ch d)), bare_edges.
  f_equal. cbn [bare_dir d_ch]. rewrite map_map. reflexivity.
Qed.
Lemma bare_step s l : bare_sys (step (bare_sys s) l) = bare_sys (step s l).
Proof.
  unfold step. cbn [bare_sys s_ab s_ba s_a s_b]. rewrite !bare_idle.
  assert (P : forall p tx rx i, port_edge p (bare_dir tx) (bare_dir rx) i = port_edge p tx rx i)
    by reflexivity.
  rewrite !P.
  destruct (port_edge (mkP (l_a l) _) _ _ _) as [[a r1] k2].
  destruct (port_edge (mkP (l_b l) _) _ _ _) as [[b r2] k1].
  unfold bare_sys, bare_dir at 1 3. cbn [s_ab s_ba s_a s_b d_req d_ack d_ch].
  f_equal; unfold bare_dir; cbn [d_req d_ack d_ch]; f_equal; apply bare_edges.
Qed.
Lemma bare_run ls : forall s, bare_sys (run s ls) = bare_sys (run (bare_sys s) ls).
Proof.
  induction ls as [|l ls IH]; intros s; [unfold bare_sys, bare_dir; cbn; now rewrite !map_map|].
  cbn [run fold_left]. fold (run (step s l) ls). fold (run (step (bare_sys s) l) ls).
  rewrite IH, <- bare_step, <- IH. reflexivity.
Qed.
Theorem C94_settles_refuted : exists s, reached 3 3 s /\
  forall k, let t := run s (repeat (quiet Run Run) k) in
  ~ (d_st (s_ab t) = Run /\ d_st (s_ba t) = Run).
Proof.
  set (s0 := run (start 3 3) (repeat (quiet Run Run) 2 ++ [quiet Stop Run] ++ repeat (quiet Run Run) 3)).
  exists s0. split; [eexists; reflexivity|].
  set (R := fun k => repeat (quiet Run Run) k).
  assert (Cy : bare_sys (run s0 (R 6)) = bare_sys s0) by (vm_compute; reflexivity).
  assert (Sm : forall k, (k < 6)%nat -> ~ (d_st (s_ab (run s0 (R k))) = Run /\ d_st (s_ba (run s0 (R k))) = Run)).
  { intros k K. do 6 (destruct k as [|k]; [vm_compute; intros [A B]; (discriminate A || discriminate B)|]). lia. }
  assert (Pe : forall q r, bare_sys (run s0 (R (q * 6 + r)%nat)) = bare_sys (run s0 (R r))).
  { induction q as [|q IH]; intros r; [reflexivity|].
    replace (S q * 6 + r)%nat with (6 + (q * 6 + r))%nat by lia. unfold R. rewrite repeat_app, run_app.
    fold (R 6). fold (R (q * 6 + r)%nat). rewrite bare_run, Cy, <- bare_run. apply IH. }
  intros k t. subst t. fold (R k).
  assert (X : exists q r, k = (q * 6 + r)%nat /\ (r < 6)%nat).
  { exists (k / 6)%nat, (k mod 6)%nat. split; [|apply Nat.mod_upper_bound; discriminate].
    rewrite (Nat.mul_comm (k / 6) 6). apply Nat.div_mod. discriminate. }
  destruct X as (q & r & -> & K). specialize (Sm r K). specialize (Pe q r).
  assert (E1 : d_st (s_ab (run s0 (R (q * 6 + r)%nat))) = d_st (s_ab (run s0 (R r))))
    by exact (f_equal (fun s => d_st (s_ab s)) Pe).
  assert (E2 : d_st (s_ba (run s0 (R (q * 6 + r)%nat))) = d_st (s_ba (run s0 (R r))))
    by exact (f_equal (fun s => d_st (s_ba s)) Pe).
  rewrite E1, E2. exact Sm.
Qed.

Print Assumptions C93_credits.
Print Assumptions C93_delivery_partial.
Print Assumptions C93_progress.
Print Assumptions C93_deactivates.
Print Assumptions C93_return_refuted.
Print Assumptions C93_reset_refuted.
Print Assumptions C93_reset_pending_refuted.
Print Assumptions C94_start.
Print Assumptions C94_stop.
Print Assumptions C94_settles_refuted.
