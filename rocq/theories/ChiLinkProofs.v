From Verif Require Import Base ChiLinkModel ChiLinkSpec.

(** One direction between two edges, whatever the ports do. *)
Record dstep (d d' : dir) (news : list (list N)) : Prop := {
  ds_ch : d_ch d' = edges d news;
  ds_stop : d_st d = Stop -> d_st d' = Stop \/ d_st d' = Activate;
  ds_act : d_st d = Activate -> d_st d' = Run;
  ds_run : d_st d = Run -> d_st d' = Run \/ d_st d' = Deactivate;
  ds_deact : d_st d = Deactivate -> exists early,
    d_st d' = if all_deactivated early 0 (d_ch d) (d_ch d') then Stop else Deactivate }.

Lemma port_tx p tx rx idle p' r a : port_edge p tx rx idle = (p', r, a) ->
  match d_st tx with
  | Stop => r = is_run (p_state p) || d_req tx
  | Run => r = true -> d_req tx = true
  | _ => r = d_req tx
  end.
Proof.
  unfold port_edge. destruct (d_st rx), (d_st tx); cbn;
    repeat match goal with |- context [if ?b then _ else _] => destruct b end;
    intros H; injection H as <- <- <-; auto; try discriminate.
Qed.
Lemma port_rx p tx rx idle p' r a : port_edge p tx rx idle = (p', r, a) ->
  a = match d_st rx with
      | Activate => true
      | Deactivate => if idle then false else d_ack rx
      | _ => d_ack rx
      end.
Proof.
  unfold port_edge. destruct (d_st rx), (d_st tx); cbn;
    repeat match goal with |- context [if ?b then _ else _] => destruct b end;
    intros H; injection H as <- <- <-; reflexivity.
Qed.
Lemma steps s l : dstep (s_ab s) (s_ab (step s l)) (l_ab l) /\
  dstep (s_ba s) (s_ba (step s l)) (l_ba l).
Proof.
  unfold step.
  destruct (port_edge (mkP (l_a l) _) _ _ _) as [[a r1] k2] eqn:E1.
  destruct (port_edge (mkP (l_b l) _) _ _ _) as [[b r2] k1] eqn:E2.
  cbn [s_ab s_ba].
  pose proof (port_tx _ _ _ _ _ _ _ E1) as T1. pose proof (port_rx _ _ _ _ _ _ _ E1) as R1.
  pose proof (port_tx _ _ _ _ _ _ _ E2) as T2. pose proof (port_rx _ _ _ _ _ _ _ E2) as R2.
  clear E1 E2.
  split; (split; [reflexivity| | | |]); unfold d_st in *; cbn [d_req d_ack d_ch] in *;
    destruct (d_req (s_ab s)), (d_ack (s_ab s)), (d_req (s_ba s)), (d_ack (s_ba s));
    cbn [link_state] in *; try discriminate; intros _;
    repeat match goal with H : ?x = true -> _ |- _ => destruct x; [specialize (H eq_refl)|clear H] end;
    subst; cbn; auto;
    try (destruct (is_run _); cbn; auto; fail);
    try (eexists; match goal with
      |- context [all_deactivated ?e _ _ ?x] => is_evar e end; reflexivity).
  all: try (exists (l_eb l); destruct (all_deactivated (l_eb l) 0 _ _); reflexivity).
  all: try (exists (l_ea l); destruct (all_deactivated (l_ea l) 0 _ _); reflexivity).
Qed.

(** ** One channel *)
Record ok (st : lstate) (c : chan) : Prop := {
  ok_sum : credits c = MAX_CREDITS;
  ok_stop : st = Stop -> c_tx c = 0%nat /\ c_lv c = false /\ c_fv c = None;
  ok_act : st = Activate -> c_fv c = None;
  ok_done : if c_done c then match c_list c with x :: _ => c_fv c = Some (Pkt x) | [] => False end
            else match c_fv c with Some (Pkt _) => False | _ => True end }.
(** What was accepted: delivered, on the wire, or waiting. *)
Definition waiting (c : chan) : list N := if c_done c then tl (c_list c) else c_list c.
Definition all (c : chan) : list N := packets (c_got c) ++ flying c ++ waiting c.

Lemma packets_app l m : packets (l ++ m) = packets l ++ packets m.
Proof. induction l as [|[x|] l IH]; cbn; [reflexivity|now rewrite IH|exact IH]. Qed.
Lemma process_ok st c xs : ok st c -> ok st (process c xs).
Proof.
  intros [A B C D]. split; cbn [process c_tx c_list c_done c_fv c_lv c_rx c_got]; try assumption.
  destruct (c_done c); [|exact D]. destruct (c_list c); [contradiction|exact D].
Qed.
Lemma process_all st c xs : ok st c -> all (process c xs) = all c ++ xs.
Proof.
  intros [_ _ _ D]. unfold all, waiting, flying. cbn [process c_tx c_list c_done c_fv c_lv c_rx c_got].
  rewrite <- !app_assoc. do 2 f_equal. destruct (c_done c); [|reflexivity].
  destruct (c_list c); [contradiction|reflexivity].
Qed.
Ltac chans := cbn [chan_edge rx_edge tx_edge c_tx c_list c_done c_fv c_lv c_rx c_got credits flag
  held packets flying waiting tl hd app] in *.
(** The edge itself: the new credits, before the link state changes. *)
Lemma edge_sum st c : ok st c -> credits (chan_edge st c) = MAX_CREDITS.
Proof.
  intros [A B C D]. destruct c as [tx l dn fv lv rx got]. unfold credits in *. chans.
  destruct st; [specialize (B eq_refl); chans; destruct B as (-> & -> & ->); chans; lia|..];
    [specialize (C eq_refl); chans; subst fv| |];
    destruct lv, tx, rx, dn; try destruct l as [|x [|y l]]; try destruct fv; chans; try contradiction; try lia.
Qed.
Lemma edge_all st c : ok st c -> all (chan_edge st c) = all c.
Proof.
  intros [A B C D]. destruct c as [tx l dn fv lv rx got]. unfold all, waiting, flying. chans.
  destruct st; [specialize (B eq_refl); chans; destruct B as (-> & -> & ->); reflexivity|..];
    [specialize (C eq_refl); chans; subst fv| |];
    destruct lv, tx, rx, dn; try destruct l as [|x [|y l]]; try destruct fv as [[z|]|]; chans;
    rewrite ?packets_app, <- ?app_assoc; chans; try contradiction; try reflexivity;
    try (injection D as ->); try discriminate D; try reflexivity.
Qed.
Lemma edge_done st c : ok st c -> let c' := chan_edge st c in
  if c_done c' then match c_list c' with x :: _ => c_fv c' = Some (Pkt x) | [] => False end
  else match c_fv c' with Some (Pkt _) => False | _ => True end.
Proof.
  intros [A B C D]. destruct c as [tx l dn fv lv rx got]. chans.
  destruct st; [specialize (B eq_refl); chans; destruct B as (-> & -> & ->); chans; exact D|..];
    [specialize (C eq_refl); chans; subst fv| |];
    destruct lv, tx, rx, dn; try destruct l as [|x [|y l]]; try destruct fv as [[z|]|]; chans;
    try contradiction; try discriminate D; auto.
Qed.
Lemma stop_edge c : ok Stop c -> c_tx (chan_edge Stop c) = 0%nat /\ c_lv (chan_edge Stop c) = false /\
  c_fv (chan_edge Stop c) = None.
Proof.
  intros [A B C D]. destruct c as [tx l dn fv lv rx got]. specialize (B eq_refl). chans.
  destruct B as (-> & -> & ->). auto.
Qed.
Lemma deact_edge c : ok Deactivate c ->
  deactivated c = true \/ deactivated (chan_edge Deactivate c) = true ->
  c_tx (chan_edge Deactivate c) = 0%nat /\ c_lv (chan_edge Deactivate c) = false /\
  c_fv (chan_edge Deactivate c) = None.
Proof.
  intros O H. pose proof (edge_sum _ _ O) as S. destruct O as [A _ _ D].
  destruct H as [H|H]; apply Nat.eqb_eq in H.
  - destruct c as [tx l dn fv lv rx got]. unfold credits in A. chans. subst rx.
    unfold MAX_CREDITS in A. destruct tx, lv, fv; chans; try lia.
    destruct dn, l as [|x [|y l]]; chans; auto.
  - unfold credits in S. rewrite H in S. destruct (chan_edge Deactivate c) as [tx l dn fv lv rx got].
    chans. destruct tx, lv, fv; chans; try lia. auto.
Qed.

(** ** A direction *)
Definition dok (d : dir) : Prop := Forall (ok (d_st d)) (d_ch d).
Lemma offer_nth cs : forall news i, nth_error (offer cs news) i =
  option_map (fun c => process c (nth i news [])) (nth_error cs i).
Proof.
  induction cs as [|c cs IH]; intros news [|i]; cbn [offer nth_error option_map]; try reflexivity.
  - destruct news; reflexivity.
  - rewrite IH. destruct news as [|n news]; cbn [tl nth]; [destruct i; reflexivity|reflexivity].
Qed.
Lemma edges_nth d news i c : nth_error (d_ch d) i = Some c ->
  nth_error (edges d news) i = Some (chan_edge (d_st d) (process c (nth i news []))).
Proof. intros H. unfold edges. apply map_nth_error. now rewrite offer_nth, H. Qed.
Lemma offer_length cs : forall news, length (offer cs news) = length cs.
Proof. induction cs as [|c cs IH]; intros news; cbn; [reflexivity|now rewrite IH]. Qed.
Lemma edges_length d news : length (edges d news) = length (d_ch d).
Proof. unfold edges. now rewrite map_length, offer_length. Qed.
Lemma offer_ok st cs : forall news, Forall (ok st) cs -> Forall (ok st) (offer cs news).
Proof.
  induction cs as [|c cs IH]; intros news H; cbn [offer]; [constructor|].
  inversion_clear H. constructor; [now apply process_ok|now apply IH].
Qed.
Lemma all_nth early old new : forall k i c c', all_deactivated early k old new = true ->
  nth_error old i = Some c -> nth_error new i = Some c' ->
  deactivated c = true \/ deactivated c' = true.
Proof.
  revert new. induction old as [|o old IH]; intros new k i c c' H A B; [destruct i; discriminate A|].
  destruct new as [|n new]; [destruct i; discriminate B|]. cbn [all_deactivated] in H.
  apply andb_prop in H. destruct H as [H1 H2]. destruct i as [|i]; cbn [nth_error] in A, B.
  - injection A as <-. injection B as <-. destruct (early k); auto.
  - eapply IH; eauto.
Qed.
Lemma dok_step d d' news : dstep d d' news -> dok d -> dok d'.
Proof.
  intros [E S1 S2 S3 S4] H. unfold dok in *. apply Forall_forall. intros c' I.
  apply In_nth_error in I. destruct I as [i I]. rewrite E in I.
  destruct (nth_error (d_ch d) i) as [c|] eqn:N.
  2:{ apply nth_error_None in N. assert (L : (i < length (edges d news))%nat)
        by (apply nth_error_Some; congruence). rewrite edges_length in L. lia. }
  pose proof (edges_nth d news i c N) as I'. rewrite I in I'. injection I' as ->.
  assert (O : ok (d_st d) (process c (nth i news []))).
  { apply process_ok. rewrite Forall_forall in H. apply H. eapply nth_error_In, N. }
  set (p := process c (nth i news [])) in *.
  split; [now apply edge_sum| | |now apply edge_done].
  - intros Z. destruct (d_st d) eqn:D.
    + apply stop_edge, O.
    + rewrite S2 in Z by reflexivity. discriminate Z.
    + destruct (S3 eq_refl) as [X|X]; rewrite X in Z; discriminate Z.
    + destruct (S4 eq_refl) as [e X]. rewrite X in Z.
      destruct (all_deactivated e 0 (d_ch d) (d_ch d')) eqn:Y; [|discriminate Z].
      apply deact_edge; [exact O|]. rewrite E in Y.
      destruct (all_nth e _ _ 0%nat i c _ Y N I) as [Q|Q]; [left; exact Q|right; exact Q].
  - intros Z. destruct (d_st d) eqn:D.
    + apply stop_edge, O.
    + rewrite S2 in Z by reflexivity. discriminate Z.
    + destruct (S3 eq_refl) as [X|X]; rewrite X in Z; discriminate Z.
    + destruct (S4 eq_refl) as [e X]. rewrite X in Z.
      destruct (all_deactivated e 0 (d_ch d) (d_ch d')); discriminate Z.
Qed.
Lemma all_step d d' news i c : dstep d d' news -> dok d -> nth_error (d_ch d) i = Some c ->
  exists c', nth_error (d_ch d') i = Some c' /\ all c' = all c ++ nth i news [] /\
    c' = chan_edge (d_st d) (process c (nth i news [])).
Proof.
  intros [E _ _ _ _] H N. eexists. rewrite E. split; [apply edges_nth, N|]. split; [|reflexivity].
  assert (O : ok (d_st d) c) by (unfold dok in H; rewrite Forall_forall in H; apply H; eapply nth_error_In, N).
  rewrite edge_all by now apply process_ok. eapply process_all, O.
Qed.

(** ** Executions *)
Definition sok (s : sys) : Prop := dok (s_ab s) /\ dok (s_ba s).
Lemma sok_step s l : sok s -> sok (step s l).
Proof.
  intros [A B]. destruct (steps s l) as [S T].
  split; [exact (dok_step _ _ _ S A)|exact (dok_step _ _ _ T B)].
Qed.
Lemma sok_run ls : forall s, sok s -> sok (run s ls).
Proof. induction ls as [|l ls IH]; intros s H; [exact H|]. apply IH, sok_step, H. Qed.
Lemma sok_start n m : sok (start n m).
Proof.
  assert (O : ok Stop chan0) by (split; cbn; auto; discriminate).
  split; unfold dok; cbn; apply Forall_forall; intros c I; apply repeat_spec in I; subst; exact O.
Qed.
Lemma reached_ok n m s : reached n m s -> sok s.
Proof. intros [ls ->]. apply sok_run, sok_start. Qed.
Lemma run_snoc s ls l : run s (ls ++ [l]) = step (run s ls) l.
Proof. unfold run. now rewrite fold_left_app. Qed.
Lemma run_app s ls ls' : run s (ls ++ ls') = run (run s ls) ls'.
Proof. unfold run. now rewrite fold_left_app. Qed.
Lemma step_way b s l : dstep (way b s) (way b (step s l)) (news b l).
Proof. destruct (steps s l) as [S T]. destruct b; assumption. Qed.
Lemma way_ok b s : sok s -> dok (way b s).
Proof. intros [A B]. destruct b; assumption. Qed.
Lemma nth_ok b s i c : sok s -> nth_error (d_ch (way b s)) i = Some c -> ok (d_st (way b s)) c.
Proof.
  intros H N. apply (way_ok b) in H. unfold dok in H. rewrite Forall_forall in H.
  apply H. eapply nth_error_In, N.
Qed.
Lemma delivered b ls : forall s i c, sok s -> nth_error (d_ch (way b s)) i = Some c ->
  exists c', nth_error (d_ch (way b (run s ls))) i = Some c' /\ all c' = all c ++ given b i ls.
Proof.
  induction ls as [|l ls IH]; intros s i c H N.
  - exists c. rewrite app_nil_r. split; [exact N|reflexivity].
  - destruct (all_step _ _ _ i c (step_way b s l) (way_ok b s H) N) as (c1 & N1 & A1 & _).
    destruct (IH (step s l) i c1 (sok_step s l H) N1) as (c2 & N2 & A2).
    exists c2. split; [exact N2|]. rewrite A2, A1, <- app_assoc. reflexivity.
Qed.
Lemma count_run b ls : forall s, length (d_ch (way b (run s ls))) = length (d_ch (way b s)).
Proof.
  induction ls as [|l ls IH]; intros s; [reflexivity|]. cbn [run fold_left]. fold (run (step s l) ls).
  rewrite IH. rewrite (ds_ch _ _ _ (step_way b s l)). apply edges_length.
Qed.

(** ** Progress in Run *)
Definition sent (c : chan) : nat := length (packets (c_got c)) + length (flying c).
Lemma sent_all c : (sent c + length (waiting c) = length (all c))%nat.
Proof. unfold sent, all. rewrite !app_length. lia. Qed.
Lemma run_arrives c : ok Run c -> length (packets (c_got (chan_edge Run c))) = sent c.
Proof.
  intros [A B C D]. destruct c as [tx l dn fv lv rx got]. unfold sent, flying. chans.
  destruct lv, tx, rx, dn; try destruct l as [|x [|y l]]; try destruct fv as [[z|]|]; chans;
    try contradiction; try discriminate D; rewrite ?packets_app, ?app_length; chans; cbn [length]; lia.
Qed.
Lemma run_sends c : ok Run c -> (0 < c_tx c \/ c_lv c = true)%nat -> waiting c <> [] ->
  sent (chan_edge Run c) = S (sent c).
Proof.
  intros O H W. pose proof (run_arrives c O) as R. unfold sent at 1. rewrite R.
  destruct O as [A B C D]. destruct c as [tx l dn fv lv rx got]. unfold flying, waiting in *. chans.
  destruct lv, tx, rx, dn; try destruct l as [|x [|y l]]; try destruct fv as [[z|]|]; chans;
    try contradiction; try discriminate D; cbn [length]; try lia;
    destruct H as [H|H]; try lia; try discriminate H.
Qed.
Lemma run_credit c : ok Run c -> c_tx c = 0%nat -> c_lv c = false ->
  c_lv (chan_edge Run c) = true.
Proof.
  intros [A B C D] E F. destruct c as [tx l dn fv lv rx got]. unfold credits in A. chans. subst.
  destruct fv as [[z|]|]; chans; unfold MAX_CREDITS in A; destruct rx; try lia;
    destruct dn, l as [|x [|y l]]; chans; reflexivity.
Qed.
Lemma run_grows c : ok Run c -> (sent c <= sent (chan_edge Run c))%nat.
Proof. intros O. unfold sent at 2. rewrite run_arrives by exact O. lia. Qed.
Lemma sent_process c xs : sent (process c xs) = sent c.
Proof. reflexivity. Qed.
Lemma wait_process st c xs : ok st c -> waiting (process c xs) = waiting c ++ xs.
Proof.
  intros [_ _ _ D]. unfold waiting. cbn [process c_list c_done]. destruct (c_done c); [|reflexivity].
  destruct (c_list c); [contradiction|reflexivity].
Qed.
(** Two edges in Run send a packet if one waits. *)
Lemma two_edges b s l l' i c : sok s -> nth_error (d_ch (way b s)) i = Some c ->
  d_st (way b s) = Run -> d_st (way b (step s l)) = Run ->
  exists c', nth_error (d_ch (way b (step (step s l) l'))) i = Some c' /\
    (Nat.min (S (sent c)) (length (all c)) <= sent c')%nat /\
    all c' = all c ++ nth i (news b l) [] ++ nth i (news b l') [].
Proof.
  intros H N R1 R2. pose proof (nth_ok b s i c H N) as O. rewrite R1 in O.
  destruct (all_step _ _ _ i c (step_way b s l) (way_ok b s H) N) as (c1 & N1 & A1 & E1).
  pose proof (sok_step s l H) as H1. pose proof (nth_ok b _ i c1 H1 N1) as O1. rewrite R2 in O1.
  destruct (all_step _ _ _ i c1 (step_way b _ l') (way_ok b _ H1) N1) as (c2 & N2 & A2 & E2).
  exists c2. split; [exact N2|]. split; [|rewrite A2, A1, <- app_assoc; reflexivity].
  rewrite R1 in E1. rewrite R2 in E2.
  set (p := process c (nth i (news b l) [])) in *. set (p1 := process c1 (nth i (news b l') [])) in *.
  assert (OP : ok Run p) by now apply process_ok. assert (OP1 : ok Run p1) by now apply process_ok.
  assert (G1 : (sent c <= sent c1)%nat) by (rewrite E1; apply (run_grows p OP)).
  assert (G2 : (sent c1 <= sent c2)%nat) by (rewrite E2; apply (run_grows p1 OP1)).
  destruct (waiting c) as [|x w] eqn:W.
  { pose proof (sent_all c) as S. rewrite W in S. cbn [length] in S. lia. }
  destruct (Nat.eq_dec (sent c1) (sent c)) as [Q|Q]; [|lia].
  destruct (c_lv c || Nat.ltb 0 (c_tx c)) eqn:K.
  - assert (S1 : sent (chan_edge Run p) = S (sent p)).
    { apply run_sends; [exact OP| |].
      - apply orb_prop in K. destruct K as [K|K]; [right; exact K|left; apply Nat.ltb_lt in K; exact K].
      - unfold p. rewrite (wait_process Run) by exact O. rewrite W. discriminate. }
    rewrite <- E1 in S1. unfold p in S1. rewrite sent_process in S1. lia.
  - apply orb_false_elim in K. destruct K as [K1 K2]. apply Nat.ltb_ge in K2.
    assert (L1 : c_lv c1 = true).
    { rewrite E1. apply run_credit; [exact OP|cbn [p process c_tx]; lia|exact K1]. }
    assert (S2 : sent (chan_edge Run p1) = S (sent p1)).
    { apply run_sends; [exact OP1|right; exact L1|].
      unfold p1. rewrite (wait_process Run) by exact O1. intros Z. apply app_eq_nil in Z.
      destruct Z as [Z _]. pose proof (sent_all c) as P. pose proof (sent_all c1) as P1.
      rewrite W in P. rewrite Z in P1. rewrite A1, app_length in P1. cbn [length] in P, P1. lia. }
    rewrite <- E2 in S2. unfold p1 in S2. rewrite sent_process in S2. lia.
Qed.
Lemma always_tail P s l ls : always P s (l :: ls) -> P s /\ always P (step s l) ls.
Proof.
  intros H. split; [exact (H 0%nat ltac:(cbn; lia))|].
  intros k K. exact (H (S k) ltac:(cbn; lia)).
Qed.
Lemma sends b k : forall s ls i c, sok s -> nth_error (d_ch (way b s)) i = Some c ->
  always (fun t => d_st (way b t) = Run) s ls -> length ls = (2 * k)%nat ->
  exists c', nth_error (d_ch (way b (run s ls))) i = Some c' /\
    (Nat.min (sent c + k) (length (all c)) <= sent c')%nat.
Proof.
  induction k as [|k IH]; intros s ls i c H N R L.
  - destruct ls; [|discriminate L]. exists c. split; [exact N|]. rewrite Nat.add_0_r. lia.
  - destruct ls as [|l [|l' ls]]; cbn [length] in L; try lia.
    destruct (always_tail _ _ _ _ R) as [R1 R']. destruct (always_tail _ _ _ _ R') as [R2 R''].
    destruct (two_edges b s l l' i c H N R1 R2) as (c1 & N1 & S1 & A1).
    destruct (IH _ ls i c1 (sok_step _ l' (sok_step s l H)) N1 R'' ltac:(lia)) as (c2 & N2 & S2).
    exists c2. split; [exact N2|]. rewrite A1, !app_length in S2.
    pose proof (sent_all c1). lia.
Qed.

(** ** Deactivation *)
Definition owed (c : chan) : nat := c_tx c + flag (c_lv c).
Lemma deact_owed c : ok Deactivate c -> owed (chan_edge Deactivate c) = Nat.pred (owed c).
Proof.
  intros O. unfold owed. destruct c as [tx l dn fv lv rx got]. chans.
  destruct lv, tx, dn; try destruct l as [|x [|y l]]; try destruct fv as [[z|]|]; chans; lia.
Qed.
Lemma deact_none c : ok Deactivate c -> owed c = 0%nat ->
  deactivated (chan_edge Deactivate c) = true.
Proof.
  intros O Z. apply Nat.eqb_eq. destruct O as [A B C D]. unfold owed, credits in *.
  destruct c as [tx l dn fv lv rx got]. chans. destruct tx, lv; chans; try lia.
  destruct dn; try destruct l as [|x [|y l]]; try destruct fv as [[z|]|]; chans; lia.
Qed.
Lemma all_true early old new : (forall c, In c old -> deactivated c = true) ->
  (forall c, In c new -> deactivated c = true) ->
  forall k, all_deactivated early k old new = true.
Proof.
  revert new. induction old as [|o old IH]; intros new A B k; [reflexivity|].
  destruct new as [|n new]; [reflexivity|]. cbn [all_deactivated]. rewrite IH.
  - destruct (early k); [rewrite A|rewrite B]; cbn; auto.
  - intros c I. apply A. right. exact I.
  - intros c I. apply B. right. exact I.
Qed.
(** Every channel at the next edge comes from one at this. *)
Lemma came b s l c' : sok s -> In c' (d_ch (way b (step s l))) ->
  exists c xs, In c (d_ch (way b s)) /\ ok (d_st (way b s)) (process c xs) /\
    c' = chan_edge (d_st (way b s)) (process c xs).
Proof.
  intros H I. apply In_nth_error in I. destruct I as [i I].
  pose proof (step_way b s l) as D.
  destruct (nth_error (d_ch (way b s)) i) as [c|] eqn:N.
  2:{ apply nth_error_None in N. assert (L : (i < length (d_ch (way b (step s l))))%nat)
        by (apply nth_error_Some; congruence). rewrite (ds_ch _ _ _ D), edges_length in L. lia. }
  destruct (all_step _ _ _ i c D (way_ok b s H) N) as (c1 & N1 & _ & E1).
  rewrite I in N1. injection N1 as <-. exists c, (nth i (news b l) []).
  split; [eapply nth_error_In, N|]. split; [|exact E1].
  apply process_ok. exact (nth_ok b s i c H N).
Qed.
Lemma deact_or_stop b s l : d_st (way b s) = Deactivate ->
  d_st (way b (step s l)) = Deactivate \/ d_st (way b (step s l)) = Stop.
Proof.
  intros D. destruct (ds_deact _ _ _ (step_way b s l) D) as [e E]. rewrite E.
  destruct (all_deactivated _ _ _ _); auto.
Qed.
Lemma stops b n : forall s ls, sok s -> d_st (way b s) = Deactivate ->
  (forall c, In c (d_ch (way b s)) -> owed c <= n)%nat -> (n + 2 <= length ls)%nat ->
  exists k, (k <= n + 2)%nat /\ d_st (way b (run s (firstn k ls))) = Stop.
Proof.
  induction n as [|n IH]; intros s ls H D W L.
  - destruct ls as [|l [|l' ls]]; cbn [length] in L; try lia.
    destruct (deact_or_stop b s l D) as [D1|D1]; [|exists 1%nat; split; [lia|exact D1]].
    exists 2%nat. split; [lia|]. cbn [firstn run fold_left].
    pose proof (sok_step s l H) as H1.
    assert (Z1 : forall c, In c (d_ch (way b (step s l))) -> deactivated c = true /\ owed c = 0%nat).
    { intros c' I. destruct (came b s l c' H I) as (c & xs & I' & O & ->). rewrite D in *.
      assert (Z : owed (process c xs) = 0%nat) by (specialize (W c I'); unfold owed in *; cbn; lia).
      split; [apply deact_none; assumption|]. rewrite deact_owed by exact O. now rewrite Z. }
    destruct (ds_deact _ _ _ (step_way b (step s l) l') D1) as [e E]. rewrite E.
    rewrite all_true; [reflexivity|intros c I; apply Z1, I|].
    intros c' I. destruct (came b _ l' c' H1 I) as (c & xs & I' & O & ->). rewrite D1 in *.
    apply deact_none; [exact O|]. exact (proj2 (Z1 c I')).
  - destruct ls as [|l ls]; cbn [length] in L; [lia|].
    destruct (deact_or_stop b s l D) as [D1|D1]; [|exists 1%nat; split; [lia|exact D1]].
    destruct (IH (step s l) ls (sok_step s l H) D1) as (k & K & E); [|lia|].
    + intros c' I. destruct (came b s l c' H I) as (c & xs & I' & O & ->). rewrite D in *.
      rewrite deact_owed by exact O. specialize (W c I'). unfold owed in *. cbn. lia.
    + exists (S k). split; [lia|exact E].
Qed.
Lemma owed_max st c : ok st c -> (owed c <= MAX_CREDITS)%nat.
Proof. intros [A _ _ _]. unfold credits, owed in *. lia. Qed.

(** ** What a port does with its own direction *)
Lemma want_stop b s l : want b l = Stop ->
  match d_st (way b s) with
  | Stop => d_st (way b (step s l)) = Stop
  | Run => d_st (way b (step s l)) = Deactivate
  | _ => True
  end.
Proof.
  intros W. unfold step, want in *. destruct s as [[r1 a1 c1] [r2 a2 c2] [pa da] [pb db]].
  cbn [s_ab s_ba s_a s_b p_deact]. unfold port_edge, d_st.
  destruct b; rewrite W; destruct r1, a1, r2, a2, da, db; cbn;
    repeat match goal with |- context [if ?b then _ else _] => destruct b end; cbn; auto.
Qed.

(** ** Credits never grow *)
Lemma credits_edge st c : (credits (chan_edge st c) <= credits c)%nat.
Proof.
  unfold credits. destruct c as [tx l dn fv lv rx got]. chans.
  destruct st, lv, tx, rx, dn; try destruct l as [|x [|y l]]; try destruct fv as [[z|]|]; chans; lia.
Qed.
