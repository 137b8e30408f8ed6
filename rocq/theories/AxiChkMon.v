(** Lemmas about monitor_xchannel_stable and axi_reset_checker. *)
From Coq Require Import NArith List Bool Lia.
From Verif Require Import Base AxiChkModel AxiChkSpec AxiChkRead.
Import ListNotations.

Section Stable.
Context {A : Type} (eqb : A -> A -> bool) (ch : cyc -> chan A).
Hypothesis Heq : forall a b, eqb a b = true <-> a = b.

Definition at_watch (p : list edge) (s : spos A * bool) : Prop :=
  match fst s with
  | SWatch saved => exists p' c, p = p' ++ [Edge true c] /\
      c_valid (ch c) = true /\ c_ready (ch c) = false /\ c_pay (ch c) = saved
  | _ => True
  end.

Lemma eqb_same a : eqb a a = true.
Proof. apply Heq. reflexivity. Qed.

Lemma stable_prefix p q : stable ch (p ++ q) -> stable ch p.
Proof.
  intros H p1 c1 c2 q1 E. apply (H p1 c1 c2 (q1 ++ q)).
  rewrite E, <- app_assoc. reflexivity.
Qed.

Lemma st_accepts : forall tr, stable ch tr ->
  exists s, st_run eqb ch tr = Ok (s, []) /\ at_watch tr s.
Proof.
  unfold st_run. induction tr as [|e tr IH] using rev_ind; intros H.
  - exists (SIdle, false). split; [reflexivity|exact I].
  - destruct (IH (stable_prefix _ _ H)) as [[p was] [E Hw]].
    rewrite steps_app, E. cbn [rbind fst snd]. rewrite steps_one.
    unfold at_watch in Hw. cbn [fst] in Hw. destruct e as [rn c|].
    + assert (Hs : forall saved, p = SWatch saved -> rn = true ->
                   c_valid (ch c) = true /\ c_pay (ch c) = saved).
      { intros saved -> ->. destruct Hw as [p' [c1 [-> [V [R P]]]]].
        destruct (H p' c1 c []) as [H1 H2];
          [rewrite <- app_assoc; reflexivity|exact V|exact R|].
        split; [exact H1|congruence]. }
      unfold st_step. cbn [fst snd]. unfold st_edge. destruct p as [|saved|].
      * destruct (negb was && c_valid (ch c)) eqn:Er.
        -- apply andb_prop in Er as [_ Ev]. destruct rn; cbn [negb].
           ++ destruct (c_ready (ch c)) eqn:Ey.
              ** eexists. split; [reflexivity|exact I].
              ** rewrite eqb_same. eexists. split; [reflexivity|].
                 exists tr, c. auto.
           ++ eexists. split; [reflexivity|exact I].
        -- eexists. split; [reflexivity|exact I].
      * destruct rn; cbn [negb].
        -- destruct (Hs saved eq_refl eq_refl) as [V P]. rewrite P, eqb_same.
           eexists. split; [reflexivity|]. unfold at_watch. cbn [fst].
           destruct (c_ready (ch c)) eqn:Ey; [exact I|]. exists tr, c. auto.
        -- eexists. split; [reflexivity|exact I].
      * eexists. split; [reflexivity|]. destruct rn; exact I.
    + eexists. split; [reflexivity|exact I].
Qed.

(** From a state that compares with [saved]. *)
Lemma st_watch saved : forall cs was,
  Forall (fun c => c_ready (ch c) = false) (removelast cs) ->
  quiet (steps (st_step eqb ch) (SWatch saved, was) (map (Edge true) cs)) ->
  Forall (fun c => c_pay (ch c) = saved) cs.
Proof.
  induction cs as [|c cs IH]; intros was Hr Hq; [constructor|].
  cbn [map] in Hq. apply quiet_cons in Hq as [s1 [E Hq]].
  unfold st_step in E. cbn [fst snd] in E. unfold st_edge in E. cbn [negb] in E.
  injection E as <- E. destruct (eqb saved (c_pay (ch c))) eqn:Eq; [|discriminate].
  apply Heq in Eq. constructor; [congruence|]. destruct cs as [|c2 cs]; [constructor|].
  cbn [removelast] in Hr. inversion Hr as [|x l Hy Hl]; subst. rewrite Hy in Hq.
  apply (IH _ Hl Hq).
Qed.

Lemma st_low_pos tr c s : c_valid (ch c) = false ->
  steps (st_step eqb ch) (SIdle, false) (tr ++ [Edge true c]) = Ok (s, []) ->
  exists p, s = (p, false) /\ (p = SIdle \/ exists a, p = SWatch a).
Proof.
  intros Hv H. rewrite steps_app in H.
  destruct (steps (st_step eqb ch) (SIdle, false) tr) as [[[p was] r]| | |]; cbn in H; try discriminate.
  unfold st_edge in H. cbn [negb] in H. rewrite Hv, andb_false_r in H.
  destruct p as [|a|]; cbn in H.
  - injection H as <- _. exists SIdle. auto.
  - injection H as <- _. eexists. split; [reflexivity|].
    destruct (c_ready (ch c)); [left; reflexivity|right; eexists; reflexivity].
  - injection H as <- _. exists SIdle. auto.
Qed.

Lemma st_detects p cs c q :
  (p = [] \/ exists p' c0, p = p' ++ [Edge true c0] /\ c_valid (ch c0) = false) ->
  Forall (fun x => c_valid (ch x) = true /\ c_ready (ch x) = false) cs ->
  c_valid (ch c) = true ->
  quiet (st_run eqb ch (p ++ map (Edge true) (cs ++ [c]) ++ q)) ->
  Forall (fun x => c_pay (ch x) = c_pay (ch c)) cs.
Proof.
  intros Hp Hcs Hc Hq. unfold st_run in Hq. rewrite app_assoc in Hq.
  apply quiet_app in Hq as [s2 [Hq _]].
  assert (Hq2 : quiet (steps (st_step eqb ch) (SIdle, false) (p ++ map (Edge true) (cs ++ [c]))))
    by (exists s2; exact Hq).
  apply quiet_app in Hq2 as [s1 [E1 Hq2]].
  assert (Hs : exists pos, s1 = (pos, false) /\ (pos = SIdle \/ exists a, pos = SWatch a)).
  { destruct Hp as [-> |[p' [c0 [-> Hv]]]].
    - cbn in E1. injection E1 as <-. exists SIdle. auto.
    - apply (st_low_pos p' c0 s1 Hv E1). }
  destruct Hs as [pos [-> Hs]].
  assert (Hr : forall l, Forall (fun x => c_valid (ch x) = true /\ c_ready (ch x) = false) l ->
    Forall (fun x => c_ready (ch x) = false) (removelast (l ++ [c]))).
  { intros l Hl. rewrite removelast_last. eapply Forall_impl; [|exact Hl]. cbn. tauto. }
  assert (Hall : exists saved, Forall (fun x => c_pay (ch x) = saved) (cs ++ [c])).
  { destruct Hs as [-> |[a ->]].
    - destruct cs as [|c1 cs].
      + exists (c_pay (ch c)). repeat constructor.
      + inversion Hcs as [|x l [V R] Hl]; subst. cbn [app map] in Hq2.
        apply quiet_cons in Hq2 as [s3 [E3 Hq2]]. unfold st_step in E3. cbn [fst snd] in E3.
        unfold st_edge in E3. cbn [negb andb] in E3. rewrite V, R in E3.
        injection E3 as <- _. exists (c_pay (ch c1)). cbn [app]. constructor; [reflexivity|].
        apply (st_watch _ _ _ (Hr cs Hl) Hq2).
    - exists a. apply (st_watch _ _ _ (Hr cs Hcs) Hq2). }
  destruct Hall as [saved Hall]. apply Forall_app in Hall as [H1 H2].
  inversion H2 as [|x l H3 _]; subst. eapply Forall_impl; [|exact H1]. cbn. auto.
Qed.
End Stable.

(** ** axi_reset_checker *)
Lemma high_eq c :
  (if c_valid (c_ar c) then [CAr] else []) ++ (if c_valid (c_r c) then [CR] else [])
  ++ (if c_valid (c_aw c) then [CAw] else []) ++ (if c_valid (c_w c) then [CW] else [])
  ++ (if c_valid (c_b c) then [CB] else []) = asserted c.
Proof.
  unfold asserted, valid_of. cbn [filter].
  destruct (c_valid (c_ar c)), (c_valid (c_r c)), (c_valid (c_aw c)), (c_valid (c_w c)),
    (c_valid (c_b c)); reflexivity.
Qed.

Lemma rs_hold cs : forall s, steps rs_step s (map (Edge false) cs) = Ok (s, []).
Proof.
  induction cs as [|c cs IH]; intros s; [reflexivity|]. cbn [map steps].
  unfold rs_step at 1. rewrite andb_false_r. cbn [rbind fst snd]. rewrite IH. reflexivity.
Qed.
Lemma rs_idle cs : steps rs_step false (map (Edge true) cs) = Ok (false, []).
Proof.
  induction cs as [|c cs IH]; [reflexivity|]. cbn [map steps].
  unfold rs_step at 1. cbn [andb rbind fst snd]. rewrite IH. reflexivity.
Qed.
Lemma rs_total tr : forall s, exists s' reps, steps rs_step s tr = Ok (s', reps).
Proof.
  induction tr as [|e tr IH]; intros s; [eexists _, _; reflexivity|]. cbn [steps].
  assert (He : exists s1 r1, rs_step s e = Ok (s1, r1)).
  { destruct e as [rn c|]; unfold rs_step; [destruct (s && rn)|]; eexists _, _; reflexivity. }
  destruct He as [s1 [r1 ->]]. cbn [rbind fst snd].
  destruct (IH s1) as [s2 [r2 ->]]. cbn. eexists _, _. reflexivity.
Qed.

Lemma rs_release tr cs c ds :
  exists s1 r1, rs_run tr = Ok (s1, r1) /\
  rs_run (tr ++ Fall :: map (Edge false) cs ++ Edge true c :: map (Edge true) ds) =
    Ok (false, r1 ++ asserted c).
Proof.
  destruct (rs_total tr false) as [s1 [r1 E]]. exists s1, r1. unfold rs_run.
  split; [exact E|]. rewrite steps_app, E. cbn [rbind fst snd].
  change (Fall :: map (Edge false) cs ++ Edge true c :: map (Edge true) ds)
    with ([Fall] ++ map (Edge false) cs ++ [Edge true c] ++ map (Edge true) ds).
  rewrite steps_app. cbn [steps rs_step rbind fst snd rmap].
  rewrite steps_app, rs_hold. cbn [rbind fst snd].
  rewrite steps_app, steps_one. unfold rs_step at 1. cbn [andb rbind fst snd].
  rewrite rs_idle. cbn [rmap fst snd app]. rewrite high_eq.
  cbn [rmap rbind fst snd]. rewrite app_nil_r. reflexivity.
Qed.

Lemma asserted_low c : asserted c = [] <-> all_low c.
Proof.
  unfold asserted, valid_of, all_low. cbn [filter].
  destruct (c_valid (c_ar c)), (c_valid (c_r c)), (c_valid (c_aw c)), (c_valid (c_w c)),
    (c_valid (c_b c)); cbn; split; intros H; try discriminate; try tauto;
    destruct H as [H1 [H2 [H3 [H4 H5]]]]; discriminate.
Qed.
