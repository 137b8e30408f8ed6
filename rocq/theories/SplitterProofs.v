From Verif Require Import Base BaseFacts TlmModel TlmSpec TlmFacts SplitterModel SplitterSpec.
Open Scope N_scope.

Lemma list_eqb_eq a : forall b, list_eqb a b = true -> a = b.
Proof.
  induction a as [|x a IH]; intros [|y b] H; cbn in H; try discriminate; auto.
  apply andb_prop in H as [H1 H2]. apply N.eqb_eq in H1. subst. f_equal. auto.
Qed.

Lemma last_cons {A} (l : list A) : forall x d, last l x = last (x :: l) d.
Proof.
  induction l as [|y l IH]; intros x d; [reflexivity|].
  change (last (x :: y :: l) d) with (last (y :: l) d).
  rewrite <- (IH y d), <- (IH y x). reflexivity.
Qed.

Lemma split_loop_log {S} check (ts : list (target S)) : forall i s l g ref st s' l' d r,
  split_loop check (logged_from i ts) (s, l) g ref st = Ok ((s', l'), (d, r)) ->
  exists new, l' = l ++ new /\
    map call_out new = seq i (length ts) /\
    Forall (fun c => same_request g (call_gp c)) new /\
    r = last_error st new /\
    (check = true -> g_cmd g = C_READ ->
       forall d0, ref = Some d0 -> Forall (fun c => call_data c = d0) new) /\
    (check = true -> g_cmd g = C_READ -> ref = None ->
       forall c1 c2, In c1 new -> In c2 new -> call_data c1 = call_data c2) /\
    (forall c rest, new = c :: rest -> call_gp c = g) /\
    d = last (map call_data new) (g_data g).
Proof.
  induction ts as [|t ts IH]; intros i s l g ref st s' l' d r H.
  - cbn in H. injection H as <- <- <- <-. exists []. rewrite app_nil_r.
    repeat split; auto; try constructor; try contradiction. intros; discriminate.
  - cbn [logged_from split_loop] in H. unfold logged in H. cbn [fst snd] in H.
    destruct (t s g) as [s1 [d1 r1]] eqn:E.
    set (g' := mkGp (g_cmd g) (g_addr g) d1 (g_be g) (g_sw g) r1) in *.
    set (st' := match r1 with St_OK => st | _ => r1 end) in *.
    assert (Step : forall ref', 
      (check = true -> g_cmd g = C_READ -> ref' = Some d1) ->
      (check = true -> g_cmd g = C_READ -> forall d0, ref = Some d0 -> d1 = d0) ->
      split_loop check (logged_from (Datatypes.S i) ts) (s1, l ++ [(i, g, d1, r1)]) g' ref' st'
        = Ok ((s', l'), (d, r)) ->
      exists new, l' = l ++ new /\
        map call_out new = seq i (length (t :: ts)) /\
        Forall (fun c => same_request g (call_gp c)) new /\
        r = last_error st new /\
        (check = true -> g_cmd g = C_READ ->
           forall d0, ref = Some d0 -> Forall (fun c => call_data c = d0) new) /\
        (check = true -> g_cmd g = C_READ -> ref = None ->
           forall c1 c2, In c1 new -> In c2 new -> call_data c1 = call_data c2) /\
        (forall c rest, new = c :: rest -> call_gp c = g) /\
        d = last (map call_data new) (g_data g)).
    { intros ref' Hr' Hd' H'. destruct (IH _ _ _ _ _ _ _ _ _ _ H')
        as [new [-> [N1 [N2 [N3 [N4 [N5 [N6 N7]]]]]]]].
      exists ((i, g, d1, r1) :: new). rewrite <- app_assoc. split; [reflexivity|].
      split; [cbn; f_equal; exact N1|].
      split. { constructor; [repeat split|]. eapply Forall_impl; [|exact N2].
               intros c Hc. exact Hc. }
      split. { unfold last_error in *. cbn [fold_left]. destruct r1; exact N3. }
      assert (A : check = true -> g_cmd g = C_READ -> Forall (fun c => call_data c = d1) ((i, g, d1, r1) :: new)).
      { intros C1 C2. constructor; [reflexivity|]. apply (N4 C1 C2). exact (Hr' C1 C2). }
      split. { intros C1 C2 d0 Hd. rewrite <- (Hd' C1 C2 _ Hd). exact (A C1 C2). }
      split. { intros C1 C2 _ c1 c2 I1 I2. specialize (A C1 C2). rewrite Forall_forall in A.
               rewrite (A _ I1), (A _ I2). reflexivity. }
      split. { intros c rest Hc. injection Hc as <- <-. reflexivity. }
      cbn [map call_data fst snd]. rewrite N7. apply last_cons. }
    destruct (check && is_read g) eqn:Ec.
    + apply andb_prop in Ec as [Ec1 Ec2].
      destruct ref as [d0|].
      * destruct (list_eqb d0 d1) eqn:El; [|discriminate]. apply list_eqb_eq in El. subst d0.
        apply (Step (Some d1)); auto. intros _ _ d0 Hd. injection Hd as <-. reflexivity.
      * apply (Step (Some d1)); auto. intros _ _ d0 Hd; discriminate.
    + apply (Step ref); auto.
      * intros C1 C2. unfold is_read in Ec. rewrite C1, C2 in Ec. discriminate.
      * intros C1 C2. unfold is_read in Ec. rewrite C1, C2 in Ec. discriminate.
Qed.

Lemma split_loop_write {S} check (ts : list (target S)) :
  Forall write_keeps_data ts -> forall i s l g ref st s' l' d r,
  g_cmd g <> C_READ ->
  split_loop check (logged_from i ts) (s, l) g ref st = Ok ((s', l'), (d, r)) ->
  exists new, l' = l ++ new /\ Forall (fun c => g_data (call_gp c) = g_data g) new.
Proof.
  induction 1 as [|t ts Ht Hts IH]; intros i s l g ref st s' l' d r Hc H.
  - cbn in H. injection H as <- <- <- <-. exists []. rewrite app_nil_r. auto.
  - cbn [logged_from split_loop] in H. unfold logged in H. cbn [fst snd] in H.
    pose proof (Ht s g Hc) as Hd.
    destruct (t s g) as [s1 [d1 r1]] eqn:E. cbn in Hd. subst d1.
    replace (check && is_read g) with false in H
      by (unfold is_read; destruct (g_cmd g); [congruence| |]; destruct check; reflexivity).
    destruct (fun X => IH _ _ _ _ _ _ _ _ _ _ X H) as [new [-> F]]; [exact Hc|].
    exists ((i, g, g_data g, r1) :: new). rewrite <- app_assoc. split; [reflexivity|].
    constructor; [reflexivity|exact F].
Qed.

Lemma split_loop_defined {S} check (ts : list (target S)) : forall i s l g ref st,
  check = false \/ g_cmd g <> C_READ ->
  exists s' l' d r, split_loop check (logged_from i ts) (s, l) g ref st = Ok ((s', l'), (d, r)).
Proof.
  induction ts as [|t ts IH]; intros i s l g ref st Hc; cbn [logged_from split_loop].
  - eexists _, _, _, _. reflexivity.
  - unfold logged. cbn [fst snd]. destruct (t s g) as [s1 [d1 r1]].
    replace (check && is_read g) with false.
    + apply IH. exact Hc.
    + destruct Hc as [->|Hc]; [reflexivity|].
      unfold is_read; destruct (g_cmd g); [congruence| |]; destruct check; reflexivity.
Qed.

Lemma last_error_ok l : forall st, last_error st l = St_OK <->
  st = St_OK /\ Forall (fun c => call_status c = St_OK) l.
Proof.
  induction l as [|c l IH] using rev_ind; intros st.
  - cbn. intuition auto.
  - unfold last_error in *. rewrite fold_left_app. cbn [fold_left]. rewrite Forall_app.
    split.
    + intros H. destruct (call_status c) eqn:E; try discriminate.
      apply IH in H as [-> F]. repeat split; auto.
    + intros [-> [F1 F2]]. inversion F2 as [|? ? E]; subst. rewrite E.
      apply IH. auto.
Qed.

Lemma last_error_is l : forall st, last_error st l = st \/
  exists c, In c l /\ last_error st l = call_status c /\ call_status c <> St_OK.
Proof.
  induction l as [|c l IH] using rev_ind; intros st; [left; reflexivity|].
  unfold last_error in *. rewrite fold_left_app. cbn [fold_left].
  destruct (status_eqb (call_status c) St_OK) eqn:E.
  - assert (call_status c = St_OK) as -> by (destruct (call_status c); try discriminate; reflexivity).
    destruct (IH st) as [H|[x [H1 [H2 H3]]]]; [left; exact H|right].
    exists x. rewrite in_app_iff. auto.
  - right. exists c. rewrite in_app_iff. split; [right; left; reflexivity|].
    destruct (call_status c); try discriminate; split; auto; discriminate.
Qed.
