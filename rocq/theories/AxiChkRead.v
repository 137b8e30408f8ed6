(** The reset loop shared by the checkers, and the read checker. *)
From Verif Require Import Base AxiChkModel AxiChkSpec.
Open Scope N_scope.

(** ** Steps *)
Lemma steps_app {E S R} (f : S -> E -> res (S * list R)) l1 : forall s l2,
  steps f s (l1 ++ l2) =
  rbind (steps f s l1) (fun x =>
  rmap (fun y => (fst y, snd x ++ snd y)) (steps f (fst x) l2)).
Proof.
  induction l1 as [|e l1 IH]; intros s l2; cbn.
  - destruct (steps f s l2) as [[s' r]| | |]; reflexivity.
  - destruct (f s e) as [[s1 r1]| | |]; cbn; try reflexivity.
    rewrite IH. destruct (steps f s1 l1) as [[s2 r2]| | |]; cbn; try reflexivity.
    destruct (steps f s2 l2) as [[s3 r3]| | |]; cbn; try reflexivity.
    rewrite app_assoc. reflexivity.
Qed.

Lemma steps_one {E S R} (f : S -> E -> res (S * list R)) s e :
  steps f s [e] = f s e.
Proof.
  cbn. destruct (f s e) as [[s1 r1]| | |]; cbn; try reflexivity.
  rewrite app_nil_r. reflexivity.
Qed.

Lemma quiet_app {E S R} (f : S -> E -> res (S * list R)) s l1 l2 :
  quiet (steps f s (l1 ++ l2)) <->
  exists s1, steps f s l1 = Ok (s1, []) /\ quiet (steps f s1 l2).
Proof.
  rewrite steps_app. split.
  - intros [s' H]. destruct (steps f s l1) as [[s1 r1]| | |]; cbn in H; try discriminate.
    destruct (steps f s1 l2) as [[s2 r2]| | |] eqn:E2; cbn in H; try discriminate.
    injection H as _ H. apply app_eq_nil in H as [-> ->].
    exists s1. split; [reflexivity|]. exists s2. exact E2.
  - intros [s1 [E1 [s2 E2]]]. rewrite E1. cbn. rewrite E2. cbn. exists s2. reflexivity.
Qed.

Lemma quiet_cons {E S R} (f : S -> E -> res (S * list R)) s e l :
  quiet (steps f s (e :: l)) <->
  exists s1, f s e = Ok (s1, []) /\ quiet (steps f s1 l).
Proof.
  change (e :: l) with ([e] ++ l). rewrite quiet_app. rewrite steps_one. reflexivity.
Qed.

(** ** The reset loop *)
Lemma periods_has l : forall cur on, exists h2, In (cur ++ h2) (periods on cur l).
Proof.
  induction l as [|[rn c0|] l IHl]; intros cur on.
  - exists []; left; symmetry; apply app_nil_r.
  - cbn. destruct on; [destruct rn|].
    + destruct (IHl (cur ++ [c0]) true) as [h2 Hh].
      exists (c0 :: h2). rewrite <- app_assoc in Hh. exact Hh.
    + exists []; left; symmetry; apply app_nil_r.
    + apply IHl.
  - exists []; left; symmetry; apply app_nil_r.
Qed.

Section Clocked.
Context {S R : Type} (init : S) (step : S -> cyc -> res (S * list R)).

Lemma clocked_gen : forall l on s h,
  steps step init h = Ok (s, []) -> (on = false -> s = init /\ h = []) ->
  (quiet (steps (clocked init step) (on, s) l) <->
   Forall (fun h => quiet (steps step init h)) (periods on h l)).
Proof.
  induction l as [|e l IH]; intros on s h Hs Hon.
  - cbn. split.
    + intros _. constructor; [|constructor]. exists s. exact Hs.
    + intros _. exists (on, s). reflexivity.
  - rewrite quiet_cons.
    assert (Hnew : forall h', h' = @nil cyc -> steps step init h' = Ok (init, [])).
    { intros h' ->. reflexivity. }
    destruct e as [rn c|].
    + destruct on; cbn [clocked fst snd periods].
      * destruct rn.
        -- destruct (step s c) as [[s1 r1]| | |] eqn:Ec; cbn [rmap rbind fst snd].
           2-4: split; [intros [x [E _]]; discriminate|];
             intros HF; exfalso;
             destruct (periods_has l (h ++ [c]) true) as [h2 Hin];
             apply (proj1 (Forall_forall _ _) HF) in Hin;
             rewrite <- app_assoc in Hin;
             apply quiet_app in Hin as [s1 [E1 Q]]; rewrite Hs in E1;
             injection E1 as <-; apply quiet_cons in Q as [s2 [E2 _]];
             rewrite Ec in E2; discriminate.
           split.
           ++ intros [x [E Q]]. injection E as <- ->.
              apply (IH true s1 (h ++ [c])); [|discriminate|exact Q].
              rewrite steps_app, Hs. cbn [rbind fst snd]. rewrite steps_one, Ec.
              reflexivity.
           ++ intros HF.
              destruct (periods_has l (h ++ [c]) true) as [h2 Hin].
              pose proof (proj1 (Forall_forall _ _) HF _ Hin) as Hq.
              cbv beta in Hq. rewrite <- app_assoc in Hq.
              apply quiet_app in Hq as [s2 [E1 Q]]. rewrite Hs in E1.
              injection E1 as <-. apply quiet_cons in Q as [s2 [E2 _]].
              rewrite Ec in E2. injection E2 as <- ->.
              exists (true, s1). split; [reflexivity|].
              apply (IH true s1 (h ++ [c])); [|discriminate|exact HF].
              rewrite steps_app, Hs. cbn [rbind fst snd]. rewrite steps_one, Ec.
              reflexivity.
        -- split.
           ++ intros [x [E Q]]. injection E as <-. constructor; [exists s; exact Hs|].
              apply (IH false init []); [reflexivity|auto|exact Q].
           ++ intros HF. inversion HF; subst. exists (false, init).
              split; [reflexivity|].
              apply (IH false init []); [reflexivity|auto|assumption].
      * destruct (Hon eq_refl) as [-> ->]. split.
        -- intros [x [E Q]]. injection E as <-.
           apply (IH rn init []); [reflexivity|auto|exact Q].
        -- intros HF. exists (rn, init). split; [reflexivity|].
           apply (IH rn init []); [reflexivity|auto|exact HF].
    + cbn [clocked periods]. split.
      * intros [x [E Q]]. injection E as <-. constructor; [exists s; exact Hs|].
        apply (IH false init []); [reflexivity|auto|exact Q].
      * intros HF. inversion HF; subst. exists (false, init).
        split; [reflexivity|].
        apply (IH false init []); [reflexivity|auto|assumption].
Qed.

(** A run is quiet exactly when every period between resets is. *)
Lemma clocked_quiet l :
  quiet (steps (clocked init step) (true, init) l) <->
  Forall (fun h => quiet (steps step init h)) (periods true [] l).
Proof. apply clocked_gen; [reflexivity|discriminate]. Qed.
End Clocked.

(** ** Reads *)
Lemma reads_app p q : reads (p ++ q) = reads p ++ reads q.
Proof. apply flat_map_app. Qed.
Lemma rbeats_app p q : rbeats (p ++ q) = rbeats p ++ rbeats q.
Proof. apply flat_map_app. Qed.

Lemma owed_snoc id h c :
  owed id (h ++ [c]) = owed id h ++
    match taken (c_ar c) with
    | Some a => if ax_id a =? id then beats_of a else []
    | None => []
    end.
Proof.
  unfold owed. rewrite reads_app, flat_map_app. f_equal. unfold reads. cbn.
  destruct (taken (c_ar c)); cbn; [rewrite !app_nil_r|]; reflexivity.
Qed.

Lemma got_snoc id h c :
  got id (h ++ [c]) = got id h ++
    match taken (c_r c) with
    | Some r => if r_id r =? id then [r] else []
    | None => []
    end.
Proof.
  unfold got. rewrite rbeats_app, filter_app. f_equal. unfold rbeats. cbn.
  destruct (taken (c_r c)) as [r|]; cbn; [|reflexivity].
  destruct (r_id r =? id); reflexivity.
Qed.

(** The beats a list entry still waits for. *)
Definition rem (t : rtx) : list (bool * bool) :=
  repeat (false, rt_excl t) (Z.to_nat (rt_left t - 1)) ++ [(true, rt_excl t)].
Definition rems (id : N) (l : list rtx) : list (bool * bool) :=
  flat_map (fun t => if rt_id t =? id then rem t else []) l.
Definition pos (t : rtx) : Prop := (0 < rt_left t)%Z.

Lemma resp_fine_iff e r : resp_fine e r = true <-> good_resp e r.
Proof. unfold resp_fine, good_resp. destruct e; lia. Qed.

Lemma rem_step t : pos t ->
  rem t = ((rt_left t =? 1)%Z, rt_excl t) ::
          (if (rt_left t =? 1)%Z then []
           else rem (mkRtx (rt_id t) (rt_excl t) (rt_left t - 1))).
Proof.
  unfold pos, rem. intros H. cbn [rt_excl rt_left].
  destruct (Z.eqb_spec (rt_left t) 1) as [E|E].
  - rewrite E. reflexivity.
  - replace (Z.to_nat (rt_left t - 1)) with (S (Z.to_nat (rt_left t - 1 - 1))) by lia.
    reflexivity.
Qed.

Lemma rd_beat_ok f r : f_resp f = true -> f_rd_order f = true -> forall l,
  Forall pos l ->
  match rd_beat f l r with
  | None => rems (r_id r) l = []
  | Some (l2, reps) => exists e rest,
      rems (r_id r) l = e :: rest /\ (reps = [] <-> beat_right e r) /\
      (reps = [] ->
       rems (r_id r) l2 = rest /\ (forall j, j <> r_id r -> rems j l2 = rems j l) /\
       Forall pos l2 /\
       (length l2 + (if r_last r then 1 else 0) = length l)%nat)
  end.
Proof.
  intros Hr Ho. induction l as [|t l IH]; intros Hp; [reflexivity|].
  inversion Hp as [|? ? Ht Hl]; subst. cbn [rd_beat].
  destruct (N.eqb_spec (rt_id t) (r_id r)) as [E|E].
  - rewrite Hr, Ho. cbn [andb].
    exists ((rt_left t =? 1)%Z, rt_excl t). cbn [rems flat_map].
    rewrite E, N.eqb_refl. rewrite rem_step by assumption.
    eexists. split; [reflexivity|].
    assert (Hiff : (if negb (resp_fine (rt_excl t) (r_resp r)) then [RdResp] else []) ++
       (if negb (Bool.eqb (r_last r) (rt_left t - 1 =? 0)%Z) then [RdLength] else []) = []
       <-> beat_right ((rt_left t =? 1)%Z, rt_excl t) r).
    { unfold beat_right. cbn [fst snd]. rewrite <- resp_fine_iff.
      replace (rt_left t - 1 =? 0)%Z with (rt_left t =? 1)%Z by lia.
      destruct (resp_fine (rt_excl t) (r_resp r)), (r_last r), (rt_left t =? 1)%Z;
        cbn; split; intros H; try discriminate; try (destruct H; discriminate); auto. }
    split; [exact Hiff|]. intros H. apply Hiff in H as [HL _]. cbn [fst] in HL.
    destruct (Z.eqb_spec (rt_left t) 1) as [E1|E1]; rewrite HL; cbn [app].
    + split; [reflexivity|]. split; [|split; [exact Hl|cbn; lia]].
      intros j Hj. destruct (N.eqb_spec (r_id r) j); [congruence|]. reflexivity.
    + split.
      * cbn [rems flat_map rt_id]. rewrite N.eqb_refl, E. reflexivity.
      * split; [|split].
        -- intros j Hj. cbn [rems flat_map rt_id].
           destruct (N.eqb_spec (r_id r) j); [congruence|]. reflexivity.
        -- constructor; [|exact Hl]. unfold pos in *. cbn. lia.
        -- cbn. lia.
  - specialize (IH Hl). destruct (rd_beat f l r) as [[l2 reps]|].
    + destruct IH as [e [rest [E1 [E2 E3]]]]. exists e, rest.
      cbn [rems flat_map]. apply N.eqb_neq in E. rewrite E.
      split; [exact E1|]. split; [exact E2|]. intros H.
      destruct (E3 H) as [F1 [F2 [F3 F4]]]. split; [exact F1|]. split; [|split].
      * intros j Hj. cbn [rems flat_map]. f_equal. apply F2, Hj.
      * constructor; assumption.
      * cbn. lia.
    + cbn [rems flat_map]. apply N.eqb_neq in E. rewrite E. exact IH.
Qed.

Lemma rems_app j a b : rems j (a ++ b) = rems j a ++ rems j b.
Proof. apply flat_map_app. Qed.

Lemma rem_sample a : rem (sample_ar a) = beats_of a.
Proof.
  unfold rem, sample_ar, beats_of, exclusive, is_excl. cbn [rt_left rt_excl].
  replace (Z.to_nat (Z.of_N (ax_len a) + 1 - 1)) with (N.to_nat (ax_len a)) by lia.
  reflexivity.
Qed.

Definition rd_inv (h : list cyc) (l : list rtx) : Prop :=
  Forall pos l /\
  (length l + length (filter r_last (rbeats h)) = length (reads h))%nat /\
  forall id, exists pre, owed id h = pre ++ rems id l /\
    Forall2 beat_right pre (got id h).

Lemma F2_len {A B} (R : A -> B -> Prop) l1 l2 :
  Forall2 R l1 l2 -> length l1 = length l2.
Proof. induction 1; cbn; congruence. Qed.

Lemma answered_next {A B} (right : A -> B -> Prop) pre rest have b :
  Forall2 right pre have ->
  (answered right (pre ++ rest) (have ++ [b]) <->
   exists e r', rest = e :: r' /\ right e b).
Proof.
  intros H. pose proof (F2_len _ _ _ H) as L. split.
  - intros [p2 [q2 [E F]]].
    apply Forall2_app_inv_r in F as [x [y [Fx [Fy ->]]]].
    inversion Fy as [|e b' y' l' Hb Hn]; subst. inversion Hn; subst.
    assert (x = pre /\ rest = [e] ++ q2) as [-> ->].
    { rewrite <- app_assoc in E.
      assert (Lx : length x = length pre)
        by (apply F2_len in Fx; lia).
      clear - E Lx. revert pre Lx E. induction x as [|a x IH]; intros [|a' pre] Lx E;
        try discriminate.
      - split; [reflexivity|exact E].
      - injection E as -> E. destruct (IH pre) as [-> ->]; [now injection Lx|exact E|].
        split; reflexivity. }
    exists e, q2. split; [reflexivity|exact Hb].
  - intros [e [r' [-> Hb]]]. exists (pre ++ [e]), r'. split.
    + rewrite <- app_assoc. reflexivity.
    + apply Forall2_app; [exact H|]. constructor; [exact Hb|constructor].
Qed.

Lemma rd_conform_snoc h c :
  rd_conform (h ++ [c]) <->
  rd_conform h /\ forall id, answered beat_right (owed id (h ++ [c])) (got id (h ++ [c])).
Proof.
  split.
  - intros H. split.
    + intros p q E id. apply (H p (q ++ [c])). rewrite E, app_assoc. reflexivity.
    + intros id. apply (H (h ++ [c]) []). symmetry. apply app_nil_r.
  - intros [H1 H2] p q E id. destruct q as [|x q] using rev_ind.
    + rewrite app_nil_r in E. subst p. apply H2.
    + rewrite app_assoc in E. apply app_inj_tail in E as [E _]. apply (H1 p q E).
Qed.

Lemma rd_one f h l c :
  f_resp f = true -> f_rd_order f = true -> rd_inv h l ->
  (taken (c_ar c) <> None -> N.of_nat (length (reads h))
     < f_depth f + N.of_nat (length (filter r_last (rbeats h)))) ->
  match rd_cycle f l c with
  | Ok (l2, []) =>
      rd_inv (h ++ [c]) l2 /\
      forall id, answered beat_right (owed id (h ++ [c])) (got id (h ++ [c]))
  | _ => exists id, ~ answered beat_right (owed id (h ++ [c])) (got id (h ++ [c]))
  end.
Proof.
  intros Hr Ho [Hp [Hn Hm]] Hroom. unfold rd_cycle.
  set (l1 := match taken (c_ar c) with Some _ => _ | None => _ end).
  assert (H1 : Forall pos l1 /\
    (length l1 + length (filter r_last (rbeats h)) = length (reads (h ++ [c])))%nat /\
    forall id, exists pre, owed id (h ++ [c]) = pre ++ rems id l1 /\
      Forall2 beat_right pre (got id h)).
  { unfold l1. rewrite reads_app, app_length.
    destruct (taken (c_ar c)) as [a|] eqn:Ea.
    - assert (Hlt : N.of_nat (length l) <? f_depth f = true)
        by (specialize (Hroom ltac:(discriminate)); lia).
      rewrite Hlt. split; [|split].
      + apply Forall_app. split; [exact Hp|]. constructor; [|constructor].
        unfold pos. cbn. lia.
      + rewrite app_length. unfold reads at 2. cbn. rewrite Ea. cbn. lia.
      + intros id. destruct (Hm id) as [pre [E F]]. exists pre. split; [|exact F].
        rewrite owed_snoc, Ea, rems_app, E, <- app_assoc. f_equal. f_equal.
        cbn [rems flat_map rt_id sample_ar]. rewrite app_nil_r.
        fold (sample_ar a). rewrite rem_sample. reflexivity.
    - split; [exact Hp|]. split.
      + unfold reads at 2. cbn. rewrite Ea. cbn. lia.
      + intros id. destruct (Hm id) as [pre [E F]]. exists pre. split; [|exact F].
        rewrite owed_snoc, Ea, app_nil_r. exact E. }
  clearbody l1. destruct H1 as [Hp1 [Hn1 Hm1]].
  destruct (taken (c_r c)) as [r|] eqn:Er.
  2:{ assert (G : rd_inv (h ++ [c]) l1 /\
        forall id, answered beat_right (owed id (h ++ [c])) (got id (h ++ [c]))).
      { split.
        - split; [exact Hp1|]. split.
          + rewrite rbeats_app. unfold rbeats at 2. cbn. rewrite Er. cbn.
            rewrite app_nil_r. exact Hn1.
          + intros id. rewrite got_snoc, Er, app_nil_r. apply Hm1.
        - intros id. rewrite got_snoc, Er, app_nil_r.
          destruct (Hm1 id) as [pre [E F]]. exists pre, (rems id l1). split; assumption. }
      exact G. }
  pose proof (rd_beat_ok f r Hr Ho l1 Hp1) as HB.
  assert (Hgot : got (r_id r) (h ++ [c]) = got (r_id r) h ++ [r])
    by (rewrite got_snoc, Er, N.eqb_refl; reflexivity).
  assert (Hoth : forall j, j <> r_id r -> got j (h ++ [c]) = got j h).
  { intros j Hj. rewrite got_snoc, Er. destruct (N.eqb_spec (r_id r) j); [congruence|].
    apply app_nil_r. }
  destruct (Hm1 (r_id r)) as [pre [E F]].
  destruct (rd_beat f l1 r) as [[l2 reps]|].
  - destruct HB as [e [rest [E1 [E2 E3]]]].
    assert (Hbad : reps <> [] -> exists id, ~ answered beat_right (owed id (h ++ [c]))
              (got id (h ++ [c]))).
    { intros Hne. exists (r_id r). rewrite Hgot, E, answered_next by exact F.
      intros [e' [r' [X Y]]]. rewrite E1 in X. injection X as <- <-.
      apply Hne, E2, Y. }
    destruct (existsb (fun t => (rt_left t <? - 2 ^ 31)%Z) l2) eqn:Eub.
    + destruct reps as [|x reps]; [|apply Hbad; discriminate].
      exfalso. destruct (E3 eq_refl) as [_ [_ [F3 _]]].
      apply existsb_exists in Eub as [t [Hin Hlt]].
      apply (proj1 (Forall_forall _ _) F3) in Hin. unfold pos in Hin. lia.
    + destruct reps as [|x reps]; [|apply Hbad; discriminate].
      destruct (E3 eq_refl) as [F1 [F2 [F3 F4]]].
      assert (Hright : beat_right e r) by (apply E2; reflexivity).
      assert (Hall : forall id, exists pre, owed id (h ++ [c]) = pre ++ rems id l2 /\
                Forall2 beat_right pre (got id (h ++ [c]))).
      { intros id. destruct (N.eq_dec id (r_id r)) as [->|Hid].
        - exists (pre ++ [e]). split.
          + rewrite E, E1, F1, <- app_assoc. reflexivity.
          + rewrite Hgot. apply Forall2_app; [exact F|].
            constructor; [exact Hright|constructor].
        - destruct (Hm1 id) as [pre' [E' F']]. exists pre'.
          rewrite F2, Hoth by exact Hid. split; assumption. }
      split.
      * split; [exact F3|]. split; [|exact Hall].
        rewrite rbeats_app, filter_app, app_length. unfold rbeats at 2. cbn.
        rewrite Er. cbn. destruct (r_last r); cbn in *; lia.
      * intros id. destruct (Hall id) as [pre' [E' F']].
        exists pre', (rems id l2). split; assumption.
  - exists (r_id r). rewrite Hgot, E, answered_next by exact F.
    intros [e' [r' [X Y]]]. rewrite HB in X. discriminate.
Qed.

Lemma rd_room_prefix d p q : rd_room d (p ++ q) -> rd_room d p.
Proof.
  intros H p1 c q1 E Hc. apply (H p1 c (q1 ++ q)); [|exact Hc].
  rewrite E, <- app_assoc. reflexivity.
Qed.

Lemma rd_quiet f : f_resp f = true -> f_rd_order f = true -> forall h,
  rd_room (f_depth f) h ->
  ((exists l, steps (rd_cycle f) [] h = Ok (l, []) /\ rd_inv h l) /\ rd_conform h) \/
  (~ quiet (steps (rd_cycle f) [] h) /\ ~ rd_conform h).
Proof.
  intros Hr Ho h. induction h as [|c h IH] using rev_ind; intros Hroom.
  - left. split.
    + exists []. split; [reflexivity|]. split; [constructor|]. split; [reflexivity|].
      intros id. exists []. split; [reflexivity|constructor].
    + intros p q E id. symmetry in E. apply app_eq_nil in E as [-> ->].
      exists [], []. split; [reflexivity|constructor].
  - destruct (IH (rd_room_prefix _ _ _ Hroom)) as [[[l [El Hi]] Hc]|[Hq Hc]].
    + pose proof (rd_one f h l c Hr Ho Hi) as H1.
      specialize (H1 (Hroom h c [] eq_refl)).
      destruct (rd_cycle f l c) as [[l2 [|x reps]]| | |] eqn:Ec.
      1:{ left. destruct H1 as [Hi2 Ha]. split.
          - exists l2. split; [|exact Hi2]. rewrite steps_app, El. cbn [rbind fst snd].
            rewrite steps_one, Ec. reflexivity.
          - apply rd_conform_snoc. split; assumption. }
      all: right; split;
        [intros Q; apply quiet_app in Q as [s1 [E1 Q]]; rewrite El in E1;
         injection E1 as <-; apply quiet_cons in Q as [s2 [E2 _]];
         rewrite Ec in E2; discriminate
        |intros Hc2; apply rd_conform_snoc in Hc2 as [_ Ha];
         destruct H1 as [id Hid]; apply Hid, Ha].
    + right. split.
      * intros Q. apply quiet_app in Q as [s1 [E1 _]]. apply Hq. exists s1. exact E1.
      * intros Hc2. apply rd_conform_snoc in Hc2 as [Hc2 _]. contradiction.
Qed.

Lemma rd_exact f tr :
  f_resp f = true -> f_rd_order f = true ->
  Forall (rd_room (f_depth f)) (periods true [] tr) ->
  (quiet (rd_run f tr) <-> Forall rd_conform (periods true [] tr)).
Proof.
  intros Hr Ho Hroom. unfold rd_run. rewrite clocked_quiet.
  rewrite !Forall_forall in *. split; intros H h Hin.
  - destruct (rd_quiet f Hr Ho h (Hroom h Hin)) as [[_ Hc]|[Hq _]]; [exact Hc|].
    exfalso. apply Hq, H, Hin.
  - destruct (rd_quiet f Hr Ho h (Hroom h Hin)) as [[[l [El _]] _]|[_ Hc]].
    + exists l. exact El.
    + exfalso. apply Hc, H, Hin.
Qed.
