(** The AXI4 write checker. *)
From Verif Require Import Base AxiChkModel AxiChkSpec AxiChkRead AxiChkLanes.
Open Scope N_scope.

Lemma lasts_app a b : lasts (a ++ b) = (lasts a + lasts b)%nat.
Proof. unfold lasts. rewrite filter_app, app_length. reflexivity. Qed.
Lemma lasts_one d : lasts [d] = if w_last d then 1%nat else 0%nat.
Proof. unfold lasts. cbn. destruct (w_last d); reflexivity. Qed.
Lemma since_snoc l d : since_last (l ++ [d]) = if w_last d then O else S (since_last l).
Proof. unfold since_last. rewrite fold_left_app. reflexivity. Qed.

Lemma writes_app p q : writes (p ++ q) = writes p ++ writes q.
Proof. apply flat_map_app. Qed.
Lemma wbeats_app p q : wbeats (p ++ q) = wbeats p ++ wbeats q.
Proof. apply flat_map_app. Qed.
Lemma answers_app p q : answers (p ++ q) = answers p ++ answers q.
Proof. apply flat_map_app. Qed.
Lemma writes_one c : writes [c] = opt (taken (c_aw c)).
Proof. unfold writes. cbn. apply app_nil_r. Qed.
Lemma wbeats_one c : wbeats [c] = opt (taken (c_w c)).
Proof. unfold wbeats. cbn. apply app_nil_r. Qed.
Lemma answers_one c : answers [c] = opt (taken (c_b c)).
Proof. unfold answers. cbn. apply app_nil_r. Qed.

(** ** One beat *)
Definition model_ok (f : cfg) (a : axp) (k : nat) (d : wp) : Prop :=
  exists t, wr_beat f (with_beat a (N.of_nat k)) d = Ok (t, []).

Lemma inc_with a k : inc_beat (with_beat a k) = with_beat a (k + 1).
Proof.
  unfold inc_beat, with_beat.
  cbn [wt_addr wt_len wt_size wt_burst wt_id wt_excl wt_beat]. f_equal. unfold w32.
  rewrite N.add_mod_idemp_l by discriminate. rewrite N.add_assoc. reflexivity.
Qed.

Lemma wr_beat_next f a k d t r :
  wr_beat f (with_beat a (N.of_nat k)) d = Ok (t, r) -> t = with_beat a (N.of_nat (S k)).
Proof.
  unfold wr_beat.
  destruct (if f_strb f then _ else _) as [g| | |]; cbn [rbind]; try discriminate.
  intros H. injection H as <- _. rewrite inc_with. f_equal. lia.
Qed.

(** The addresses still waiting for data; the first has had [k] beats. *)
Definition adv (k : nat) (l : list axp) : list wtx :=
  match l with
  | [] => []
  | a :: l' => with_beat a (N.of_nat k) :: map (fun a => with_beat a 0) l'
  end.

Lemma adv_zero l : adv 0 l = map (fun a => with_beat a 0) l.
Proof. destruct l; reflexivity. Qed.

Lemma adv_snoc k l a : (l = [] -> k = O) -> adv k (l ++ [a]) = adv k l ++ [with_beat a 0].
Proof.
  destruct l as [|x l]; intros H; cbn.
  - rewrite H by reflexivity. reflexivity.
  - rewrite map_app. reflexivity.
Qed.

(** All beats of [wds], coming after [Bd], that have an address pass. *)
Definition beats_fine (f : cfg) (A : list axp) (Bd wds : list wp) : Prop :=
  forall m d a, nth_error wds m = Some d ->
    nth_error A (lasts (Bd ++ firstn m wds)) = Some a ->
    model_ok f a (since_last (Bd ++ firstn m wds)) d.

Lemma beats_fine_cons f A Bd d wds :
  beats_fine f A Bd (d :: wds) <->
  (forall a, nth_error A (lasts Bd) = Some a -> model_ok f a (since_last Bd) d) /\
  beats_fine f A (Bd ++ [d]) wds.
Proof.
  split.
  - intros H. split.
    + intros a Ha. specialize (H O d a eq_refl). cbn [firstn] in H.
      rewrite app_nil_r in H. apply H, Ha.
    + intros m x a Hx Ha. specialize (H (S m) x a Hx). cbn [firstn] in H.
      rewrite <- app_assoc in Ha |- *. apply H, Ha.
  - intros [H1 H2] [|m] x a Hx Ha; cbn [firstn nth_error] in *.
    + injection Hx as <-. rewrite app_nil_r in *. apply H1, Ha.
    + specialize (H2 m x a Hx). rewrite <- app_assoc in H2. apply H2, Ha.
Qed.

Lemma beats_fine_app f A Bd x y :
  beats_fine f A Bd (x ++ y) <-> beats_fine f A Bd x /\ beats_fine f A (Bd ++ x) y.
Proof.
  revert Bd. induction x as [|d x IH]; intros Bd; cbn [app].
  - rewrite app_nil_r. split; [intros H; split; [|exact H]|tauto].
    intros [|m] d a H1; discriminate.
  - rewrite !beats_fine_cons, IH, <- app_assoc. cbn [app]. tauto.
Qed.

Lemma beats_fine_none f A Bd wds : (length A <= lasts Bd)%nat -> beats_fine f A Bd wds.
Proof.
  intros H m d a _ Ha. exfalso.
  assert (nth_error A (lasts (Bd ++ firstn m wds)) = None)
    by (apply nth_error_None; rewrite lasts_app; lia).
  congruence.
Qed.

(** ** process_aw_w_axi4 *)
Definition key (x : N * wtx) : N * bool := (wt_id (snd x), wt_excl (snd x)).
Definition akey (a : axp) : N * bool := (ax_id a, exclusive a).

Definition assigned (A : list axp) (Bd : list wp) : Prop :=
  (lasts Bd <= length A)%nat /\ (lasts Bd = length A -> since_last Bd = O) /\
  forall m, (m < length Bd)%nat -> (lasts (firstn m Bd) < length A)%nat.

Lemma assigned_snoc A Bd d : assigned A Bd -> (lasts Bd < length A)%nat ->
  assigned A (Bd ++ [d]).
Proof.
  intros [H1 [H2 H3]] H. split; [|split].
  - rewrite lasts_app, lasts_one. destruct (w_last d); lia.
  - rewrite lasts_app, lasts_one, since_snoc. destruct (w_last d); [reflexivity|lia].
  - intros m Hm. rewrite app_length in Hm. cbn in Hm.
    destruct (Nat.eq_dec m (length Bd)) as [->|Hne].
    + rewrite firstn_app, Nat.sub_diag, firstn_all. cbn. rewrite app_nil_r. exact H.
    + rewrite firstn_app. replace (m - length Bd)%nat with O by lia. cbn.
      rewrite app_nil_r. apply H3. lia.
Qed.

Lemma skipn_nth {X} (l : list X) n a : nth_error l n = Some a ->
  skipn n l = a :: skipn (S n) l.
Proof.
  revert n. induction l as [|x l IH]; intros [|n] H; try discriminate.
  - injection H as ->. reflexivity.
  - cbn [nth_error] in H. cbn [skipn]. rewrite (IH n H). reflexivity.
Qed.

Lemma firstn_snoc {X} (l : list X) n a : nth_error l n = Some a ->
  firstn (S n) l = firstn n l ++ [a].
Proof.
  revert n. induction l as [|x l IH]; intros [|n] H; try discriminate.
  - injection H as ->. reflexivity.
  - cbn [nth_error] in H. cbn [firstn app]. f_equal. apply (IH n H).
Qed.

Lemma key_with w a k : key (w, with_beat a k) = akey a.
Proof. reflexivity. Qed.

(** What a quiet pass establishes. *)
Lemma process4_quiet f A : forall wds Bd resp s,
  assigned A Bd ->
  process4 f (adv (since_last Bd) (skipn (lasts Bd) A)) wds resp = Ok (s, []) ->
  beats_fine f A Bd wds /\
  exists X seg,
    wds = X ++ s_wd s /\ assigned A (Bd ++ X) /\
    s_wt s = adv (since_last (Bd ++ X)) (skipn (lasts (Bd ++ X)) A) /\
    (s_wt s = [] \/ s_wd s = []) /\
    firstn (lasts (Bd ++ X)) A = firstn (lasts Bd) A ++ seg /\
    map key (s_resp s) = map key resp ++ map akey seg /\
    lasts (Bd ++ X) = (lasts Bd + length seg)%nat.
Proof.
  induction wds as [|d wds IH]; intros Bd resp s HA H.
  - cbn in H. injection H as <-. split; [intros [|m] ? ? Hx; discriminate|].
    exists [], []. rewrite !app_nil_r. cbn. split; [reflexivity|].
    split; [exact HA|]. split; [reflexivity|]. split; [right; reflexivity|].
    split; [reflexivity|]. split; [reflexivity|lia].
  - cbn [process4] in H. destruct (skipn (lasts Bd) A) as [|a rest] eqn:Es.
    + cbn [adv] in H. injection H as <-. split.
      * apply beats_fine_none. rewrite <- (firstn_skipn (lasts Bd) A), Es, app_nil_r.
        rewrite firstn_length. lia.
      * exists [], []. rewrite !app_nil_r. cbn [s_wd s_wt s_resp map length app].
        split; [reflexivity|]. split; [exact HA|]. split; [rewrite Es; reflexivity|].
        split; [left; reflexivity|]. split; [reflexivity|].
        split; [reflexivity|lia].
    + assert (Hlt : (lasts Bd < length A)%nat).
      { destruct (Nat.lt_ge_cases (lasts Bd) (length A)) as [L|L]; [exact L|].
        rewrite skipn_all2 in Es by exact L. discriminate. }
      assert (Ha : nth_error A (lasts Bd) = Some a).
      { rewrite <- (firstn_skipn (lasts Bd) A), Es.
        rewrite nth_error_app2 by (rewrite firstn_length; lia).
        rewrite firstn_length. replace (lasts Bd - _)%nat with O by lia. reflexivity. }
      assert (Er : rest = skipn (S (lasts Bd)) A).
      { rewrite (skipn_nth _ _ _ Ha) in Es. injection Es as <-. reflexivity. }
      cbn [adv] in H.
      destruct (wr_beat f (with_beat a (N.of_nat (since_last Bd))) d)
        as [[t r]| | |] eqn:Ew; cbn [rbind] in H; try discriminate.
      pose proof (wr_beat_next _ _ _ _ _ _ Ew) as ->.
      pose proof (assigned_snoc A Bd d HA Hlt) as HA1.
      destruct (w_last d) eqn:El.
      * unfold push_resp in H.
        assert (Hrest : map (fun a => with_beat a 0) rest =
                  adv (since_last (Bd ++ [d])) (skipn (lasts (Bd ++ [d])) A)).
        { rewrite since_snoc, El, adv_zero, lasts_app, lasts_one, El, Er.
          rewrite Nat.add_1_r. reflexivity. }
        rewrite Hrest in H.
        set (pr := if N.of_nat (length resp) <? f_depth f then _ else _) in H.
        destruct pr as [resp' reps2] eqn:Epr.
        destruct (process4 f _ wds resp') as [[s2 r2]| | |] eqn:Ep; cbn in H;
          try discriminate.
        injection H as <- H. apply app_eq_nil in H as [-> H].
        apply app_eq_nil in H as [-> ->].
        destruct (IH (Bd ++ [d]) resp' s2 HA1 Ep)
          as [Hf [X [seg [E1 [E2 [E3 [E4 [E5 [E6 E7]]]]]]]]].
        split.
        -- apply beats_fine_cons. split; [|exact Hf].
           intros a' Ha'. rewrite Ha in Ha'. injection Ha' as <-. eexists. exact Ew.
        -- exists (d :: X), (a :: seg).
           assert (Eap : Bd ++ d :: X = (Bd ++ [d]) ++ X)
             by (rewrite <- app_assoc; reflexivity).
           rewrite Eap.
           split; [cbn; rewrite E1 at 1; reflexivity|]. split; [exact E2|].
           split; [exact E3|]. split; [exact E4|].
           rewrite E5, lasts_app, lasts_one, El, Nat.add_1_r.
           split; [rewrite (firstn_snoc _ _ _ Ha), <- app_assoc; reflexivity|].
           split.
           ++ rewrite E6. unfold pr in Epr.
              destruct (N.of_nat (length resp) <? f_depth f); [|discriminate].
              injection Epr as <-. rewrite map_app, <- app_assoc. reflexivity.
           ++ rewrite E7, lasts_app, lasts_one, El. cbn. lia.
      * assert (Hrest : with_beat a (N.of_nat (S (since_last Bd)))
                        :: map (fun a => with_beat a 0) rest =
                  adv (since_last (Bd ++ [d])) (skipn (lasts (Bd ++ [d])) A)).
        { rewrite since_snoc, El, lasts_app, lasts_one, El, Nat.add_0_r, Es.
          reflexivity. }
        rewrite Hrest in H.
        destruct (process4 f _ wds resp) as [[s2 r2]| | |] eqn:Ep; cbn in H;
          try discriminate.
        injection H as <- H. apply app_eq_nil in H as [-> ->].
        destruct (IH (Bd ++ [d]) resp s2 HA1 Ep)
          as [Hf [X [seg [E1 [E2 [E3 [E4 [E5 [E6 E7]]]]]]]]].
        split.
        -- apply beats_fine_cons. split; [|exact Hf].
           intros a' Ha'. rewrite Ha in Ha'. injection Ha' as <-. eexists. exact Ew.
        -- exists (d :: X), seg.
           assert (Eap : Bd ++ d :: X = (Bd ++ [d]) ++ X)
             by (rewrite <- app_assoc; reflexivity).
           rewrite Eap.
           split; [cbn; rewrite E1 at 1; reflexivity|]. split; [exact E2|].
           split; [exact E3|]. split; [exact E4|].
           rewrite E5, lasts_app, lasts_one, El, Nat.add_0_r.
           split; [reflexivity|]. split; [exact E6|].
           rewrite E7, lasts_app, lasts_one, El. lia.
Qed.

(** A pass is quiet when the beats pass and there is room for the responses. *)
Lemma process4_accepts f A : forall wds Bd resp,
  assigned A Bd -> beats_fine f A Bd wds ->
  (length resp + length (skipn (lasts Bd) A) <= N.to_nat (f_depth f))%nat ->
  exists s, process4 f (adv (since_last Bd) (skipn (lasts Bd) A)) wds resp = Ok (s, []).
Proof.
  induction wds as [|d wds IH]; intros Bd resp HA Hf Hroom.
  - eexists. reflexivity.
  - cbn [process4]. destruct (skipn (lasts Bd) A) as [|a rest] eqn:Es.
    + eexists. reflexivity.
    + assert (Hlt : (lasts Bd < length A)%nat).
      { destruct (Nat.lt_ge_cases (lasts Bd) (length A)) as [L|L]; [exact L|].
        rewrite skipn_all2 in Es by exact L. discriminate. }
      assert (Ha : nth_error A (lasts Bd) = Some a).
      { rewrite <- (firstn_skipn (lasts Bd) A), Es.
        rewrite nth_error_app2 by (rewrite firstn_length; lia).
        rewrite firstn_length. replace (lasts Bd - _)%nat with O by lia. reflexivity. }
      assert (Er : rest = skipn (S (lasts Bd)) A).
      { rewrite (skipn_nth _ _ _ Ha) in Es. injection Es as <-. reflexivity. }
      apply beats_fine_cons in Hf as [Hf1 Hf2].
      destruct (Hf1 a Ha) as [t Ew]. cbn [adv]. rewrite Ew. cbn [rbind].
      pose proof (wr_beat_next _ _ _ _ _ _ Ew) as ->.
      pose proof (assigned_snoc A Bd d HA Hlt) as HA1.
      destruct (w_last d) eqn:El.
      * unfold push_resp. cbn [length] in Hroom.
        replace (N.of_nat (length resp) <? f_depth f) with true by lia.
        assert (Hrest : map (fun a => with_beat a 0) rest =
                  adv (since_last (Bd ++ [d])) (skipn (lasts (Bd ++ [d])) A)).
        { rewrite since_snoc, El, adv_zero, lasts_app, lasts_one, El, Er.
          rewrite Nat.add_1_r. reflexivity. }
        rewrite Hrest.
        destruct (IH (Bd ++ [d])
                    (resp ++ [(w_id d, with_beat a (N.of_nat (S (since_last Bd))))])
                    HA1 Hf2) as [s Es2].
        { rewrite lasts_app, lasts_one, El, Nat.add_1_r, <- Er, app_length.
          cbn [length]. lia. }
        rewrite Es2. cbn. exists s. reflexivity.
      * assert (Hrest : with_beat a (N.of_nat (S (since_last Bd)))
                        :: map (fun a => with_beat a 0) rest =
                  adv (since_last (Bd ++ [d])) (skipn (lasts (Bd ++ [d])) A)).
        { rewrite since_snoc, El, lasts_app, lasts_one, El, Nat.add_0_r, Es.
          reflexivity. }
        rewrite Hrest.
        destruct (IH (Bd ++ [d]) resp HA1 Hf2) as [s Es2].
        { rewrite lasts_app, lasts_one, El, Nat.add_0_r, Es. exact Hroom. }
        rewrite Es2. cbn. exists s. reflexivity.
Qed.

(** ** Responses *)
Definition for_id (id : N) (l : list (N * wtx)) : list (N * wtx) :=
  filter (fun x => wt_id (snd x) =? id) l.

Lemma take_resp_ok id : forall l,
  match take_resp false id l with
  | None => for_id id l = []
  | Some (t, l2) => exists x, for_id id l = x :: for_id id l2 /\ snd x = t /\
      (forall j, j <> id -> for_id j l2 = for_id j l) /\ length l = S (length l2)
  end.
Proof.
  induction l as [|x l IH]; [reflexivity|]. cbn [take_resp].
  destruct (N.eqb_spec (wt_id (snd x)) id) as [E|E].
  - exists x. unfold for_id. cbn [filter]. rewrite E, N.eqb_refl.
    split; [reflexivity|]. split; [reflexivity|]. split; [|reflexivity].
    intros j Hj. destruct (N.eqb_spec id j); [congruence|reflexivity].
  - destruct (take_resp false id l) as [[t l2]|].
    + destruct IH as [y [E1 [E2 [E3 E4]]]]. exists y. unfold for_id in *. cbn [filter].
      apply N.eqb_neq in E. rewrite E. split; [exact E1|]. split; [exact E2|]. split.
      * intros j Hj. rewrite (E3 j Hj). reflexivity.
      * cbn. lia.
    + unfold for_id in *. cbn [filter]. apply N.eqb_neq in E. rewrite E. exact IH.
Qed.

(** ** The invariant *)
Definition ids (id : N) (l : list axp) : list axp := filter (fun a => ax_id a =? id) l.
Definition bids (id : N) (l : list bp) : list bp := filter (fun b => b_id b =? id) l.
Definition right (a : axp) (b : bp) : Prop := good_resp (exclusive a) (b_resp b).

Definition resp_inv (done : list axp) (resp : list (N * wtx)) (bs : list bp) : Prop :=
  (length resp + length bs = length done)%nat /\
  forall id, exists pre post, ids id done = pre ++ post /\
    map akey post = map key (for_id id resp) /\ Forall2 right pre (bids id bs).

Definition winv (f : cfg) (h : list cyc) (s : wst) : Prop :=
  exists Bd,
    wbeats h = Bd ++ s_wd s /\ assigned (writes h) Bd /\
    s_wt s = adv (since_last Bd) (skipn (lasts Bd) (writes h)) /\
    (s_wt s = [] \/ s_wd s = []) /\
    beats_fine f (writes h) [] Bd /\
    resp_inv (firstn (lasts Bd) (writes h)) (s_resp s) (answers h).

Lemma adv_nil k l : adv k l = [] -> l = [].
Proof. destruct l; [reflexivity|discriminate]. Qed.

Lemma skipn_nil_le {X} n (l : list X) : skipn n l = [] -> (length l <= n)%nat.
Proof.
  intros H. pose proof (skipn_length n l) as L. rewrite H in L. cbn in L. lia.
Qed.

Lemma winv_complete f h s Bd :
  wbeats h = Bd ++ s_wd s -> assigned (writes h) Bd ->
  s_wt s = adv (since_last Bd) (skipn (lasts Bd) (writes h)) ->
  (s_wt s = [] \/ s_wd s = []) ->
  complete h = firstn (lasts Bd) (writes h) /\
  (beats_fine f (writes h) [] (wbeats h) <-> beats_fine f (writes h) [] Bd).
Proof.
  intros E1 [H1 _] E2 E3. unfold complete. rewrite E1.
  destruct E3 as [E3|E3].
  - rewrite E2 in E3. apply adv_nil, skipn_nil_le in E3.
    rewrite !firstn_all2 by (rewrite ?lasts_app; lia). split; [reflexivity|].
    rewrite beats_fine_app. split; [tauto|]. intros H. split; [exact H|].
    apply beats_fine_none. exact E3.
  - rewrite E3, app_nil_r. split; reflexivity.
Qed.

Lemma winv_answers f h s : winv f h s ->
  beats_fine f (writes h) [] (wbeats h) /\ answers_right h.
Proof.
  intros [Bd [E1 [E2 [E3 [E4 [E5 [_ E7]]]]]]].
  destruct (winv_complete f h s Bd E1 E2 E3 E4) as [C1 C2].
  split; [apply C2, E5|]. intros id. rewrite C1. destruct (E7 id) as [pre [post [P1 [_ P3]]]].
  exists pre, post. split; assumption.
Qed.

Lemma beats_fine_more f A A2 Bd : assigned A Bd ->
  beats_fine f A [] Bd -> beats_fine f (A ++ A2) [] Bd.
Proof.
  intros [_ [_ H3]] H m d a Hd Ha. cbn [app] in *.
  apply (H m d a Hd). cbn [app].
  assert (Hm : (m < length Bd)%nat) by (apply nth_error_Some; congruence).
  rewrite nth_error_app1 in Ha by (apply H3; exact Hm). exact Ha.
Qed.

Lemma assigned_more A Bd A2 : assigned A Bd -> (lasts Bd < length (A ++ A2))%nat \/ A2 = [] ->
  assigned (A ++ A2) Bd.
Proof.
  intros [H1 [H2 H3]] Hc. destruct Hc as [Hc| ->].
  - split; [lia|]. split; [lia|]. intros m Hm. specialize (H3 m Hm).
    rewrite app_length. lia.
  - rewrite app_nil_r. repeat split; assumption.
Qed.

(** The queues after the address and the data of a cycle have been added. *)
Lemma winv_push f h s c :
  winv f h s ->
  exists Bd,
    wbeats (h ++ [c]) = Bd ++ (s_wd s ++ opt (taken (c_w c))) /\
    assigned (writes (h ++ [c])) Bd /\
    s_wt s ++ map sample_aw (opt (taken (c_aw c)))
      = adv (since_last Bd) (skipn (lasts Bd) (writes (h ++ [c]))) /\
    beats_fine f (writes (h ++ [c])) [] Bd /\
    resp_inv (firstn (lasts Bd) (writes (h ++ [c]))) (s_resp s) (answers h).
Proof.
  intros [Bd [E1 [E2 [E3 [E4 [E5 E6]]]]]]. exists Bd.
  rewrite wbeats_app, wbeats_one, writes_app, writes_one, E1, <- app_assoc.
  split; [reflexivity|].
  pose proof E2 as [H1 [H2 _]].
  split.
  { apply assigned_more; [exact E2|]. destruct (taken (c_aw c)); cbn.
    - left. rewrite app_length. cbn. lia.
    - right. reflexivity. }
  split.
  { rewrite E3. destruct (taken (c_aw c)) as [a|]; cbn [opt map].
    - rewrite skipn_app. replace (lasts Bd - length (writes h))%nat with O by lia.
      cbn [skipn]. rewrite adv_snoc; [reflexivity|]. intros Hn. apply skipn_nil_le in Hn.
      apply H2. lia.
    - rewrite !app_nil_r. reflexivity. }
  split; [apply beats_fine_more; assumption|].
  rewrite firstn_app. replace (lasts Bd - length (writes h))%nat with O by lia.
  cbn [firstn]. rewrite app_nil_r. exact E6.
Qed.

(** The invariant follows once the cycle has been processed. *)
Lemma resp_more done seg resp resp' bs :
  resp_inv done resp bs -> map key resp' = map key resp ++ map akey seg ->
  resp_inv (done ++ seg) resp' bs.
Proof.
  intros [H1 H2] E. split.
  - apply (f_equal (@length _)) in E. rewrite app_length, !map_length in E.
    rewrite app_length. lia.
  - intros id. destruct (H2 id) as [pre [post [P1 [P2 P3]]]].
    exists pre, (post ++ ids id seg). split; [|split; [|exact P3]].
    + unfold ids in *. rewrite filter_app, P1, app_assoc. reflexivity.
    + rewrite map_app, P2. unfold for_id, ids.
      assert (K : forall l, map key (filter (fun x => wt_id (snd x) =? id) l)
                  = filter (fun k => fst k =? id) (map key l)).
      { induction l as [|x l IH]; [reflexivity|]. cbn. destruct (wt_id (snd x) =? id);
          cbn; rewrite IH; reflexivity. }
      assert (K2 : forall l, map akey (filter (fun a => ax_id a =? id) l)
                  = filter (fun k => fst k =? id) (map akey l)).
      { induction l as [|x l IH]; [reflexivity|]. cbn. destruct (ax_id x =? id);
          cbn; rewrite IH; reflexivity. }
      rewrite !K, K2, E, filter_app. reflexivity.
Qed.

Lemma right_iff t a r b : (wt_id t, wt_excl t) = akey a -> b_resp b = r ->
  (resp_fine (wt_excl t) r = true <-> right a b).
Proof.
  intros E <-. injection E as _ ->. rewrite resp_fine_iff. reflexivity.
Qed.

Definition wr_fine (f : cfg) (h : list cyc) : Prop :=
  beats_fine f (writes h) [] (wbeats h) /\ answers_right h.

(** One cycle, both ways. *)
Lemma wr_one f h s c :
  f_axi3 f = false -> f_resp f = true -> winv f h s ->
  (forall s', wr_cycle f s c = Ok (s', []) -> winv f (h ++ [c]) s') /\
  (wr_fine f (h ++ [c]) ->
   (taken (c_aw c) <> None -> N.of_nat (length (s_wt s)) < f_depth f) ->
   (taken (c_w c) <> None -> N.of_nat (length (s_wd s)) < max_wdata f) ->
   N.of_nat (length (writes (h ++ [c]))) <= f_depth f + N.of_nat (length (answers h)) ->
   exists s', wr_cycle f s c = Ok (s', [])).
Proof.
  intros H3 Hr Hi.
  destruct (winv_push f h s c Hi) as [Bd [P1 [P2 [P3 [P4 P5]]]]].
  set (A := writes (h ++ [c])) in *. set (wds := s_wd s ++ opt (taken (c_w c))) in *.
  assert (Hafter : forall s1,
    process4 f (s_wt s ++ map sample_aw (opt (taken (c_aw c)))) wds (s_resp s)
      = Ok (s1, []) ->
    exists Bd2, wbeats (h ++ [c]) = Bd2 ++ s_wd s1 /\ assigned A Bd2 /\
      s_wt s1 = adv (since_last Bd2) (skipn (lasts Bd2) A) /\
      (s_wt s1 = [] \/ s_wd s1 = []) /\ beats_fine f A [] Bd2 /\
      resp_inv (firstn (lasts Bd2) A) (s_resp s1) (answers h)).
  { intros s1 E. rewrite P3 in E.
    destruct (process4_quiet f A wds Bd (s_resp s) s1 P2 E)
      as [Hf [X [seg [E1 [E2 [E3 [E4 [E5 [E6 E7]]]]]]]]].
    exists (Bd ++ X). rewrite P1. split; [rewrite E1 at 1; apply app_assoc|].
    split; [exact E2|]. split; [exact E3|]. split; [exact E4|]. split.
    - rewrite E1 in Hf. apply beats_fine_app in Hf as [Hf _].
      apply beats_fine_app. split; [exact P4|exact Hf].
    - rewrite E5. apply (resp_more _ _ (s_resp s)); assumption. }
  assert (Hb : forall s1 Bd2,
    wbeats (h ++ [c]) = Bd2 ++ s_wd s1 -> assigned A Bd2 ->
    s_wt s1 = adv (since_last Bd2) (skipn (lasts Bd2) A) ->
    (s_wt s1 = [] \/ s_wd s1 = []) -> beats_fine f A [] Bd2 ->
    resp_inv (firstn (lasts Bd2) A) (s_resp s1) (answers h) ->
    match taken (c_b c) with
    | None => winv f (h ++ [c]) s1
    | Some b =>
        match take_resp false (b_id b) (s_resp s1) with
        | None => ~ answers_right (h ++ [c])
        | Some (t, resp') =>
            if resp_fine (wt_excl t) (b_resp b)
            then winv f (h ++ [c]) (mkWst (s_wt s1) (s_wd s1) resp')
            else ~ answers_right (h ++ [c])
        end
    end).
  { intros s1 Bd2 E1 E2 E3 E4 E5 [L6 E6].
    destruct (winv_complete f (h ++ [c]) s1 Bd2 E1 E2 E3 E4) as [C1 _].
    fold A in C1.
    assert (Hbs : answers (h ++ [c]) = answers h ++ opt (taken (c_b c)))
      by (rewrite answers_app, answers_one; reflexivity).
    destruct (taken (c_b c)) as [b|].
    2:{ cbn [opt] in Hbs. rewrite app_nil_r in Hbs.
        exists Bd2. split; [exact E1|]. split; [exact E2|]. split; [exact E3|].
        split; [exact E4|]. split; [exact E5|]. rewrite Hbs. split; assumption. }
    cbn [opt] in Hbs.
    assert (Hbid : bids (b_id b) (answers (h ++ [c])) = bids (b_id b) (answers h) ++ [b]).
    { rewrite Hbs. unfold bids. rewrite filter_app. cbn. rewrite N.eqb_refl. reflexivity. }
    assert (Hoth : forall j, j <> b_id b -> bids j (answers (h ++ [c])) = bids j (answers h)).
    { intros j Hj. rewrite Hbs. unfold bids. rewrite filter_app. cbn.
      destruct (N.eqb_spec (b_id b) j); [congruence|]. apply app_nil_r. }
    pose proof (take_resp_ok (b_id b) (s_resp s1)) as HT.
    destruct (E6 (b_id b)) as [pre [post [Q1 [Q2 Q3]]]].
    assert (Hneed : answers_right (h ++ [c]) ->
              exists e r', post = e :: r' /\ right e b).
    { intros Har. specialize (Har (b_id b)). rewrite C1 in Har.
      change (answered right (ids (b_id b) (firstn (lasts Bd2) A))
                (bids (b_id b) (answers (h ++ [c])))) in Har.
      rewrite Hbid, Q1 in Har.
      apply (answered_next right) in Har; [exact Har|exact Q3]. }
    destruct (take_resp false (b_id b) (s_resp s1)) as [[t resp']|].
    2:{ intros Har. destruct (Hneed Har) as [e [r' [-> _]]]. rewrite HT in Q2. discriminate. }
    destruct HT as [x [T1 [T2 [T3 T4]]]].
    rewrite T1 in Q2. cbn [map] in Q2. destruct post as [|e post]; [discriminate|].
    cbn [map] in Q2. injection Q2 as Qi Qe Q2.
    assert (Hkey : (wt_id t, wt_excl t) = akey e)
      by (rewrite <- T2; unfold akey; rewrite Qi, Qe; reflexivity).
    pose proof (right_iff t e (b_resp b) b Hkey eq_refl) as HR.
    destruct (resp_fine (wt_excl t) (b_resp b)).
    2:{ intros Har. destruct (Hneed Har) as [e' [r' [X Y]]]. injection X as <- <-.
        apply HR in Y. discriminate. }
    assert (Hright : right e b) by (apply HR; reflexivity).
    exists Bd2. cbn [s_wd s_wt s_resp]. split; [exact E1|]. split; [exact E2|].
    split; [exact E3|]. split; [exact E4|]. split; [exact E5|]. split.
    - rewrite Hbs, app_length. cbn. fold A. lia.
    - intros j. destruct (N.eq_dec j (b_id b)) as [->|Hj].
      + exists (pre ++ [e]), post. split; [fold A; rewrite Q1, <- app_assoc; reflexivity|].
        split; [exact Q2|]. rewrite Hbid. apply Forall2_app; [exact Q3|].
        constructor; [exact Hright|constructor].
      + destruct (E6 j) as [pre' [post' [R1 [R2 R3]]]]. exists pre', post'.
        rewrite (T3 j Hj), (Hoth j Hj). split; [exact R1|]. split; assumption. }
  unfold wr_cycle. rewrite H3, Hr. cbn [andb]. split.
  - intros s'.
    set (pa := match taken (c_aw c) with Some _ => _ | None => _ end).
    assert (Hpa : forall w r, pa = (w, r) -> r = [] ->
              w = s_wt s ++ map sample_aw (opt (taken (c_aw c)))).
    { intros w r E ->. unfold pa in E. destruct (taken (c_aw c)); cbn [opt map].
      - destruct (N.of_nat (length (s_wt s)) <? f_depth f); congruence.
      - rewrite app_nil_r. congruence. }
    destruct pa as [wts rep1].
    set (pw := match taken (c_w c) with Some _ => _ | None => _ end).
    assert (Hpw : forall w r, pw = (w, r) -> r = [] -> w = wds).
    { intros w r E ->. unfold pw in E. unfold wds.
      destruct (taken (c_w c)); cbn [opt].
      - destruct (N.of_nat (length (s_wd s)) <? max_wdata f); congruence.
      - rewrite app_nil_r. congruence. }
    destruct pw as [wd1 rep2].
    destruct (process4 f wts wd1 (s_resp s)) as [[s1 rep3]| | |] eqn:Ep; cbn [rbind];
      try discriminate.
    intros H.
    assert (Hnil : rep1 = [] /\ rep2 = [] /\ rep3 = []).
    { destruct (taken (c_b c)) as [b|].
      - destruct (take_resp false (b_id b) (s_resp s1)) as [[t resp']|];
          injection H as _ H; apply app_eq_nil in H as [-> H];
          apply app_eq_nil in H as [-> H]; apply app_eq_nil in H as [-> H]; auto.
      - injection H as _ H; apply app_eq_nil in H as [-> H];
          apply app_eq_nil in H as [-> H]; auto. }
    destruct Hnil as [-> [-> ->]].
    rewrite (Hpa wts [] eq_refl eq_refl), (Hpw wd1 [] eq_refl eq_refl) in Ep.
    destruct (Hafter s1 Ep) as [Bd2 [E1 [E2 [E3 [E4 [E5 E6]]]]]].
    specialize (Hb s1 Bd2 E1 E2 E3 E4 E5 E6).
    destruct (taken (c_b c)) as [b|]; [|injection H as <-; exact Hb].
    destruct (take_resp false (b_id b) (s_resp s1)) as [[t resp']|]; [|discriminate].
    destruct (resp_fine (wt_excl t) (b_resp b)); [|discriminate].
    injection H as <-. exact Hb.
  - intros [Hfine Hans] Ha Hw Hroom.
    assert (E1 : match taken (c_aw c) with
                 | Some a => if N.of_nat (length (s_wt s)) <? f_depth f
                     then (s_wt s ++ [sample_aw a], []) else (s_wt s, [WrDepth])
                 | None => (s_wt s, []) end
                 = (s_wt s ++ map sample_aw (opt (taken (c_aw c))), [])).
    { destruct (taken (c_aw c)); cbn [opt map].
      - specialize (Ha ltac:(discriminate)).
        replace (N.of_nat (length (s_wt s)) <? f_depth f) with true by lia. reflexivity.
      - rewrite app_nil_r. reflexivity. }
    rewrite E1.
    assert (E2 : match taken (c_w c) with
                 | Some d => if N.of_nat (length (s_wd s)) <? max_wdata f
                     then (s_wd s ++ [d], []) else (s_wd s, [WrData])
                 | None => (s_wd s, []) end = (wds, [])).
    { unfold wds. destruct (taken (c_w c)); cbn [opt].
      - specialize (Hw ltac:(discriminate)).
        replace (N.of_nat (length (s_wd s)) <? max_wdata f) with true by lia. reflexivity.
      - rewrite app_nil_r. reflexivity. }
    rewrite E2.
    assert (Hproc : exists s1, process4 f (s_wt s ++ map sample_aw (opt (taken (c_aw c))))
                      wds (s_resp s) = Ok (s1, [])).
    { rewrite P3. apply process4_accepts; [exact P2| |].
      - rewrite P1 in Hfine. apply beats_fine_app in Hfine as [_ Hfine]. exact Hfine.
      - destruct P5 as [L5 _]. destruct P2 as [L2 _]. rewrite firstn_length in L5.
        rewrite skipn_length. lia. }
    destruct Hproc as [s1 Ep]. rewrite Ep. cbn [rbind].
    destruct (Hafter s1 Ep) as [Bd2 [F1 [F2 [F3 [F4 [F5 F6]]]]]].
    specialize (Hb s1 Bd2 F1 F2 F3 F4 F5 F6).
    destruct (taken (c_b c)) as [b|]; [|eexists; reflexivity].
    destruct (take_resp false (b_id b) (s_resp s1)) as [[t resp']|]; [|contradiction].
    destruct (resp_fine (wt_excl t) (b_resp b)); [|contradiction].
    eexists. reflexivity.
Qed.

(** ** Whole histories *)
Lemma winv_init f : winv f [] wst0.
Proof.
  exists []. cbn. split; [reflexivity|]. split.
  { split; [cbn; lia|]. split; [reflexivity|]. intros m Hm. cbn in Hm. lia. }
  split; [reflexivity|]. split; [left; reflexivity|].
  split; [intros [|m] ? ? Hx; discriminate|].
  split; [reflexivity|]. intros id. exists [], []. split; [reflexivity|].
  split; [reflexivity|constructor].
Qed.

Lemma wr_hist_quiet f : f_axi3 f = false -> f_resp f = true -> forall h s,
  steps (wr_cycle f) wst0 h = Ok (s, []) ->
  winv f h s /\ forall p q, h = p ++ q -> wr_fine f p.
Proof.
  intros H3 Hr. induction h as [|c h IH] using rev_ind; intros s H.
  - cbn in H. injection H as <-. split; [apply winv_init|].
    intros p q E. symmetry in E. apply app_eq_nil in E as [-> ->].
    apply (winv_answers f [] wst0), winv_init.
  - assert (Hq : quiet (steps (wr_cycle f) wst0 (h ++ [c]))) by (exists s; exact H).
    apply quiet_app in Hq as [s1 [E1 _]]. rewrite steps_app, E1 in H.
    cbn [rbind fst snd] in H. rewrite steps_one in H.
    destruct (wr_cycle f s1 c) as [[s2 r2]| | |] eqn:Ec; cbn in H; try discriminate.
    injection H as -> ->. destruct (IH s1 E1) as [Hi Hp].
    assert (Hi2 : winv f (h ++ [c]) s) by (apply (wr_one f h s1 c H3 Hr Hi), Ec).
    split; [exact Hi2|]. intros p q E. destruct q as [|x q] using rev_ind.
    + rewrite app_nil_r in E. subst p. apply (winv_answers f _ s), Hi2.
    + rewrite app_assoc in E. apply app_inj_tail in E as [E _]. apply (Hp p q E).
Qed.

Lemma since_fold l : forall k, (0 < lasts l)%nat ->
  fold_left (fun n d => if w_last d then O else S n) l k = since_last l.
Proof.
  unfold since_last. induction l as [|d l IH]; intros k H; [cbn in H; lia|].
  cbn [fold_left]. destruct (w_last d) eqn:E; [reflexivity|].
  assert (Hl : (0 < lasts l)%nat).
  { change (d :: l) with ([d] ++ l) in H. rewrite lasts_app, lasts_one, E in H. lia. }
  rewrite (IH (S k) Hl), (IH 1%nat Hl). reflexivity.
Qed.

Lemma since_none l : forall k, lasts l = O ->
  fold_left (fun n d => if w_last d then O else S n) l k = (k + length l)%nat.
Proof.
  induction l as [|d l IH]; intros k H; cbn [fold_left length]; [lia|].
  change (d :: l) with ([d] ++ l) in H. rewrite lasts_app, lasts_one in H.
  destruct (w_last d); [lia|]. rewrite IH by lia. lia.
Qed.

Lemma drop_done Bd : forall wds, since_last Bd = O ->
  drop_bursts (lasts Bd) (Bd ++ wds) = wds.
Proof.
  induction Bd as [|d Bd IH]; intros wds H.
  - cbn. destruct wds; reflexivity.
  - assert (El : lasts (d :: Bd) = (lasts [d] + lasts Bd)%nat)
      by (change (d :: Bd) with ([d] ++ Bd); apply lasts_app).
    rewrite lasts_one in El. unfold since_last in H. cbn [fold_left] in H.
    destruct (w_last d) eqn:E.
    + rewrite El. cbn [app drop_bursts Nat.add]. rewrite E. apply IH. exact H.
    + rewrite El. cbn [Nat.add]. destruct (lasts Bd) as [|n] eqn:En.
      * rewrite since_none in H by exact En. lia.
      * cbn [app drop_bursts]. rewrite E. apply IH.
        rewrite since_fold in H by lia. exact H.
Qed.

Lemma wr_hist_accepts f : f_axi3 f = false -> f_resp f = true ->
  256 * f_depth f < 2 ^ 32 -> forall h,
  wr_room (f_depth f) h -> (forall p q, h = p ++ q -> wr_fine f p) ->
  exists s, steps (wr_cycle f) wst0 h = Ok (s, []) /\ winv f h s.
Proof.
  intros H3 Hr Hd. induction h as [|c h IH] using rev_ind; intros Hroom Hf.
  - exists wst0. split; [reflexivity|apply winv_init].
  - destruct IH as [s [Es Hi]].
    + intros p x q E. apply (Hroom p x (q ++ [c])). rewrite E, <- app_assoc. reflexivity.
    + intros p q E. apply (Hf p (q ++ [c])). rewrite E, app_assoc. reflexivity.
    + destruct (wr_one f h s c H3 Hr Hi) as [H1 H2].
      destruct (Hroom h c [] eq_refl) as [R1 R2].
      destruct H2 as [s2 E2].
      * apply (Hf (h ++ [c]) []). symmetry. apply app_nil_r.
      * intros Hc. destruct Hi as [Bd [_ [[L1 _] [E3 [_ [_ [L2 _]]]]]]].
        rewrite firstn_length in L2.
        assert (El : length (s_wt s) = (length (writes h) - lasts Bd)%nat).
        { rewrite E3. rewrite <- (skipn_length (lasts Bd) (writes h)).
          destruct (skipn (lasts Bd) (writes h)); cbn; [reflexivity|].
          rewrite map_length. reflexivity. }
        rewrite writes_app, writes_one, app_length in R1.
        destruct (taken (c_aw c)); [|contradiction]. cbn in R1. lia.
      * intros Hc. specialize (R2 Hc). unfold max_wdata, w32. rewrite H3.
        rewrite N.mod_small by lia.
        assert (Hle : (length (s_wd s) <= length (early h))%nat).
        { destruct Hi as [Bd [E1 [[L1 [L2 _]] [E3 [[E4|E4] _]]]]].
          - rewrite E3 in E4. apply adv_nil, skipn_nil_le in E4.
            assert (Hl : lasts Bd = length (writes h)) by lia.
            unfold early. rewrite E1, <- Hl, drop_done; [lia|]. apply L2, Hl.
          - rewrite E4. cbn. lia. }
        lia.
      * exact R1.
      * exists s2. split; [|apply H1, E2].
        rewrite steps_app, Es. cbn [rbind fst snd]. rewrite steps_one, E2. reflexivity.
Qed.

(** ** From the checks to the rules *)
Lemma model_ok_weak f a k d :
  f_strb f = true -> f_bursts f = true -> plain (f_bus f) a -> model_ok f a k d ->
  (N.of_nat k <= ax_len a -> strobe_rule (f_bus f) (f_gaps f) a (N.of_nat k) (w_strb d)) /\
  (w_last d = true -> ax_len a <= N.of_nat k).
Proof.
  intros Hs Hb Hp [t H]. unfold wr_beat in H. rewrite Hs, Hb in H. split.
  - intros Hk. destruct (check_wstrb_ok (f_bus f) (f_gaps f) a (N.of_nat k) (w_strb d) Hp Hk)
      as [b [E F]].
    rewrite E in H. cbn [rbind] in H. apply F. destruct b; [reflexivity|discriminate].
  - intros Hl.
    destruct (check_wstrb _ _ _ _) as [b| | |]; cbn [rbind] in H; try discriminate.
    injection H as _ H. apply app_eq_nil in H as [_ H]. rewrite Hl in H. cbn [andb] in H.
    destruct (wt_done _) eqn:Ed; [|discriminate].
    rewrite inc_with in Ed. unfold wt_done, num_beats, with_beat in Ed.
    cbn [wt_len wt_beat] in Ed. destruct Hp as [_ [_ [Hlen _]]].
    unfold w32 in Ed. rewrite (N.mod_small (ax_len a + 1)) in Ed
      by (change (2 ^ 32) with 4294967296; lia).
    pose proof (N.mod_le (1 + (N.of_nat k + 1)) (2 ^ 32) ltac:(discriminate)). lia.
Qed.

Lemma model_ok_full f a k d :
  f_strb f = true -> f_bursts f = true -> plain (f_bus f) a ->
  N.of_nat k <= ax_len a ->
  strobe_rule (f_bus f) (f_gaps f) a (N.of_nat k) (w_strb d) ->
  (w_last d = true <-> N.of_nat k = ax_len a) -> model_ok f a k d.
Proof.
  intros Hs Hb Hp Hk Hst Hl. unfold model_ok, wr_beat. rewrite Hs, Hb.
  destruct (check_wstrb_ok (f_bus f) (f_gaps f) a (N.of_nat k) (w_strb d) Hp Hk)
    as [b [E F]].
  rewrite E. cbn [rbind]. assert (b = true) as -> by (apply F, Hst).
  destruct (w_last d); [|eexists; reflexivity].
  assert (Ek : N.of_nat k = ax_len a) by (apply Hl; reflexivity).
  assert (Ed : wt_done (inc_beat (with_beat a (N.of_nat k))) = true).
  { rewrite inc_with. unfold wt_done, num_beats, with_beat. cbn [wt_len wt_beat].
    destruct Hp as [_ [_ [Hlen _]]]. unfold w32.
    rewrite !N.mod_small by (change (2 ^ 32) with 4294967296; lia). lia. }
  rewrite Ed. eexists. reflexivity.
Qed.

Lemma firstn_next {X} (l : list X) m d : nth_error l m = Some d ->
  firstn (S m) l = firstn m l ++ [d].
Proof. apply firstn_snoc. Qed.

Lemma data_rule_len bus gaps A B : data_rule bus gaps A B -> forall m d a,
  nth_error B m = Some d -> nth_error A (lasts (firstn m B)) = Some a ->
  N.of_nat (since_last (firstn m B)) <= ax_len a.
Proof.
  intros H. induction m as [|m IH]; intros d a Hd Ha.
  - cbn. lia.
  - assert (Hm : exists x, nth_error B m = Some x).
    { destruct (nth_error B m) eqn:E; [eexists; reflexivity|].
      apply nth_error_None in E.
      assert (nth_error B (S m) <> None) as Hn by congruence.
      apply nth_error_Some in Hn. lia. }
    destruct Hm as [x Hx]. rewrite (firstn_next _ _ _ Hx) in Ha |- *.
    rewrite since_snoc. rewrite lasts_app, lasts_one in Ha.
    destruct (w_last x) eqn:El; [lia|]. rewrite Nat.add_0_r in Ha.
    specialize (IH x a Hx Ha). destruct (H m x a Hx Ha) as [_ Hi].
    destruct (N.eq_dec (N.of_nat (since_last (firstn m B))) (ax_len a)) as [E|E].
    + apply Hi in E. congruence.
    + lia.
Qed.

Lemma plain_in bus A n a : Forall (plain bus) A -> nth_error A n = Some a -> plain bus a.
Proof. intros H E. apply nth_error_In in E. apply (proj1 (Forall_forall _ _) H), E. Qed.

Lemma rule_fine f A B : f_strb f = true -> f_bursts f = true ->
  Forall (plain (f_bus f)) A -> data_rule (f_bus f) (f_gaps f) A B ->
  beats_fine f A [] B.
Proof.
  intros Hs Hb Hp H m d a Hd Ha. cbn [app] in *.
  destruct (H m d a Hd Ha) as [H1 H2].
  apply model_ok_full; [exact Hs|exact Hb|apply (plain_in _ A _ _ Hp Ha)| | |]; try assumption.
  apply (data_rule_len _ _ A B H m d a Hd Ha).
Qed.

Lemma fine_rule f A B : f_strb f = true -> f_bursts f = true ->
  Forall (plain (f_bus f)) A -> beats_fine f A [] B ->
  data_rule_weak (f_bus f) (f_gaps f) A B.
Proof.
  intros Hs Hb Hp H m d a Hd Ha. specialize (H m d a Hd). cbn [app] in H.
  apply model_ok_weak; [exact Hs|exact Hb|apply (plain_in _ A _ _ Hp Ha)|apply H, Ha].
Qed.

Lemma plain_prefix bus p q : Forall (plain bus) (writes (p ++ q)) ->
  Forall (plain bus) (writes p).
Proof. rewrite writes_app. intros H. apply Forall_app in H. tauto. Qed.

Section Runs.
Variables (f : cfg) (tr : list edge).
Hypothesis H3 : f_axi3 f = false.
Hypothesis Hr : f_resp f = true.
Hypothesis Hs : f_strb f = true.
Hypothesis Hb : f_bursts f = true.
Hypothesis Hp : Forall (fun h => Forall (plain (f_bus f)) (writes h)) (periods true [] tr).

Lemma wr_accepts :
  256 * f_depth f < 2 ^ 32 -> Forall (wr_room (f_depth f)) (periods true [] tr) ->
  Forall (wr_conform (f_bus f) (f_gaps f)) (periods true [] tr) -> quiet (wr_run f tr).
Proof.
  intros Hd Hroom Hc. unfold wr_run. rewrite Hs. cbn [orb]. apply clocked_quiet.
  rewrite Forall_forall in *. intros h Hin.
  destruct (wr_hist_accepts f H3 Hr Hd h (Hroom h Hin)) as [s [E _]].
  - intros p q E. destruct (Hc h Hin p q E) as [D A]. split; [|exact A].
    apply rule_fine; [exact Hs|exact Hb| |exact D].
    apply (plain_prefix _ p q). rewrite <- E. apply Hp, Hin.
  - exists s. exact E.
Qed.

Lemma wr_detects :
  quiet (wr_run f tr) ->
  Forall (wr_enforced (f_bus f) (f_gaps f)) (periods true [] tr).
Proof.
  intros Hq. unfold wr_run in Hq. rewrite Hs in Hq. cbn [orb] in Hq.
  apply clocked_quiet in Hq. rewrite Forall_forall in *. intros h Hin p q E.
  destruct (Hq h Hin) as [s Es].
  destruct (wr_hist_quiet f H3 Hr h s Es) as [_ Hw].
  destruct (Hw p q E) as [D A]. split; [|exact A].
  apply fine_rule; [exact Hs|exact Hb| |exact D].
  apply (plain_prefix _ p q). rewrite <- E. apply Hp, Hin.
Qed.
End Runs.
