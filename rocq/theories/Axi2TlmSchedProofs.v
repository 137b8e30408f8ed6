(** Invariant of the axi2tlm scheduling model. *)
From Verif Require Import Base BaseFacts Axi2TlmSpec Axi2TlmSched.
From Coq Require Import Permutation.
Open Scope N_scope.

(** ** Lists *)
Lemma pk_app {X} (k : X -> N) c a b : pick_key k c (a ++ b) = pick_key k c a ++ pick_key k c b.
Proof. apply filter_app. Qed.

Lemma set_thr_split a id p b p' :
  set_thr (length a) p' (a ++ (id, p) :: b) =
  a ++ (match p' with Some q => [(id, q)] | None => [] end) ++ b.
Proof.
  unfold set_thr. rewrite nth_error_app2, Nat.sub_diag by lia. cbn [nth_error].
  rewrite firstn_app, Nat.sub_diag, firstn_all. cbn [firstn]. rewrite app_nil_r. f_equal.
  assert (E : skipn (S (length a)) (a ++ (id, p) :: b) = b).
  { replace (a ++ (id, p) :: b) with ((a ++ [(id, p)]) ++ b) by (rewrite <- app_assoc; reflexivity).
    apply skipn_app_len. rewrite app_length. cbn [length]. lia. }
  rewrite E. destruct p'; reflexivity.
Qed.

Definition objs (l : list tr) := map t_obj l.

Lemma same_eq l a b : NoDup (objs l) -> In a l -> In b l -> same a b = true -> a = b.
Proof.
  intros ND Ha Hb E. unfold same in E. apply N.eqb_eq in E.
  induction l as [|x l IH]; [destruct Ha|]. cbn in ND. apply NoDup_cons_iff in ND. destruct ND as [N1 N2].
  destruct Ha as [->|Ha], Hb as [->|Hb]; [reflexivity| | |exact (IH N2 Ha Hb)].
  - exfalso. apply N1. rewrite E. apply in_map, Hb.
  - exfalso. apply N1. rewrite <- E. apply in_map, Ha.
Qed.
Lemma same_refl a : same a a = true.
Proof. unfold same. apply N.eqb_refl. Qed.

Lemma take_out_in l t x : In x (take_out l t) <-> In x l /\ same x t = false.
Proof. unfold take_out. rewrite filter_In, negb_true_iff. reflexivity. Qed.

Lemma find_take_out (p : tr -> bool) l t : NoDup (objs l) -> In t l -> p t = false ->
  find p (take_out l t) = find p l.
Proof.
  intros ND Ht Hp. assert (H : forall x, In x l -> same x t = true -> p x = false).
  { intros x Hx E. rewrite (same_eq l x t ND Hx Ht E). exact Hp. }
  clear ND Ht. induction l as [|x l IH]; [reflexivity|].
  unfold take_out in *. cbn [filter find]. destruct (same x t) eqn:E; cbn [negb].
  - rewrite (H x (or_introl eq_refl) E). apply IH. intros y Hy. apply H. right. exact Hy.
  - cbn [find]. destruct (p x); [reflexivity|]. apply IH. intros y Hy. apply H. right. exact Hy.
Qed.

Lemma filter_take_out (p : tr -> bool) l t : NoDup (objs l) -> In t l -> p t = false ->
  filter p (take_out l t) = filter p l.
Proof.
  intros ND Ht Hp. assert (H : forall x, In x l -> same x t = true -> p x = false).
  { intros x Hx E. rewrite (same_eq l x t ND Hx Ht E). exact Hp. }
  clear ND Ht. induction l as [|x l IH]; [reflexivity|].
  unfold take_out in *. cbn [filter]. destruct (same x t) eqn:E; cbn [negb].
  - rewrite (H x (or_introl eq_refl) E). apply IH. intros y Hy. apply H. right. exact Hy.
  - cbn [filter]. destruct (p x); [f_equal|]; apply IH; intros y Hy; apply H; right; exact Hy.
Qed.

Lemma take_out_absent l t : ~ In (t_obj t) (objs l) -> take_out l t = l.
Proof.
  induction l as [|x l IH]; intros H; [reflexivity|]. unfold take_out in *. cbn in *.
  unfold same at 1. destruct (N.eqb_spec (t_obj x) (t_obj t)); [tauto|]. cbn. f_equal. apply IH. tauto.
Qed.

(** Taking the first element of its class out of the list. *)
Lemma filter_find (p : tr -> bool) l t : NoDup (objs l) -> find p l = Some t ->
  filter p l = t :: filter p (take_out l t).
Proof.
  induction l as [|x l IH]; intros ND F; [discriminate|]. cbn in ND. apply NoDup_cons_iff in ND. destruct ND as [N1 N2].
  cbn [find] in F. unfold take_out in *. cbn [filter]. destruct (p x) eqn:E.
  - assert (x = t) as -> by congruence. rewrite same_refl. cbn [negb].
    fold (take_out l t). rewrite (take_out_absent l t N1). reflexivity.
  - assert (S : same x t = false).
    { destruct (same x t) eqn:S; [|reflexivity]. exfalso. apply N1. unfold same in S. apply N.eqb_eq in S. rewrite S.
      apply in_map. apply find_some in F. tauto. }
    rewrite S. cbn [negb filter]. rewrite E. apply IH; [exact N2|exact F].
Qed.

Lemma take_out_nodup l t : NoDup (objs l) -> NoDup (objs (take_out l t)).
Proof.
  induction l as [|x l IH]; intros ND; [constructor|]. cbn in ND. apply NoDup_cons_iff in ND. destruct ND as [N1 N2].
  unfold take_out in *. cbn [filter]. destruct (negb (same x t)); [|apply IH, N2].
  cbn. constructor; [|apply IH, N2]. intros H. apply N1. apply in_map_iff in H. destruct H as [y [<- Hy]].
  apply filter_In in Hy. apply in_map. tauto.
Qed.

Lemma take_out_perm l t : NoDup (objs l) -> In t l -> Permutation l (t :: take_out l t).
Proof.
  induction l as [|x l IH]; intros ND Ht; [destruct Ht|].
  pose proof (same_eq (x :: l) x t ND (or_introl eq_refl) Ht) as SE.
  cbn in ND. apply NoDup_cons_iff in ND. destruct ND as [N1 N2].
  unfold take_out in *. cbn [filter]. destruct (same x t) eqn:S; cbn [negb].
  - assert (x = t) as -> by (apply SE; reflexivity). fold (take_out l t). rewrite (take_out_absent l t N1). reflexivity.
  - destruct Ht as [->|Ht]; [rewrite same_refl in S; discriminate|].
    rewrite perm_swap. apply perm_skip. apply IH; assumption.
Qed.

(** ** Pages *)
Lemma overlap_first l t : NoDup (objs l) -> In t l ->
  overlapping l t = false <-> find (fun x => t_page x =? t_page t) l = Some t.
Proof.
  unfold overlapping. induction l as [|x l IH]; intros ND Ht; [destruct Ht|].
  pose proof (same_eq (x :: l) x t ND (or_introl eq_refl) Ht) as SE.
  cbn in ND. apply NoDup_cons_iff in ND. destruct ND as [N1 N2].
  cbn [ahead find]. destruct (same x t) eqn:S.
  - rewrite (SE eq_refl), N.eqb_refl. cbn. tauto.
  - assert (Hn : x <> t) by (intros ->; rewrite same_refl in S; discriminate).
    destruct Ht as [->|Ht]; [congruence|]. cbn [existsb]. destruct (t_page x =? t_page t); cbn [orb].
    + split; [discriminate|]. congruence.
    + apply IH; assumption.
Qed.

Lemma find_app_l {X} (p : X -> bool) a b t : find p a = Some t -> find p (a ++ b) = Some t.
Proof.
  induction a as [|x a IH]; [discriminate|]. cbn. destruct (p x); [exact (fun H => H)|exact IH].
Qed.


(** ** The invariant *)
Definition busys (th : list (N * phase)) : list tr :=
  flat_map (fun p : N * phase => match snd p with P_Busy t => [t] | _ => [] end) th.
Lemma busys_app a b : busys (a ++ b) = busys a ++ busys b.
Proof. apply flat_map_app. Qed.

Definition resps (s : sched) : list tr := match s_resp s with Some t => [t] | None => [] end.

Definition good (l : list tr) (p : N * phase) : Prop :=
  match snd p with
  | P_Start => exists t, first_with_id l (fst p) = Some t
  | P_Wait t => first_with_id l (fst p) = Some t
  | P_Busy t => first_with_id l (fst p) = Some t /\ find (fun x => t_page x =? t_page t) l = Some t
  | P_Blocked _ => False
  end.

Definition is_key (k : tr -> N) : Prop := k = t_id \/ k = t_page.

(** [bs]: transactions at the target. *)
Record logs (ace : bool) (bs : list tr) (s : sched) : Prop := {
  lg_num : objs (arrived s) = map N.of_nat (seq 0 (length (arrived s)));
  lg_bar : forall t, In t (arrived s) -> ace && t_bar t = false;
  lg_all : Permutation (arrived s) (finished s ++ s_list s ++ s_data s);
  lg_fin : finished s = answered s ++ resps s ++ s_fifo s;
  lg_ent : forall c, pick_key t_id c (arrived s) = pick_key t_id c (entered s) ++ pick_key t_id c (s_data s);
  lg_lst : forall k c, is_key k -> pick_key k c (entered s) = pick_key k c (finished s) ++ pick_key k c (s_list s);
  lg_iss : forall k c, is_key k -> pick_key k c (issued s) = pick_key k c (finished s) ++ pick_key k c bs;
  lg_cnt : n_tx s = N.of_nat (length (resps s) + length (s_fifo s) + length (s_list s) + length (s_data s));
  lg_max : n_tx s <= MAX_TX;
  lg_nob : n_bar s = 0 }.

Record inv (ace : bool) (s : sched) : Prop := {
  iv_nd : NoDup (map fst (s_thr s));
  iv_cov : forall t, In t (s_list s) -> In (t_id t) (map fst (s_thr s));
  iv_good : Forall (good (s_list s)) (s_thr s);
  iv_log : logs ace (busys (s_thr s)) s }.

Lemma num_nodup n : NoDup (map N.of_nat (seq 0 n)).
Proof. apply FinFun.Injective_map_NoDup; [intros a b H; lia|apply seq_NoDup]. Qed.

Lemma logs_nodup ace bs s : logs ace bs s -> NoDup (objs (finished s ++ s_list s ++ s_data s)).
Proof.
  intros L. unfold objs. eapply Permutation_NoDup; [apply Permutation_map, (lg_all _ _ _ L)|].
  fold (objs (arrived s)). rewrite (lg_num _ _ _ L). apply num_nodup.
Qed.
Lemma nodup_app_r {X} (a b : list X) : NoDup (a ++ b) -> NoDup b.
Proof. induction a as [|x a IH]; [exact (fun H => H)|]. cbn. intros H. apply NoDup_cons_iff in H. tauto. Qed.
Lemma nodup_app_l {X} (a b : list X) : NoDup (a ++ b) -> NoDup a.
Proof.
  induction a as [|x a IH]; intros H; [constructor|]. cbn in H. apply NoDup_cons_iff in H. destruct H as [H1 H2].
  constructor; [|apply IH, H2]. intros Hx. apply H1, in_or_app. left. exact Hx.
Qed.
Lemma logs_list ace bs s : logs ace bs s -> NoDup (objs (s_list s)).
Proof.
  intros L. pose proof (logs_nodup _ _ _ L) as H. unfold objs in *. rewrite !map_app in H.
  apply nodup_app_r, nodup_app_l in H. exact H.
Qed.

Lemma sched0_inv ace : inv ace sched0.
Proof.
  split; cbn; [constructor|intros t []|constructor|].
  split; cbn; try reflexivity; try (intros; reflexivity); [intros t []|unfold MAX_TX; lia].
Qed.

Lemma key_unique l th id t k : Forall (good l) th -> ~ In id (map fst th) -> is_key k ->
  find (fun x => t_id x =? id) l = Some t -> find (fun x => t_page x =? t_page t) l = Some t ->
  pick_key k (k t) (busys th) = [].
Proof.
  intros G Hid Hk F1 F2. induction th as [|[id' p] th IH]; [reflexivity|].
  apply Forall_cons_iff in G. destruct G as [G1 G2]. cbn [map fst In] in Hid.
  change (busys ((id', p) :: th)) with ((match p with P_Busy x => [x] | _ => [] end) ++ busys th).
  rewrite pk_app, IH by tauto. rewrite app_nil_r.
  destruct p as [|x|x|x]; cbn; try reflexivity. cbn in G1. destruct G1 as [G3 G4].
  destruct (N.eqb_spec (k x) (k t)) as [E|E]; [|reflexivity]. exfalso. apply Hid. left.
  assert (E1 : t_id x = id') by (apply find_some in G3; destruct G3 as [_ G3]; apply N.eqb_eq, G3).
  assert (E2 : t_id t = id) by (apply find_some in F1; destruct F1 as [_ F1]; apply N.eqb_eq, F1).
  destruct Hk as [->| ->]; [congruence|].
  rewrite E in G4. rewrite F2 in G4. assert (t = x) as -> by congruence. congruence.
Qed.

(** Running a thread from the head of its loop. *)
Lemma pick_inv ace s a id p b :
  s_thr s = a ++ (id, p) :: b -> NoDup (map fst (s_thr s)) ->
  (forall t, In t (s_list s) -> In (t_id t) (map fst (s_thr s))) ->
  Forall (good (s_list s)) (a ++ b) -> logs ace (busys (a ++ b)) s ->
  inv ace (pick ace (length a) id s).
Proof.
  intros Et ND Cov G L. unfold pick. rewrite Et in ND, Cov.
  assert (NDo : ~ In id (map fst (a ++ b)) /\ NoDup (map fst (a ++ b))).
  { rewrite map_app in *. cbn [map fst] in ND. split; [apply NoDup_remove_2 in ND; exact ND|apply NoDup_remove_1 in ND; exact ND]. }
  destruct NDo as [Nid NDo].
  destruct (first_with_id (s_list s) id) as [t|] eqn:F.
  - unfold try_issue. rewrite Et, set_thr_split.
    set (go := negb (must_wait ace (s_list s) t)).
    set (ph := if go then P_Busy t else P_Wait t).
    assert (Hgo : go = true -> find (fun x => t_page x =? t_page t) (s_list s) = Some t).
    { intros E. unfold go, must_wait in E. apply negb_true_iff, orb_false_iff in E. destruct E as [_ E].
      apply overlap_first in E; [exact E|exact (logs_list _ _ _ L)|]. apply find_some in F. tauto. }
    split; cbn [s_thr s_list].
    + cbn [app]. rewrite map_app in *. exact ND.
    + cbn [app]. rewrite map_app in *. exact Cov.
    + apply Forall_app in G. destruct G as [G1 G2]. apply Forall_app. split; [exact G1|].
      cbn [app]. constructor; [|exact G2]. unfold ph. destruct go; cbn; [split; [exact F|apply Hgo; reflexivity]|exact F].
    + destruct L. split; cbn [arrived finished s_list s_data answered resps s_resp s_fifo entered issued n_tx n_bar];
        try assumption.
      intros k c Hk. specialize (lg_iss0 k c Hk).
      rewrite !busys_app. rewrite busys_app in lg_iss0. unfold ph. destruct go.
      * change (busys [(id, P_Busy t)]) with [t].
        rewrite !pk_app. rewrite lg_iss0, pk_app. rewrite <- app_assoc. f_equal.
        destruct (N.eq_dec (k t) c) as [<-|Ne].
        -- pose proof (key_unique _ (a ++ b) id t k G Nid Hk F (Hgo eq_refl)) as U.
           rewrite busys_app, pk_app in U. apply app_eq_nil in U. destruct U as [U1 U2]. rewrite U1, U2. cbn [app]. rewrite app_nil_r. reflexivity.
        -- assert (E0 : pick_key k c [t] = []) by (cbn; destruct (N.eqb_spec (k t) c); [contradiction|reflexivity]).
           rewrite E0. rewrite app_nil_r. reflexivity.
      * change (busys [(id, P_Wait t)]) with (@nil tr). exact lg_iss0.
  - rewrite Et, set_thr_split. cbn [app]. split; cbn [s_thr s_list].
    + exact NDo.
    + intros t Ht. specialize (Cov t Ht). rewrite map_app in *. cbn [map fst] in Cov.
      apply in_app_or in Cov. apply in_or_app. destruct Cov as [C|[C|C]]; [left; exact C| |right; exact C].
      exfalso. pose proof (find_none _ _ F t Ht) as X. cbn beta in X. rewrite <- C, N.eqb_refl in X. discriminate.
    + exact G.
    + destruct L. split; assumption.
Qed.

Lemma find_other l t id : NoDup (objs l) -> In t l -> t_id t <> id -> first_with_id (take_out l t) id = first_with_id l id.
Proof.
  intros ND Ht Hn. apply find_take_out; [exact ND|exact Ht|]. destruct (N.eqb_spec (t_id t) id); [contradiction|reflexivity].
Qed.

Lemma complete_inv ace s a id t b : s_thr s = a ++ (id, P_Busy t) :: b -> inv ace s ->
  inv ace (complete ace (length a) id t s).
Proof.
  intros Et I. destruct I as [ND Cov G L]. rewrite Et in G. apply Forall_app in G. destruct G as [Ga G].
  apply Forall_cons_iff in G. destruct G as [[F1 F2] Gb]. cbn [fst] in F1.
  pose proof (logs_list _ _ _ L) as NDl.
  assert (Ht : In t (s_list s)) by (apply find_some in F1; tauto).
  assert (Eid : t_id t = id) by (apply find_some in F1; destruct F1 as [_ X]; apply N.eqb_eq, X).
  assert (Nid : ~ In id (map fst (a ++ b))).
  { rewrite Et, map_app in ND. cbn [map fst] in ND. rewrite map_app. apply NoDup_remove_2 in ND. exact ND. }
  assert (Hlen : length (s_list s) = S (length (take_out (s_list s) t))).
  { rewrite (Permutation_length (take_out_perm _ _ NDl Ht)). reflexivity. }
  assert (Hroom : (length (s_fifo s) <? FIFO)%nat = true).
  { pose proof (lg_cnt _ _ _ L) as C. pose proof (lg_max _ _ _ L) as M. unfold MAX_TX in M. unfold FIFO.
    apply Nat.ltb_lt. lia. }
  unfold complete, push. cbn [s_fifo s_thr s_list s_data s_resp n_tx n_bar arrived entered issued finished answered].
  rewrite Hroom. apply (pick_inv ace _ a id (P_Busy t) b); cbn [s_thr s_list].
  - exact Et.
  - exact ND.
  - intros x Hx. apply take_out_in in Hx. apply Cov. tauto.
  - assert (K : Forall (good (s_list s)) (a ++ b)) by (apply Forall_app; split; assumption).
    apply Forall_forall. intros [id' p] Hp. rewrite Forall_forall in K. pose proof (K _ Hp) as Q.
    assert (Ne : t_id t <> id').
    { intros E. apply Nid. rewrite <- Eid, E. change id' with (fst (id', p)). apply in_map, Hp. }
    destruct p as [|x|x|x]; cbn in Q |- *; [rewrite find_other; assumption| | |exact Q].
    + rewrite find_other; assumption.
    + destruct Q as [Q1 Q2]. split; [rewrite find_other; assumption|].
      rewrite find_take_out; [exact Q2|exact NDl|exact Ht|].
      destruct (N.eqb_spec (t_page t) (t_page x)) as [E|E]; [|reflexivity]. exfalso.
      rewrite E in F2. assert (t = x) as -> by congruence.
      apply find_some in Q1. destruct Q1 as [_ Q1]. apply N.eqb_eq in Q1. congruence.
  - destruct L. unfold resps in *.
    split; unfold resps; cbn [s_data s_list s_thr s_fifo s_resp n_tx n_bar arrived entered issued finished answered] in *; try assumption.
    + rewrite lg_all0, <- app_assoc. apply Permutation_app_head. cbn [app].
      rewrite (take_out_perm _ _ NDl Ht) at 1. reflexivity.
    + rewrite lg_fin0, <- !app_assoc. reflexivity.
    + intros k c Hk. rewrite (lg_lst0 k c Hk), pk_app, <- app_assoc. f_equal.
      unfold pick_key. cbn [filter app]. destruct (N.eqb_spec (k t) c) as [<-|Ne].
      * apply filter_find; [exact NDl|]. destruct Hk as [->| ->]; [rewrite Eid; exact F1|exact F2].
      * symmetry. apply filter_take_out; [exact NDl|exact Ht|]. destruct (N.eqb_spec (k t) c); [contradiction|reflexivity].
    + intros k c Hk. rewrite (lg_iss0 k c Hk), Et. rewrite !busys_app.
      change (busys ((id, P_Busy t) :: b)) with ([t] ++ busys b). rewrite !pk_app, <- app_assoc. f_equal.
      destruct (N.eq_dec (k t) c) as [<-|Ne].
      * pose proof (key_unique _ a id t k Ga ltac:(intros X; apply Nid; rewrite map_app; apply in_or_app; left; exact X) Hk F1 F2) as U.
        rewrite U. cbn. reflexivity.
      * assert (E0 : pick_key k c [t] = []) by (cbn; destruct (N.eqb_spec (k t) c); [contradiction|reflexivity]).
        rewrite E0. reflexivity.
    + rewrite lg_cnt0, app_length. cbn [length]. lia.
Qed.

Lemma good_app l t p : good l p -> good (l ++ [t]) p.
Proof.
  destruct p as [id [|x|x|x]]; cbn; try tauto; [intros [y Hy]; exists y; apply find_app_l, Hy|apply find_app_l|]. intros [A B]. split; apply find_app_l; assumption.
Qed.

Lemma in_list_spec l id : in_list l id = false <-> forall t, In t l -> t_id t <> id.
Proof.
  unfold in_list. split.
  - intros H t Ht E. assert (X : existsb (fun t => t_id t =? id) l = true).
    { apply existsb_exists. exists t. split; [exact Ht|apply N.eqb_eq, E]. } congruence.
  - intros H. destruct (existsb _ l) eqn:E; [|reflexivity]. apply existsb_exists in E. destruct E as [t [H1 H2]].
    apply N.eqb_eq in H2. exfalso. exact (H t H1 H2).
Qed.

Lemma enter_inv ace s t : 
  NoDup (map fst (s_thr s)) -> (forall x, In x (s_list s) -> In (t_id x) (map fst (s_thr s))) ->
  Forall (good (s_list s)) (s_thr s) ->
  logs ace (busys (s_thr s)) (enter t s) -> inv ace (enter t s).
Proof.
  intros ND Cov G L.
  assert (E : busys (s_thr (enter t s)) = busys (s_thr s)).
  { unfold enter. cbn [s_thr]. destruct (in_list _ _); [reflexivity|]. rewrite busys_app. cbn. apply app_nil_r. }
  split; [| | |rewrite E; exact L]; unfold enter; cbn [s_thr s_list].
  - destruct (in_list (s_list s) (t_id t)) eqn:I; [exact ND|].
    rewrite map_app. cbn [map fst]. rewrite in_list_spec in I.
    eapply Permutation_NoDup; [apply Permutation_cons_append|]. constructor; [|exact ND].
    intros H. apply in_map_iff in H. destruct H as [[id p] [H1 H2]]. cbn in H1. subst id.
    rewrite Forall_forall in G. specialize (G _ H2).
    assert (X : exists y, first_with_id (s_list s) (t_id t) = Some y).
    { destruct p as [|x|x|x]; cbn in G; [exact G|exists x; exact G|exists x; tauto|contradiction]. }
    destruct X as [y Y]. apply find_some in Y. destruct Y as [Y1 Y2]. apply N.eqb_eq in Y2. exact (I y Y1 Y2).
  - intros x Hx. apply in_app_or in Hx. destruct Hx as [Hx|[<-|[]]].
    + specialize (Cov x Hx). destruct (in_list _ _); [exact Cov|]. rewrite map_app. apply in_or_app. left. exact Cov.
    + destruct (in_list (s_list s) (t_id t)) eqn:I.
      * unfold in_list in I. apply existsb_exists in I. destruct I as [y [Y1 Y2]]. apply N.eqb_eq in Y2. rewrite <- Y2.
        apply Cov, Y1.
      * rewrite map_app. apply in_or_app. right. left. reflexivity.
  - assert (G' : Forall (good (s_list s ++ [t])) (s_thr s)) by (eapply Forall_impl; [|exact G]; intros p; apply good_app).
    destruct (in_list (s_list s) (t_id t)) eqn:I; [exact G'|]. apply Forall_app. split; [exact G'|].
    constructor; [|constructor]. cbn. exists t. unfold first_with_id. rewrite in_list_spec in I.
    clear - I. induction (s_list s) as [|x l IH]; cbn; [rewrite N.eqb_refl; reflexivity|].
    destruct (N.eqb_spec (t_id x) (t_id t)) as [E|E]; [exfalso; exact (I x (or_introl eq_refl) E)|].
    apply IH. intros y Hy. apply I. right. exact Hy.
Qed.

Definition no_barrier (ace : bool) (e : ev) : Prop :=
  match e with E_Addr _ _ bar _ _ => ace && bar = false | _ => True end.

Lemma split_nth {X} (l : list X) i x : nth_error l i = Some x ->
  l = firstn i l ++ x :: skipn (S i) l /\ length (firstn i l) = i.
Proof.
  intros H. destruct (nth_error_split l i H) as [a [b [E E2]]]. subst l.
  assert (F : firstn i (a ++ x :: b) = a) by (apply firstn_app_len; exact E2).
  rewrite F. split; [|exact E2]. f_equal. f_equal.
  replace (a ++ x :: b) with ((a ++ [x]) ++ b) by (rewrite <- app_assoc; reflexivity).
  symmetry. apply skipn_app_len. rewrite app_length. cbn. lia.
Qed.

Theorem step_inv ace e s s' : inv ace s -> no_barrier ace e -> step ace e s = Some s' -> inv ace s'.
Proof.
  intros I NB H. destruct e as [id page bar free data|i|j| |]; cbn [step] in H.
  - (* address *)
    destruct (accepts ace s) eqn:A; [|discriminate]. cbn [negb] in H.
    destruct (negb data && negb _) eqn:D; [discriminate|]. cbn in NB.
    set (t := mkTr (N.of_nat (length (arrived s))) id page bar free) in *.
    change (t_bar t) with bar in H. rewrite NB in H.
    unfold accepts in A. apply andb_prop in A. destruct A as [A _].
    destruct I as [ND Cov G L]. pose proof L as L0. destruct L.
    rewrite lg_nob0, N.sub_0_r in A.
    assert (Hnum : objs (arrived s ++ [t]) = map N.of_nat (seq 0 (length (arrived s ++ [t])))).
    { unfold objs in *. rewrite map_app, lg_num0, app_length. cbn [length map].
      rewrite Nat.add_1_r, seq_S, map_app. reflexivity. }
    assert (Hbar : forall x, In x (arrived s ++ [t]) -> ace && t_bar x = false).
    { intros x Hx. apply in_app_or in Hx. destruct Hx as [Hx|[<-|[]]]; [apply lg_bar0, Hx|exact NB]. }
    destruct data.
    + match type of H with Some ?x = _ => assert (s' = x) as -> by congruence end.
      split; cbn [s_thr s_list]; try assumption. unfold resps in *.
      split; unfold resps; cbn [s_data s_list s_thr s_fifo s_resp n_tx n_bar arrived entered issued finished answered]; try assumption.
      * rewrite lg_all0, <- !app_assoc. reflexivity.
      * intros c. rewrite !pk_app, lg_ent0, app_assoc. reflexivity.
      * rewrite lg_cnt0, app_length. cbn [length]. lia.
      * apply N.ltb_lt in A. lia.
    + cbn [negb andb] in D. destruct (s_data s) as [|d0 ds] eqn:ED; [|discriminate].
      match type of H with Some (enter t ?x) = _ => set (s1 := x) in H end.
      assert (s' = enter t s1) as -> by congruence.
      apply enter_inv; [exact ND|exact Cov|exact G|]. unfold resps in *.
      split; unfold resps, enter, s1; cbn [s_data s_list s_thr s_fifo s_resp n_tx n_bar arrived entered issued finished answered];
        try assumption.
      * rewrite lg_all0. rewrite ?ED, !app_nil_r, <- app_assoc. reflexivity.
      * intros c. rewrite !pk_app, lg_ent0. rewrite ?ED. cbn [pick_key filter]. rewrite !app_nil_r. reflexivity.
      * intros k c Hk. rewrite !pk_app, (lg_lst0 k c Hk), app_assoc. reflexivity.
      * rewrite lg_cnt0, app_length. cbn [length]. lia.
      * apply N.ltb_lt in A. lia.
  - (* data *)
    destruct (nth_error (s_data s) i) as [t|] eqn:E; [|discriminate].
    destruct (in_list (firstn i (s_data s)) (t_id t)) eqn:F; [discriminate|].
    match type of H with Some (enter t ?x) = _ => set (s1 := x) in H end.
    assert (s' = enter t s1) as -> by congruence.
    destruct (split_nth _ _ _ E) as [Es _]. destruct I as [ND Cov G L].
    apply enter_inv; [exact ND|exact Cov|exact G|]. destruct L. unfold resps in *.
    remember (firstn i (s_data s)) as da. remember (skipn (S i) (s_data s)) as db.
    split; unfold resps, enter, s1; cbn [s_data s_list s_thr s_fifo s_resp n_tx n_bar arrived entered issued finished answered];
      try assumption.
    + rewrite lg_all0, Es. apply Permutation_app_head. rewrite <- app_assoc. apply Permutation_app_head.
      cbn [app]. symmetry. apply Permutation_middle.
    + intros c. rewrite (lg_ent0 c), Es, !pk_app, <- app_assoc. f_equal.
      change (t :: db) with ([t] ++ db). rewrite pk_app. rewrite !app_assoc. f_equal.
      destruct (N.eq_dec (t_id t) c) as [<-|Ne].
      * assert (X : pick_key t_id (t_id t) da = []).
        { rewrite in_list_spec in F. clear - F. induction da as [|x da IH]; [reflexivity|]. cbn.
          destruct (N.eqb_spec (t_id x) (t_id t)) as [E|E]; [exfalso; exact (F x (or_introl eq_refl) E)|].
          apply IH. intros y Hy. apply F. right. exact Hy. }
        rewrite X. rewrite app_nil_r. reflexivity.
      * assert (E0 : pick_key t_id c [t] = []) by (cbn; destruct (N.eqb_spec (t_id t) c); [contradiction|reflexivity]).
        rewrite E0, app_nil_r. reflexivity.
    + intros k c Hk. rewrite !pk_app, (lg_lst0 k c Hk), app_assoc. reflexivity.
    + rewrite lg_cnt0, Es, !app_length. cbn [length]. lia.
  - (* thread *)
    destruct (nth_error (s_thr s) j) as [[id p]|] eqn:E; [|discriminate].
    destruct (split_nth _ _ _ E) as [Es El].
    remember (firstn j (s_thr s)) as a. remember (skipn (S j) (s_thr s)) as b.
    assert (Eg : good (s_list s) (id, p)).
    { destruct I as [_ _ G _]. rewrite Forall_forall in G. apply G. eapply nth_error_In, E. }
    assert (P : forall q, p = q -> (match q with P_Busy _ => False | _ => True end) ->
                inv ace (pick ace j id s)).
    { intros q Eq Hq. rewrite <- El. destruct I as [ND Cov G L].
      apply (pick_inv ace s a id p b Es ND Cov).
      - rewrite Es in G. apply Forall_app in G. destruct G as [G1 G2]. apply Forall_cons_iff in G2. apply Forall_app. tauto.
      - rewrite Es in L. rewrite busys_app in *. change ((id, p) :: b) with ([(id, p)] ++ b) in L.
        rewrite busys_app in L. subst q. destruct p; [exact L|exact L|contradiction|exact L]. }
    destruct p as [|t|t|t].
    + assert (s' = pick ace j id s) as -> by congruence. exact (P _ eq_refl Logic.I).
    + assert (s' = try_issue ace j t s) as -> by congruence.
      specialize (P _ eq_refl Logic.I). unfold pick in P. cbn in Eg. rewrite Eg in P. exact P.
    + assert (s' = complete ace j id t s) as -> by congruence. rewrite <- El. apply complete_inv with (b := b); assumption.
    + cbn in Eg. contradiction.
  - (* pop *)
    destruct (s_resp s) eqn:R; [discriminate|]. destruct (s_fifo s) as [|t f] eqn:F; [discriminate|].
    match type of H with Some ?x = _ => assert (s' = x) as -> by congruence end.
    destruct I as [ND Cov G L]. split; cbn [s_thr s_list]; try assumption. destruct L. unfold resps in *. rewrite R, F in *.
    split; unfold resps; cbn [s_data s_list s_thr s_fifo s_resp n_tx n_bar arrived entered issued finished answered]; try assumption.
  - (* response *)
    destruct (s_resp s) as [t|] eqn:R; [|discriminate].
    match type of H with Some ?x = _ => assert (s' = x) as -> by congruence end.
    destruct I as [ND Cov G L]. split; cbn [s_thr s_list]; try assumption.
    assert (Hb : ace && t_bar t = false).
    { apply (lg_bar _ _ _ L). apply Permutation_in with (l := finished s ++ s_list s ++ s_data s).
      - symmetry. exact (lg_all _ _ _ L).
      - apply in_or_app. left. rewrite (lg_fin _ _ _ L). unfold resps. rewrite R. apply in_or_app. right. left. reflexivity. }
    destruct L. unfold resps in *. rewrite R in *. rewrite Hb.
    split; unfold resps; cbn [s_data s_list s_thr s_fifo s_resp n_tx n_bar arrived entered issued finished answered]; try assumption.
    + rewrite lg_fin0, <- !app_assoc. reflexivity.
    + rewrite lg_cnt0. cbn [length]. lia.
    + lia.
Qed.

Theorem steps_inv ace es : forall s s', inv ace s -> Forall (no_barrier ace) es -> steps ace es s = Some s' -> inv ace s'.
Proof.
  induction es as [|e es IH]; intros s s' I F H; cbn in H; [assert (s' = s) as -> by congruence; exact I|].
  destruct (step ace e s) as [s1|] eqn:E; [|discriminate]. apply Forall_cons_iff in F. destruct F as [F1 F2].
  apply (IH s1 s' (step_inv ace e s s1 I F1 E) F2 H).
Qed.

(** ** Consequences *)
Definition reached (ace : bool) (s : sched) : Prop :=
  exists es, Forall (no_barrier ace) es /\ steps ace es sched0 = Some s.

Lemma reached_inv ace s : reached ace s -> inv ace s.
Proof. intros [es [F H]]. exact (steps_inv ace es _ _ (sched0_inv ace) F H). Qed.

Lemma answer_order ace s : reached ace s -> in_order t_id (arrived s) (answered s).
Proof.
  intros R. destruct (iv_log _ _ (reached_inv _ _ R)). intros c.
  rewrite lg_ent0, (lg_lst0 t_id c (or_introl eq_refl)), lg_fin0, !pk_app, <- !app_assoc. eexists. reflexivity.
Qed.

(** At most one transaction of an id, and of a page, is at the target. *)
Lemma busy_head l th k c : NoDup (map fst th) -> Forall (good l) th -> is_key k ->
  pick_key k c (busys th) = [] \/
  exists t, pick_key k c (busys th) = [t] /\ find (fun x => k x =? c) l = Some t.
Proof.
  intros ND G Hk. induction th as [|[id p] th IH]; [left; reflexivity|].
  cbn [map fst] in ND. apply NoDup_cons_iff in ND. destruct ND as [N1 N2].
  apply Forall_cons_iff in G. destruct G as [G1 G2]. specialize (IH N2 G2).
  change (busys ((id, p) :: th)) with ((match p with P_Busy x => [x] | _ => [] end) ++ busys th).
  rewrite pk_app. destruct p as [|x|x|x]; try exact IH. cbn in G1. destruct G1 as [F1 F2].
  destruct (N.eq_dec (k x) c) as [<-|Ne].
  - right. exists x. rewrite (key_unique l th id x k G2 N1 Hk F1 F2). cbn. rewrite N.eqb_refl. split; [reflexivity|].
    destruct Hk as [->| ->]; [|exact F2]. pose proof F1 as F0. apply find_some in F0. destruct F0 as [_ F0].
    apply N.eqb_eq in F0. rewrite F0. exact F1.
  - assert (E0 : pick_key k c [x] = []) by (cbn; destruct (N.eqb_spec (k x) c); [contradiction|reflexivity]).
    rewrite E0. exact IH.
Qed.
Lemma busy_prefix l th k c : NoDup (objs l) -> NoDup (map fst th) -> Forall (good l) th -> is_key k ->
  exists r, pick_key k c l = pick_key k c (busys th) ++ r.
Proof.
  intros NDl ND G Hk. destruct (busy_head l th k c ND G Hk) as [->|[t [-> F]]]; [eexists; reflexivity|].
  unfold pick_key. rewrite (filter_find _ l t NDl F). eexists. reflexivity.
Qed.

Lemma issue_order ace s : reached ace s -> in_order t_id (arrived s) (issued s).
Proof.
  intros R. pose proof (reached_inv _ _ R) as I. pose proof (logs_list _ _ _ (iv_log _ _ I)) as NDl.
  destruct (iv_log _ _ I). intros c.
  rewrite lg_ent0, (lg_lst0 t_id c (or_introl eq_refl)), (lg_iss0 t_id c (or_introl eq_refl)).
  destruct (busy_prefix _ _ t_id c NDl (iv_nd _ _ I) (iv_good _ _ I) (or_introl eq_refl)) as [r ->].
  exists (r ++ pick_key t_id c (s_data s)). rewrite <- !app_assoc. reflexivity.
Qed.
(** Among transactions of one page, too, in the order of entering the list. *)
Lemma page_order ace s : reached ace s -> in_order t_page (entered s) (issued s).
Proof.
  intros R. pose proof (reached_inv _ _ R) as I. pose proof (logs_list _ _ _ (iv_log _ _ I)) as NDl.
  destruct (iv_log _ _ I). intros c.
  rewrite (lg_lst0 t_page c (or_intror eq_refl)), (lg_iss0 t_page c (or_intror eq_refl)).
  destruct (busy_prefix _ _ t_page c NDl (iv_nd _ _ I) (iv_good _ _ I) (or_intror eq_refl)) as [r ->].
  exists r. rewrite <- !app_assoc. reflexivity.
Qed.
(** Issued and not yet finished: one per id and page. *)
Lemma one_each ace s k c : is_key k -> reached ace s ->
  (length (pick_key k c (issued s)) <= S (length (pick_key k c (finished s))))%nat.
Proof.
  intros Hk R. pose proof (reached_inv _ _ R) as I. destruct (iv_log _ _ I). rewrite (lg_iss0 k c Hk), app_length.
  destruct (busy_head _ _ k c (iv_nd _ _ I) (iv_good _ _ I) Hk) as [->|[t [-> _]]]; cbn [length]; lia.
Qed.

(** ** Progress *)
Definition weight (p : N * phase) : nat := match snd p with P_Start => 3 | P_Wait _ => 2 | _ => 1 end.
Definition weights (th : list (N * phase)) : nat := list_sum (map weight th).
Definition measure (s : sched) : nat :=
  (12 * length (s_data s) + 8 * length (s_list s) + 2 * length (s_fifo s) + length (resps s) + weights (s_thr s))%nat.
Lemma weights_app a b : weights (a ++ b) = (weights a + weights b)%nat.
Proof. unfold weights. rewrite map_app, list_sum_app. reflexivity. Qed.

Lemma pick_weight ace s a id p b : s_thr s = a ++ (id, p) :: b ->
  let s' := pick ace (length a) id s in
  s_data s' = s_data s /\ s_list s' = s_list s /\ s_fifo s' = s_fifo s /\ s_resp s' = s_resp s /\
  (weights (s_thr s') <= weights a + 2 + weights b)%nat.
Proof.
  intros E s'. unfold s', pick. destruct (first_with_id (s_list s) id) as [t|].
  - unfold try_issue. cbn [s_data s_list s_fifo s_resp s_thr]. rewrite E, set_thr_split, !weights_app.
    repeat split. destruct (negb _); cbn; lia.
  - cbn [s_data s_list s_fifo s_resp s_thr]. rewrite E, set_thr_split, !weights_app. repeat split. cbn. lia.
Qed.

Lemma weights_cons a p b : weights (a ++ p :: b) = (weights a + weight p + weights b)%nat.
Proof. rewrite weights_app. change (weights (p :: b)) with (weight p + weights b)%nat. lia. Qed.

(** Something can always happen without new requests, and brings the end nearer. *)
Lemma progress ace s : inv ace s -> measure s <> 0%nat ->
  exists e s', no_barrier ace e /\ (match e with E_Addr _ _ _ _ _ => False | _ => True end) /\
  step ace e s = Some s' /\ (measure s' < measure s)%nat.
Proof.
  intros I Hm. pose proof (logs_list _ _ _ (iv_log _ _ I)) as NDl.
  destruct (s_resp s) as [t|] eqn:R.
  { exists E_Resp. eexists. repeat (split; [exact Logic.I|]). cbn [step]. rewrite R. split; [reflexivity|].
    unfold measure, resps. rewrite R. cbn [s_data s_list s_fifo s_resp s_thr length]. lia. }
  destruct (s_fifo s) as [|t f] eqn:F.
  2:{ exists E_Pop. eexists. repeat (split; [exact Logic.I|]). cbn [step]. rewrite R, F. split; [reflexivity|].
      unfold measure, resps. rewrite R, F. cbn [s_data s_list s_fifo s_resp s_thr length]. lia. }
  destruct (s_list s) as [|t l] eqn:EL.
  - destruct (s_thr s) as [|[id p] th] eqn:ET.
    + destruct (s_data s) as [|d ds] eqn:ED.
      { exfalso. apply Hm. unfold measure, resps. rewrite R, F, EL, ET, ED. reflexivity. }
      exists (E_Data 0). eexists. repeat (split; [exact Logic.I|]). cbn [step]. rewrite ED. cbn [nth_error firstn in_list existsb].
      split; [reflexivity|]. unfold measure, resps, enter.
      cbn [s_data s_list s_fifo s_resp s_thr length skipn app in_list existsb]. rewrite R, F, EL, ET, ED. cbn. lia.
    + exfalso. pose proof (iv_good _ _ I) as G. rewrite ET, EL in G. apply Forall_cons_iff in G. destruct G as [G _].
      destruct p; cbn in G; [destruct G as [x G]|..]; try discriminate; [destruct G; discriminate|contradiction].
  - (* the thread of the head of the list *)
    assert (C : In (t_id t) (map fst (s_thr s))) by (apply (iv_cov _ _ I); rewrite EL; left; reflexivity).
    apply in_map_iff in C. destruct C as [[id p] [E1 E2]]. cbn in E1. subst id.
    pose proof (iv_good _ _ I) as G. rewrite Forall_forall in G. pose proof (G _ E2) as Gp.
    apply in_split in E2. destruct E2 as [a [b Eth]].
    assert (Nth : nth_error (s_thr s) (length a) = Some (t_id t, p)).
    { rewrite Eth, nth_error_app2, Nat.sub_diag by lia. reflexivity. }
    assert (F0 : first_with_id (s_list s) (t_id t) = Some t) by (rewrite EL; cbn; rewrite N.eqb_refl; reflexivity).
    exists (E_Thread (length a)).
    assert (HH : exists s', step ace (E_Thread (length a)) s = Some s' /\ (measure s' < measure s)%nat).
    2:{ destruct HH as [s' [A B]]. exists s'. repeat (split; [exact Logic.I|]). split; assumption. }
    cbn [step]. rewrite Nth. destruct p as [|x|x|x].
    + eexists. split; [reflexivity|].
      destruct (pick_weight ace s a _ _ b Eth) as [P1 [P2 [P3 [P4 P5]]]]. unfold measure, resps.
      rewrite P1, P2, P3, P4, Eth, weights_cons. cbn [weight snd]. lia.
    + cbn in Gp. rewrite F0 in Gp. assert (x = t) as -> by congruence.
      eexists. split; [reflexivity|]. unfold measure, resps, try_issue.
      cbn [s_data s_list s_fifo s_resp s_thr].
      assert (MW : must_wait ace (s_list s) t = false).
      { unfold must_wait, overlapping. rewrite EL. cbn [ahead]. rewrite same_refl. cbn [existsb negb orb andb].
        assert (Hb : ace && t_bar t = false).
        { apply (lg_bar _ _ _ (iv_log _ _ I)). eapply Permutation_in; [symmetry; exact (lg_all _ _ _ (iv_log _ _ I))|].
          apply in_or_app. right. apply in_or_app. left. rewrite EL. left. reflexivity. }
        destruct ace; [|reflexivity]. cbn [andb] in *. rewrite Hb. reflexivity. }
      rewrite MW. cbn [negb]. rewrite Eth, set_thr_split. cbn [app]. rewrite !weights_cons. cbn [weight snd]. lia.
    + cbn in Gp. destruct Gp as [Gp _]. rewrite F0 in Gp. assert (x = t) as -> by congruence.
      eexists. split; [reflexivity|]. unfold complete, push. cbn [s_fifo s_thr s_list s_data s_resp].
      replace (length (s_fifo s) <? FIFO)%nat with true by (rewrite F; reflexivity).
      match goal with |- context [pick ace (length a) _ ?x] => set (s1 := x) end.
      assert (Q1 : s_data s1 = s_data s) by reflexivity. assert (Q2 : s_list s1 = take_out (s_list s) t) by reflexivity.
      assert (Q3 : s_fifo s1 = s_fifo s ++ [t]) by reflexivity. assert (Q4 : s_resp s1 = s_resp s) by reflexivity.
      assert (Q5 : s_thr s1 = a ++ (t_id t, P_Busy t) :: b) by exact Eth. clearbody s1.
      destruct (pick_weight ace s1 a _ _ b Q5) as [P1 [P2 [P3 [P4 P5]]]].
      unfold measure, resps. rewrite P1, P2, P3, P4, Q1, Q2, Q3, Q4, R, F.
      rewrite EL. rewrite (Permutation_length (take_out_perm (t :: l) t NDl ltac:(left; reflexivity))).
      rewrite Eth, weights_cons. cbn [weight snd length app]. lia.
    + cbn in Gp. contradiction.
Qed.

Definition is_new (e : ev) : bool := match e with E_Addr _ _ _ _ _ => true | _ => false end.

Lemma drains ace : forall n s, (measure s <= n)%nat -> inv ace s ->
  exists es s', Forall (no_barrier ace) es /\ Forall (fun e => is_new e = false) es /\
    steps ace es s = Some s' /\ measure s' = 0%nat.
Proof.
  induction n as [|n IH]; intros s Hn I.
  - exists [], s. repeat split; try constructor. lia.
  - destruct (Nat.eq_dec (measure s) 0) as [Z|Z]; [exists [], s; repeat split; try constructor; exact Z|].
    destruct (progress ace s I Z) as [e [s1 [P1 [P2 [P3 P4]]]]].
    destruct (IH s1 ltac:(lia) (step_inv ace e s s1 I P1 P3)) as [es [s' [Q1 [Q2 [Q3 Q4]]]]].
    exists (e :: es), s'. split; [constructor; assumption|]. split; [constructor; [destruct e; try reflexivity; contradiction|assumption]|].
    cbn [steps]. rewrite P3. split; assumption.
Qed.

Lemma step_arrived ace e s s' : is_new e = false -> step ace e s = Some s' -> arrived s' = arrived s.
Proof.
  intros Hn H. destruct e as [? ? ? ? ?|i|j| |]; cbn in Hn; [discriminate|..]; cbn [step] in H.
  - destruct (nth_error _ i); [|discriminate]. destruct (in_list _ _); [discriminate|].
    assert (X := f_equal (option_map arrived) H). cbn in X. congruence.
  - assert (K : forall id s0, arrived (pick ace j id s0) = arrived s0).
    { intros id s0. unfold pick. destruct (first_with_id _ _); reflexivity. }
    destruct (nth_error _ j) as [[id [|t|t|t]]|]; [| | | |discriminate].
    + assert (s' = pick ace j id s) as -> by congruence. apply K.
    + assert (s' = try_issue ace j t s) as -> by congruence. reflexivity.
    + assert (s' = complete ace j id t s) as -> by congruence. unfold complete, push. cbn [s_fifo].
      destruct (length (s_fifo s) <? FIFO)%nat; [rewrite K; reflexivity|reflexivity].
    + destruct (length (s_fifo s) <? FIFO)%nat eqn:E; [|discriminate]. assert (s' = push ace j id t s) as -> by congruence.
      unfold push. rewrite E, K. reflexivity.
  - destruct (s_resp s); [discriminate|]. destruct (s_fifo s); [discriminate|].
    assert (X := f_equal (option_map arrived) H). cbn in X. congruence.
  - destruct (s_resp s); [|discriminate]. assert (X := f_equal (option_map arrived) H). cbn in X. congruence.
Qed.

Lemma steps_arrived ace es : forall s s', Forall (fun e => is_new e = false) es ->
  steps ace es s = Some s' -> arrived s' = arrived s.
Proof.
  induction es as [|e es IH]; intros s s' F H; cbn in H; [congruence|].
  destruct (step ace e s) as [s1|] eqn:E; [|discriminate]. apply Forall_cons_iff in F. destruct F as [F1 F2].
  rewrite (IH s1 s' F2 H). exact (step_arrived ace e s s1 F1 E).
Qed.

(** From any state everything accepted can be answered, each once. *)
Lemma drain_all ace s : reached ace s ->
  exists es s', Forall (fun e => is_new e = false) es /\ steps ace es s = Some s' /\
    Permutation (arrived s) (answered s') /\ n_tx s' = 0.
Proof.
  intros R. pose proof (reached_inv _ _ R) as I.
  destruct (drains ace _ s (le_n _) I) as [es [s' [E1 [E2 [E3 E4]]]]]. exists es, s'.
  split; [exact E2|]. split; [exact E3|]. pose proof (steps_inv ace es s s' I E1 E3) as I'.
  destruct (iv_log _ _ I'). unfold measure in E4.
  assert (s_data s' = []) by (destruct (s_data s'); cbn in E4; [reflexivity|lia]).
  assert (s_list s' = []) by (destruct (s_list s'); cbn in E4; [reflexivity|lia]).
  assert (s_fifo s' = []) by (destruct (s_fifo s'); cbn in E4; [reflexivity|lia]).
  assert (resps s' = []) by (destruct (resps s'); cbn in E4; [reflexivity|lia]).
  split.
  - rewrite <- (steps_arrived ace es s s' E2 E3), lg_all0, lg_fin0, H, H0, H1, H2, !app_nil_r. reflexivity.
  - rewrite lg_cnt0, H, H0, H1, H2. reflexivity.
Qed.
(** Never answered twice. *)
Lemma answered_once ace s : reached ace s -> NoDup (map t_obj (answered s)) /\ incl (answered s) (arrived s).
Proof.
  intros R. pose proof (reached_inv _ _ R) as I. pose proof (logs_nodup _ _ _ (iv_log _ _ I)) as ND.
  destruct (iv_log _ _ I). split.
  - unfold objs in ND. rewrite map_app, lg_fin0, map_app in ND. apply nodup_app_l, nodup_app_l in ND. exact ND.
  - intros t Ht. eapply Permutation_in; [symmetry; exact lg_all0|]. rewrite lg_fin0. apply in_or_app. left. apply in_or_app. left. exact Ht.
Qed.
