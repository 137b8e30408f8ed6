(** Lemmas for C107. *)
From Verif Require Import Base AceDvmModel AceDvmSpec.
From Coq Require Import Lia ZifyN ZifyNat Permutation.
Open Scope N_scope.

Section Dvm.
Context (ports : list N) (fwd : N -> bool).
Notation others := (others ports fwd).
Notation owes := (owes ports fwd).
Notation due := (due ports fwd).

Definition mem (r : N) (l : list N) : bool := existsb (N.eqb r) l.
Lemma mem_spec : forall r l, mem r l = true <-> In r l.
Proof.
  intros r l. unfold mem. rewrite existsb_exists. split.
  - intros [x [I E]]. apply N.eqb_eq in E. now subst.
  - intros I. exists r. split; [auto|apply N.eqb_refl].
Qed.
Lemma mem_not : forall r l, mem r l = false <-> ~ In r l.
Proof. intros. rewrite <- mem_spec. destruct (mem r l); intuition congruence. Qed.
Lemma owes_spec : forall p r, owes p r = true <-> In r (others p).
Proof. intros. apply mem_spec. Qed.
Lemma in_others : forall p r, In r (others p) <-> In r ports /\ fwd r = true /\ r <> p.
Proof.
  intros. unfold AceDvmSpec.others. rewrite filter_In, andb_true_iff, negb_true_iff, N.eqb_neq. tauto.
Qed.

(** The Syncs with those who still have to complete them *)
Definition use (c : N -> nat) (p : N) : N -> nat := fun r => if owes p r then pred (c r) else c r.
Fixpoint pend (c : N -> nat) (l : list N) : list (N * list N) :=
  match l with
  | [] => []
  | p :: l' => (p, filter (fun r => Nat.eqb (c r) 0) (others p)) :: pend (use c p) l'
  end.
Definition open (e : N * list N) : bool := match snd e with [] => false | _ => true end.

Lemma pend_ext : forall l c d, (forall r, c r = d r) -> pend c l = pend d l.
Proof.
  induction l as [|p l IH]; intros c d H; [auto|]. cbn [pend]. f_equal.
  - f_equal. apply filter_ext. intros r. now rewrite H.
  - apply IH. intros r. unfold use. now rewrite H.
Qed.
Lemma open_false : forall p c, open (p, filter (fun r => Nat.eqb (c r) 0) (others p)) =
  negb (forallb (fun r => Nat.ltb 0 (c r)) (others p)).
Proof.
  intros p c. unfold open. cbn [snd]. induction (others p) as [|r l IH]; [auto|]. cbn [filter forallb].
  destruct (c r); [reflexivity|]. exact IH.
Qed.
Lemma finished : forall l c, complete_syncs ports fwd c l = map fst (filter (fun e => negb (open e)) (pend c l)).
Proof.
  induction l as [|p l IH]; intros c; [auto|]. cbn [complete_syncs pend filter]. rewrite open_false, negb_involutive.
  change (fun r => if AceDvmSpec.owes ports fwd p r then pred (c r) else c r) with (use c p).
  rewrite IH. destruct (forallb _ _); reflexivity.
Qed.

Definition bump (r : N) (c : N -> nat) : N -> nat := fun x => if x =? r then S (c x) else c x.
Lemma due_cons : forall r p l, due r (p :: l) = ((if owes p r then 1 else 0) + due r l)%nat.
Proof. intros. unfold AceDvmSpec.due. cbn [filter]. destruct (owes p r); reflexivity. Qed.

Lemma pend_bump : forall l c r, (c r < due r l)%nat ->
  exists E1 p rem E2, pend c l = E1 ++ (p, rem) :: E2 /\ In r rem /\
    (forall e, In e E1 -> ~ In r (snd e)) /\
    pend (bump r c) l = E1 ++ (p, filter (fun x => negb (x =? r)) rem) :: E2.
Proof.
  induction l as [|p l IH]; intros c r H; [unfold AceDvmSpec.due in H; simpl in H; lia|].
  rewrite due_cons in H. destruct (owes p r) eqn:O.
  - apply owes_spec in O. destruct (c r) as [|n] eqn:C.
    + exists [], p, (filter (fun r => Nat.eqb (c r) 0) (others p)), (pend (use c p) l).
      split; [reflexivity|]. split; [apply filter_In; split; [auto|now rewrite C]|]. split; [intros e []|].
      cbn [pend app]. f_equal.
      * f_equal. clear. induction (others p) as [|x xs IH]; [auto|]. cbn [filter]. unfold bump at 1.
        destruct (x =? r) eqn:E.
        -- cbn [Nat.eqb]. destruct (Nat.eqb (c x) 0); cbn [filter]; rewrite ?E; exact IH.
        -- destruct (Nat.eqb (c x) 0); cbn [filter]; rewrite ?E; cbn [negb]; rewrite IH; reflexivity.
      * apply pend_ext. intros x. unfold use, bump. destruct (x =? r) eqn:E; [|auto].
        apply N.eqb_eq in E. subst x. destruct (owes p r) eqn:O'; [now rewrite C|].
        apply owes_spec in O. congruence.
    + destruct (IH (use c p) r) as (E1 & p1 & rem & E2 & A & B & D & F).
      { unfold use. rewrite (proj2 (owes_spec p r) O), C. simpl. lia. }
      exists ((p, filter (fun r => Nat.eqb (c r) 0) (others p)) :: E1), p1, rem, E2.
      cbn [pend app]. rewrite A. split; [auto|]. split; [auto|]. split.
      * intros e [<-|I]; [|auto]. cbn [snd]. rewrite filter_In, C. intros [_ X]. discriminate.
      * f_equal.
        -- f_equal. apply filter_ext. intros x. unfold bump. destruct (x =? r) eqn:E; [|auto].
           apply N.eqb_eq in E. subst x. now rewrite C.
        -- rewrite <- F. apply pend_ext. intros x. unfold use, bump. destruct (x =? r) eqn:E; [|auto].
           apply N.eqb_eq in E. subst x. rewrite (proj2 (owes_spec p r) O), C. reflexivity.
  - destruct (IH (use c p) r) as (E1 & p1 & rem & E2 & A & B & D & F).
    { unfold use. rewrite O. simpl in H. lia. }
    exists ((p, filter (fun r => Nat.eqb (c r) 0) (others p)) :: E1), p1, rem, E2.
    assert (NO : ~ In r (others p)) by (rewrite <- owes_spec; congruence).
    cbn [pend app]. rewrite A. split; [auto|]. split; [auto|]. split.
    + intros e [<-|I]; [|auto]. cbn [snd]. rewrite filter_In. tauto.
    + f_equal.
      * f_equal. apply filter_ext_in. intros x I. unfold bump. destruct (x =? r) eqn:E; [|auto].
        apply N.eqb_eq in E. subst x. contradiction.
      * rewrite <- F. apply pend_ext. intros x. unfold use, bump. destruct (x =? r) eqn:E; [|auto].
        apply N.eqb_eq in E. subst x. now rewrite O.
Qed.

Lemma pend_snoc : forall l c p, (forall r, (c r <= due r l)%nat) ->
  pend c (l ++ [p]) = pend c l ++ [(p, others p)].
Proof.
  induction l as [|q l IH]; intros c p H.
  - cbn [pend app]. do 2 f_equal. rewrite <- (filter_ext (fun _ => true)).
    + clear. induction (others p) as [|x xs IH]; [auto|]. simpl. now rewrite IH.
    + intros r. specialize (H r). unfold AceDvmSpec.due in H. simpl in H.
      destruct (c r); [reflexivity|lia].
  - cbn [app pend]. f_equal. apply IH. intros r. specialize (H r). rewrite due_cons in H.
    unfold use. destruct (owes q r); lia.
Qed.

(** The invariant *)
Definition ND (c : N -> nat) (l : list N) := filter open (pend c l).
Record dinv (c : N -> nat) (l : list N) (s : dvm) : Prop := mkDinv {
  v_due : forall r, (c r <= due r l)%nat;
  v_one : (length (d_exec s) <= 1)%nat;
  v_exec : forall p, In p (d_exec s) -> In p (d_list s);
  v_list : filter (fun p => negb (mem p (d_exec s))) (d_list s) = map fst (ND c l);
  v_nodup : NoDup (d_list s);
  v_true : forall p r, ~ In r (others p) -> d_flag s p r = true;
  v_flag : forall p rem r, In (p, rem) (ND c l) -> d_flag s p r = negb (mem r rem);
  v_sub : forall p rem r, In (p, rem) (ND c l) -> In r rem -> In r (others p);
  v_told : Permutation (d_told s ++ d_exec s) (complete_syncs ports fwd c l) }.

Lemma dinv_init : dinv (fun _ => O) [] dvm_init.
Proof. constructor; simpl; auto; try lia; try contradiction; try constructor. Qed.

Lemma filter_true : forall A (l : list A), filter (fun _ => true) l = l.
Proof. intros A. induction l; simpl; congruence. Qed.

Lemma nd_snoc : forall c l p, (forall r, (c r <= due r l)%nat) -> others p <> [] ->
  ND c (l ++ [p]) = ND c l ++ [(p, others p)] /\
  complete_syncs ports fwd c (l ++ [p]) = complete_syncs ports fwd c l.
Proof.
  intros c l p H O. unfold ND. rewrite !finished, pend_snoc, !filter_app by auto. cbn [filter].
  assert (open (p, others p) = true) as -> by (unfold open; cbn [snd]; destruct (others p); congruence).
  cbn [negb]. rewrite app_nil_r. auto.
Qed.

Lemma sync_step : forall c l s p, dinv c l s -> ~ In p (d_list s) -> others p <> [] ->
  dinv c (l ++ [p]) (start_collecting ports fwd s p).
Proof.
  intros c l s p [V1 V2 V3 V4 V5 V6 V7 V8 V9] NI O.
  destruct (nd_snoc c l p V1 O) as [N1 N2].
  assert (Own : forall x y, (x =? p) && existsb (N.eqb y) ports && fwd y && negb (y =? p) = true <-> x = p /\ In y (others p)).
  { intros x y. rewrite !andb_true_iff, N.eqb_eq, negb_true_iff, N.eqb_neq, in_others.
    change (existsb (N.eqb y) ports) with (mem y ports). rewrite mem_spec. tauto. }
  constructor; cbn [d_list d_flag d_exec d_told start_collecting].
  - intros r. specialize (V1 r). unfold AceDvmSpec.due in *. rewrite filter_app, app_length. lia.
  - auto.
  - intros q I. apply in_or_app. auto.
  - rewrite filter_app, V4, N1, map_app. f_equal. cbn [filter map fst].
    destruct (mem p (d_exec s)) eqn:E; [|reflexivity]. apply mem_spec in E. apply V3 in E. contradiction.
  - apply (Permutation_NoDup (l := p :: d_list s)); [apply Permutation_cons_append|]. now constructor.
  - intros q r I. destruct (_ && _) eqn:E; [|auto]. apply Own in E. destruct E as [-> E]. contradiction.
  - intros q rem r I. rewrite N1 in I. apply in_app_iff in I. destruct I as [I|[[= <- <-]|[]]].
    + destruct (_ && _) eqn:E; [|eauto]. apply Own in E. destruct E as [-> _]. exfalso. apply NI.
      assert (In p (map fst (ND c l))) as I' by (apply in_map_iff; exists (p, rem); auto).
      rewrite <- V4 in I'. apply filter_In in I'. tauto.
    + destruct (_ && _) eqn:E.
      * apply Own in E. destruct E as [_ E]. apply mem_spec in E. now rewrite E.
      * assert (NO : ~ In r (others p)) by (intros X; rewrite (proj2 (Own p r)) in E; [discriminate|auto]).
        rewrite V6 by auto. apply mem_not in NO. now rewrite NO.
  - intros q rem r I. rewrite N1 in I. apply in_app_iff in I. destruct I as [I|[[= <- <-]|[]]]; eauto.
  - rewrite N2. exact V9.
Qed.

Lemma received_split : forall L1 p L2 f r, (forall q, In q L1 -> f q r = true) -> f p r = false ->
  received (L1 ++ p :: L2) f r = Some (set_flag f p r true).
Proof.
  induction L1 as [|q L1 IH]; intros p L2 f r A B.
  - simpl. now rewrite B.
  - cbn [app received]. rewrite A by now left. apply IH; [intros; apply A; now right|auto].
Qed.
Lemma find_split : forall A (g : A -> bool) L1 p L2, (forall q, In q L1 -> g q = false) -> g p = true ->
  find g (L1 ++ p :: L2) = Some p.
Proof.
  intros A g. induction L1 as [|q L1 IH]; intros p L2 H K; simpl.
  - now rewrite K.
  - rewrite H by now left. apply IH; [intros; apply H; now right|auto].
Qed.
Lemma find_nothing : forall A (g : A -> bool) L, (forall q, In q L -> g q = false) -> find g L = None.
Proof.
  intros A g. induction L as [|q L IH]; intros H; [auto|]. simpl. rewrite H by now left.
  apply IH. intros; apply H; now right.
Qed.

Lemma complete_step : forall c l s r, dinv c l s -> d_exec s = [] -> (c r < due r l)%nat ->
  exists s', dstep ports fwd s (Complete r) = Ok s' /\ dinv (bump r c) l s'.
Proof.
  intros c l s r [V1 V2 V3 V4 V5 V6 V7 V8 V9] EX LT.
  destruct (pend_bump l c r LT) as (E1 & p & rem & E2 & A & B & D & F).
  set (rem' := filter (fun x => negb (x =? r)) rem) in *.
  rewrite EX in V4, V9. rewrite app_nil_r in V9.
  assert (V4' : d_list s = map fst (ND c l)).
  { rewrite <- V4. symmetry. rewrite <- (filter_true _ (d_list s)) at 2. apply filter_ext. reflexivity. }
  clear V4.
  assert (OP : open (p, rem) = true) by (unfold open; cbn [snd]; destruct rem; [easy|auto]).
  assert (N1 : ND c l = filter open E1 ++ (p, rem) :: filter open E2).
  { unfold ND. rewrite A, filter_app. cbn [filter]. now rewrite OP. }
  assert (N2 : ND (bump r c) l = filter open E1 ++ (if open (p, rem') then [(p, rem')] else []) ++ filter open E2).
  { unfold ND. rewrite F, filter_app. cbn [filter]. destruct (open (p, rem')); reflexivity. }
  assert (C2 : Permutation (complete_syncs ports fwd (bump r c) l)
                 (complete_syncs ports fwd c l ++ (if open (p, rem') then [] else [p]))).
  { rewrite !finished, A, F, !filter_app, !map_app. cbn [filter]. rewrite OP. cbn [negb].
    destruct (open (p, rem')); cbn [negb map fst].
    - now rewrite app_nil_r.
    - rewrite <- app_assoc. apply Permutation_app_head. rewrite <- Permutation_cons_append. reflexivity. }
  assert (ND' : NoDup (map fst (filter open E1) ++ p :: map fst (filter open E2))).
  { rewrite V4', N1, map_app in V5. exact V5. }
  assert (P1 : ~ In p (map fst (filter open E1)) /\ ~ In p (map fst (filter open E2))).
  { apply NoDup_remove_2 in ND'. rewrite in_app_iff in ND'. tauto. }
  assert (RV : received (d_list s) (d_flag s) r = Some (set_flag (d_flag s) p r true)).
  { rewrite V4', N1, map_app. cbn [map fst]. apply received_split.
    - intros q I. apply in_map_iff in I. destruct I as [[q' rq] [<- I]]. cbn [fst].
      rewrite (V7 q' rq) by (rewrite N1; apply in_or_app; auto).
      apply negb_true_iff, mem_not. apply (D (q', rq)). apply filter_In in I. tauto.
    - rewrite (V7 p rem) by (rewrite N1; apply in_or_app; right; now left).
      apply mem_spec in B. now rewrite B. }
  cbn [dstep]. rewrite RV. eexists. split; [reflexivity|].
  set (f := set_flag (d_flag s) p r true).
  assert (Fo : forall q y, q <> p -> f q y = d_flag s q y).
  { intros q y H. unfold f, set_flag. apply N.eqb_neq in H. now rewrite H. }
  assert (Fp : forall y, f p y = negb (mem y rem')).
  { intros y. unfold f, set_flag. rewrite N.eqb_refl. cbn [andb].
    destruct (y =? r) eqn:E.
    - apply N.eqb_eq in E. subst y. symmetry. apply negb_true_iff, mem_not. unfold rem'.
      rewrite filter_In, N.eqb_refl. intros [_ X]. discriminate.
    - rewrite (V7 p rem) by (rewrite N1; apply in_or_app; right; now left). f_equal.
      apply eq_true_iff_eq. rewrite !mem_spec. unfold rem'. rewrite filter_In, E. tauto. }
  assert (Sub : forall y, In y rem' -> In y ports).
  { intros y I. unfold rem' in I. apply filter_In in I. destruct I as [I _].
    apply (V8 p rem) in I; [|rewrite N1; apply in_or_app; right; now left].
    apply in_others in I. tauto. }
  assert (TDo : forall q rq, In (q, rq) (filter open E1 ++ filter open E2) -> tracker_done ports f q = false).
  { intros q rq I.
    assert (I' : In (q, rq) (ND c l)).
    { rewrite N1. rewrite in_app_iff in *. simpl. tauto. }
    assert (q <> p).
    { intros ->. apply (in_map fst) in I. rewrite map_app, in_app_iff in I. cbn [fst] in I. tauto. }
    assert (open (q, rq) = true).
    { apply in_app_iff in I. destruct I as [I|I]; apply filter_In in I; tauto. }
    destruct rq as [|y rq]; [easy|]. apply not_true_is_false. intros T. unfold tracker_done in T.
    rewrite forallb_forall in T.
    assert (In y ports).
    { specialize (V8 q (y :: rq) y I' (or_introl eq_refl)). apply in_others in V8. tauto. }
    specialize (T y H1). rewrite Fo, (V7 q (y :: rq)) in T by auto.
    rewrite (proj2 (mem_spec y (y :: rq)) (or_introl eq_refl)) in T. discriminate. }
  assert (TDp : tracker_done ports f p = negb (open (p, rem'))).
  { unfold tracker_done, open. cbn [snd]. destruct rem' as [|y ys] eqn:Er.
    - apply forallb_forall. intros x _. now rewrite Fp.
    - apply not_true_is_false. intros T. rewrite forallb_forall in T. specialize (T y (Sub y (or_introl eq_refl))).
      rewrite Fp, (proj2 (mem_spec y (y :: ys)) (or_introl eq_refl)) in T. discriminate. }
  assert (GD : get_done ports (d_list s) f = if open (p, rem') then None else Some p).
  { unfold get_done. rewrite V4', N1, map_app. cbn [map fst]. destruct (open (p, rem')) eqn:EO.
    - apply find_nothing. intros q I. rewrite in_app_iff in I. simpl in I.
      assert (In q (map fst (filter open E1 ++ filter open E2)) \/ q = p) as [J| ->].
      { rewrite map_app, in_app_iff. intuition. }
      + apply in_map_iff in J. destruct J as [[q' rq] [<- J]]. eapply TDo; eauto.
      + rewrite TDp. reflexivity.
    - apply find_split; [|now rewrite TDp]. intros q I. apply in_map_iff in I.
      destruct I as [[q' rq] [<- I]]. eapply TDo. apply in_or_app. left. exact I. }
  rewrite GD, EX. cbn [app].
  constructor; cbn [d_list d_flag d_exec d_told].
  - intros x. unfold bump. destruct (x =? r) eqn:E; [apply N.eqb_eq in E; subst x; lia|apply V1].
  - destruct (open (p, rem')); simpl; lia.
  - intros q I. destruct (open (p, rem')); [easy|]. destruct I as [<-|[]].
    rewrite V4', N1, map_app. apply in_or_app. right. now left.
  - rewrite N2, V4', N1, !map_app. cbn [map fst].
    assert (FE : forall L, ~ In p L -> filter (fun q => negb (mem q (if open (p, rem') then [] else [p]))) L = L).
    { intros L H. rewrite <- (filter_true _ L) at 2. apply filter_ext_in. intros q I.
      apply negb_true_iff, mem_not. destruct (open (p, rem')); simpl; [tauto|]. intros [->|[]]. contradiction. }
    assert (EE : (match (if open (p, rem') then None else Some p) with Some p0 => [p0] | None => [] end)
                 = (if open (p, rem') then [] else [p])) by (destruct (open (p, rem')); reflexivity).
    rewrite EE. rewrite filter_app. cbn [filter]. rewrite !FE by tauto.
    destruct (open (p, rem')).
    + reflexivity.
    + rewrite (proj2 (mem_spec p [p]) (or_introl eq_refl)). reflexivity.
  - exact V5.
  - intros q x H. unfold f, set_flag. destruct (_ && _); [auto|]. now apply V6.
  - intros q rq x I. rewrite N2 in I. rewrite !in_app_iff in I.
    assert ((q, rq) = (p, rem') \/ In (q, rq) (filter open E1 ++ filter open E2)) as [[= -> ->]|J].
    { destruct (open (p, rem')); simpl in I; rewrite in_app_iff; intuition. }
    + apply Fp.
    + rewrite Fo.
      * apply V7. rewrite N1. rewrite in_app_iff in *. simpl. tauto.
      * intros ->. apply (in_map fst) in J. rewrite map_app, in_app_iff in J. cbn [fst] in J. tauto.
  - intros q rq x I J. rewrite N2 in I. rewrite !in_app_iff in I.
    assert ((q, rq) = (p, rem') \/ In (q, rq) (filter open E1 ++ filter open E2)) as [[= -> ->]|K].
    { destruct (open (p, rem')); simpl in I; rewrite in_app_iff; intuition. }
    + unfold rem' in J. apply filter_In in J. apply (V8 p rem); [|tauto].
      rewrite N1. apply in_or_app. right. now left.
    + apply (V8 q rq); [|auto]. rewrite N1. rewrite in_app_iff in *. simpl. tauto.
  - rewrite C2. destruct (open (p, rem')).
    + now rewrite !app_nil_r.
    + now apply Permutation_app_tail.
Qed.

Lemma sent_step : forall c l s i, dinv c l s ->
  exists s', dstep ports fwd s (Sent i) = Ok s' /\ dinv c l s'.
Proof.
  intros c l s i V. cbn [dstep]. destruct (nth_error (d_exec s) i) as [p|] eqn:E; [|eauto].
  eexists. split; [reflexivity|]. destruct V as [V1 V2 V3 V4 V5 V6 V7 V8 V9].
  destruct (d_exec s) as [|q [|]] eqn:EX; [destruct i; discriminate| |simpl in V2; lia].
  destruct i; [|destruct i; discriminate]. injection E as ->.
  constructor; cbn [d_list d_flag d_exec d_told drop_at firstn skipn app].
  - exact V1.
  - simpl. lia.
  - intros x [].
  - rewrite <- V4. transitivity (filter (fun x => negb (x =? p)) (d_list s)).
    + rewrite <- (filter_true _ (filter (fun x => negb (x =? p)) (d_list s))) at 2. apply filter_ext. reflexivity.
    + apply filter_ext. intros x. unfold mem. cbn [existsb]. now rewrite orb_false_r.
  - now apply NoDup_filter.
  - exact V6.
  - exact V7.
  - exact V8.
  - now rewrite app_nil_r.
Qed.

Lemma dinv_ext : forall c d l s, (forall r, c r = d r) -> dinv c l s -> dinv d l s.
Proof.
  intros c d l s H [V1 V2 V3 V4 V5 V6 V7 V8 V9].
  assert (E : ND c l = ND d l) by (unfold ND; now rewrite (pend_ext l c d H)).
  assert (F : complete_syncs ports fwd c l = complete_syncs ports fwd d l).
  { rewrite !finished. now rewrite (pend_ext l c d H). }
  constructor; rewrite <- ?E, <- ?F; auto. intros r. rewrite <- H. auto.
Qed.

Lemma run_app : forall a b s, drun ports fwd s (a ++ b) =
  match drun ports fwd s a with Ok s' => drun ports fwd s' b | AssertFail => AssertFail | UB => UB | Unmodelled => Unmodelled end.
Proof.
  induction a as [|e a IH]; intros b s; [auto|]. cbn [app drun].
  destruct (dstep ports fwd s e); auto.
Qed.

Lemma run_inv : forall es, keeps_rules ports fwd es ->
  exists s, drun ports fwd dvm_init es = Ok s /\ dinv (fun r => sent_by r es) (syncs es) s.
Proof.
  induction es as [|e es IH] using rev_ind; intros K.
  - exists dvm_init. split; [auto|exact dinv_init].
  - destruct IH as (s & R & V).
    { intros e1 x e2 s E. apply (K e1 x (e2 ++ [e]) s). rewrite E, <- app_assoc. reflexivity. }
    destruct (K es e [] s eq_refl R) as [L P]. rewrite run_app, R. cbn [drun].
    assert (Sy : syncs (es ++ [e]) = syncs es ++ match e with Sync p => [p] | _ => [] end).
    { unfold syncs. rewrite flat_map_app. cbn [flat_map]. now rewrite app_nil_r. }
    assert (Sb : forall r, sent_by r (es ++ [e]) = (sent_by r es + match e with Complete x => if N.eqb x r then 1 else 0 | _ => 0 end)%nat).
    { intros r. unfold sent_by. rewrite filter_app, app_length. cbn [filter].
      destruct e as [p|x|i]; try reflexivity. destruct (x =? r); reflexivity. }
    rewrite Sy. destruct e as [p|r|i].
    + cbn [dstep]. eexists. split; [reflexivity|]. destruct L as [L1 L2].
      apply (dinv_ext (fun r => sent_by r es)); [intros r; rewrite Sb; lia|]. now apply sync_step.
    + destruct (complete_step _ _ s r V P L) as (s' & E & V'). rewrite E, app_nil_r. exists s'. split; [auto|].
      eapply dinv_ext; [|exact V']. intros x. rewrite Sb. unfold bump. rewrite (N.eqb_sym r x).
      destruct (x =? r); lia.
    + destruct (sent_step _ _ s i V) as (s' & E & V'). rewrite E, app_nil_r. exists s'. split; [auto|].
      eapply dinv_ext; [|exact V']. intros x. rewrite Sb. lia.
Qed.
End Dvm.
