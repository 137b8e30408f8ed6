(** Lemmas for C106. *)
From Verif Require Import Base CcixHomeModel CcixHomeSpec.
From Coq Require Import Lia ZifyN ZifyNat.
Open Scope N_scope.

Lemma line_eqb_spec : forall x y, line_eqb x y = true <-> x = y.
Proof.
  intros [a b] [c d]. unfold line_eqb. cbn [fst snd].
  rewrite andb_true_iff, N.eqb_eq, Bool.eqb_true_iff. split; [intros [-> ->]|intros [= -> ->]]; auto.
Qed.
Lemma in_list_spec : forall x f, in_list x f = true <-> In x f.
Proof.
  intros x f. unfold in_list. rewrite existsb_exists. split.
  - intros [y [I E]]. apply line_eqb_spec in E. now subst.
  - intros I. exists x. split; [auto|]. now apply line_eqb_spec.
Qed.
Lemma in_allocate : forall y x f, In y (allocate x f) <-> In y f \/ y = x.
Proof.
  intros y x f. unfold allocate. destruct (in_list x f) eqn:E.
  - apply in_list_spec in E. split; [auto|intros [H| ->]; auto].
  - rewrite in_app_iff. simpl. split; intros [H|H]; auto. destruct H; auto. contradiction.
Qed.
Lemma in_evict : forall y x f, In y (evict x f) <-> In y f /\ y <> x.
Proof.
  intros y x f. unfold evict. destruct (in_list x f) eqn:E.
  - rewrite filter_In, negb_true_iff. split; intros [H K]; split; auto.
    + intros ->. assert (line_eqb x x = true) by now apply line_eqb_spec. congruence.
    + destruct (line_eqb y x) eqn:F; [apply line_eqb_spec in F; contradiction|auto].
  - split; [intros H; split; [auto|]|tauto]. intros ->. apply in_list_spec in H. congruence.
Qed.
Lemma align_line : forall q, q_line q = line_of (q_addr q) (q_ns q).
Proof.
  intros q. unfold q_line, line_of, align. f_equal.
  pose proof (N.div_mod' (q_addr q) 64). lia.
Qed.
Lemma sf_answer_in : forall resp x y f,
  In y (sf_answer resp x f) <-> In y f /\ (gone resp = true -> y <> x).
Proof.
  intros resp x y f. unfold sf_answer, gone. cbn [existsb]. rewrite orb_false_r.
  destruct ((resp =? 0) || (resp =? 4)); [rewrite in_evict|]; intuition congruence.
Qed.
Lemma sf_request_in : forall op x y f,
  In y (sf_request op x f) <->
  (In y f /\ (takes op = false -> keeps op = false -> y <> x)) \/ (takes op = true /\ y = x).
Proof.
  intros op x y f. unfold sf_request.
  assert (T : existsb (N.eqb op) [2; 38; 1; 7; 11; 12] = takes op).
  { unfold takes. apply eq_true_iff_eq. rewrite !existsb_exists. split; intros [z [I E]]; exists z; simpl in *; tauto. }
  assert (K : existsb (N.eqb op) [8; 39; 23] = keeps op).
  { unfold keeps. apply eq_true_iff_eq. rewrite !existsb_exists. split; intros [z [I E]]; exists z; simpl in *; tauto. }
  rewrite T, K. destruct (takes op), (keeps op); rewrite ?in_allocate, ?in_evict; intuition congruence.
Qed.

(** Lists of nodes *)
Definition single (n : node) : list node := [n].
Lemma contains_spec : forall i ns, contains i ns = true <-> In i (map n_id ns).
Proof.
  intros i ns. unfold contains. rewrite existsb_exists, in_map_iff.
  split; intros [n [H K]]; exists n; rewrite N.eqb_eq in *; auto.
Qed.
Lemma contains_not : forall i ns, contains i ns = false <-> ~ In i (map n_id ns).
Proof. intros. rewrite <- contains_spec. destruct (contains i ns); intuition congruence. Qed.
Lemma upd_ids : forall i g ns, map n_id (upd i g ns) = map n_id ns.
Proof.
  intros. unfold upd. rewrite map_map. apply map_ext. intros n. now destruct (n_id n =? i).
Qed.
Lemma upd_other : forall i g ns, ~ In i (map n_id ns) -> upd i g ns = ns.
Proof.
  intros i g. induction ns as [|n ns IH]; intros H; [auto|]. simpl in *.
  rewrite IH by tauto. destruct (n_id n =? i) eqn:E; [apply N.eqb_eq in E; tauto|auto].
Qed.
Lemma upd1_upd : forall i g ns, NoDup (map n_id ns) -> upd1 i g ns = upd i g ns.
Proof.
  intros i g. induction ns as [|n ns IH]; intros H; [auto|]. simpl in *. inversion H; subst.
  destruct (n_id n =? i) eqn:E.
  - apply N.eqb_eq in E. subst i. f_equal. now rewrite upd_other.
  - now rewrite IH.
Qed.
Lemma upd_app : forall i g a b, upd i g (a ++ b) = upd i g a ++ upd i g b.
Proof. intros. unfold upd. apply map_app. Qed.
Lemma in_upd : forall i g ns n, In n (upd i g ns) <->
  exists m, In m ns /\ n = if n_id m =? i then mkNode (n_id m) (g (n_sf m)) else m.
Proof. intros. unfold upd. rewrite in_map_iff. split; intros [m [A B]]; exists m; auto. Qed.

Lemma lookup_single : forall i cs,
  (exists a n b, cs = a ++ n :: b /\ n_id n = i /\ ~ In i (map n_id a) /\
     lookup_ccix i (map single cs) = Ok (Some (map single a, [n], map single b))) \/
  (~ In i (map n_id cs) /\ lookup_ccix i (map single cs) = Ok None).
Proof.
  intros i. induction cs as [|c cs IH]; [right; split; [intros []|reflexivity]|].
  change (map single (c :: cs)) with ([c] :: map single cs). cbn [lookup_ccix].
  assert (EC : contains i [c] = (n_id c =? i)) by (unfold contains; simpl; apply orb_false_r).
  rewrite EC. destruct (n_id c =? i) eqn:E.
  - left. exists [], c, cs. apply N.eqb_eq in E. repeat split; auto.
  - apply N.eqb_neq in E. destruct IH as [(a & n & b & -> & I & F & L)|[F L]].
    + left. exists (c :: a), n, b. rewrite L. repeat split; auto. simpl. tauto.
    + right. rewrite L. split; [simpl; tauto|reflexivity].
Qed.

(** Snoops *)
Definition txn (e : N * N * aline) : N := fst (fst e).
Definition who (e : N * N * aline) : N := snd (fst e).
Lemma snp_txn : forall q ns k, map txn (snp_rnf q k ns) = ids k (length ns).
Proof. intros q. induction ns; intros; simpl; [auto|]. now rewrite IHns. Qed.
Lemma snp_who : forall q ns k, map who (snp_rnf q k ns) = map n_id ns.
Proof. intros q. induction ns; intros; simpl; [auto|]. now rewrite IHns. Qed.
Lemma snp_line : forall q ns k e, In e (snp_rnf q k ns) -> snd e = q_line q.
Proof. intros q. induction ns; intros k e H; [easy|]. destruct H as [<-|H]; eauto. Qed.
Lemma snp_app : forall q a b k, snp_rnf q k (a ++ b) = snp_rnf q k a ++ snp_rnf q (k + N.of_nat (length a)) b.
Proof.
  intros q. induction a as [|n a IH]; intros b k; simpl.
  - now rewrite N.add_0_r.
  - rewrite IH. do 3 f_equal. lia.
Qed.
Lemma ids_ge : forall n k x, In x (ids k n) -> k <= x.
Proof. induction n; intros k x H; [easy|]. destruct H as [<-|H]; [lia|]. apply IHn in H. lia. Qed.
Lemma ids_nodup : forall n k, NoDup (ids k n).
Proof.
  induction n; intros k; constructor; auto. intros H. apply ids_ge in H. lia.
Qed.
Lemma filter_single : forall q cs, filter (existsb (wants q)) (map single cs) = map single (filter (wants q) cs).
Proof.
  intros q. induction cs as [|c cs IH]; [auto|]. simpl. rewrite orb_false_r, IH. now destruct (wants q c).
Qed.
Lemma ccix_single : forall q cs k, (forall n, In n cs -> has q n = true) ->
  snp_ccix q k (map single cs) = snp_rnf q k cs.
Proof.
  intros q. induction cs as [|c cs IH]; intros k H; [auto|]. simpl. rewrite (H c) by now left.
  simpl. rewrite IH by (intros; apply H; now right). reflexivity.
Qed.
Lemma in_snp : forall q ns k n, In n ns -> exists t, In (t, n_id n, q_line q) (snp_rnf q k ns).
Proof.
  intros q. induction ns as [|m ns IH]; intros k n H; [easy|]. destruct H as [->|H].
  - exists k. now left.
  - destruct (IH (k + 1) n H) as [t I]. exists t. now right.
Qed.
Lemma filter_ids_nodup : forall (p : node -> bool) ns, NoDup (map n_id ns) -> NoDup (map n_id (filter p ns)).
Proof.
  intros p. induction ns as [|n ns IH]; intros H; [constructor|]. simpl in *. inversion H; subst.
  destruct (p n); auto. simpl. constructor; auto. intros I. apply in_map_iff in I.
  destruct I as [m [E I]]. apply filter_In in I. apply H2. rewrite <- E. apply in_map. tauto.
Qed.

Lemma in_remove_at : forall A i (l : list A) e, In e (remove_at i l) -> In e l.
Proof.
  intros A. induction i as [|i IH]; intros [|x l] e H; simpl in *; try tauto.
  destruct H as [H|H]; [auto|]. right. apply IH. exact H.
Qed.
Lemma remove_at_map : forall A B (f : A -> B) i l, map f (remove_at i l) = remove_at i (map f l).
Proof. intros. unfold remove_at. now rewrite map_app, firstn_map, skipn_map. Qed.
Lemma filter_all : forall A (p : A -> bool) l, (forall y, In y l -> p y = true) -> filter p l = l.
Proof.
  intros A p. induction l as [|x l IH]; intros H; [auto|]. simpl. rewrite H by now left.
  f_equal. apply IH. intros y I. apply H. now right.
Qed.
Lemma remove_at_filter : forall i (l : list N) t, NoDup l -> nth_error l i = Some t ->
  remove_at i l = filter (fun x => negb (x =? t)) l.
Proof.
  induction i as [|i IH]; intros [|x l] t D E; try easy; inversion D; subst.
  - injection E as ->. simpl. rewrite N.eqb_refl. simpl. symmetry.
    apply filter_all. intros y I. apply negb_true_iff, N.eqb_neq. intros ->. contradiction.
  - simpl in E. change (remove_at (S i) (x :: l)) with (x :: remove_at i l). simpl.
    destruct (x =? t) eqn:F; [apply N.eqb_eq in F; subst x; apply nth_error_In in E; contradiction|].
    simpl. f_equal. now apply IH.
Qed.
Lemma remove_at_nodup : forall A i (l : list A), NoDup l -> NoDup (remove_at i l).
Proof.
  intros A. induction i as [|i IH]; intros [|x l] D; auto; inversion D; subst.
  - exact H2.
  - change (remove_at (S i) (x :: l)) with (x :: remove_at i l). constructor; auto.
    intros I. apply in_remove_at in I. contradiction.
Qed.

(** The invariant *)
Definition all (s : home) (cs : list node) : list node := h_rnf s ++ cs.
Definition quiet (s : home) (nodes : list N) : Prop :=
  match h_cur s with
  | None => h_snp s = []
  | Some (q, ts) =>
    map txn (h_snp s) = ts /\ NoDup ts /\ NoDup (map who (h_snp s)) /\ ~ In (q_src q) (map who (h_snp s)) /\
    (forall e, In e (h_snp s) -> snd e = q_line q) /\ proper nodes (Start q) /\
    (forall n, In n (map who (h_snp s)) -> In n nodes)
  end.
Record inv (nodes : list N) (s : home) (h : list (N * aline)) : Prop := mkInv {
  i_cs : exists cs, h_ccix s = map single cs /\ map n_id (all s cs) = nodes /\
    forall n x, In (n, x) h -> exists nd, In nd (all s cs) /\ n_id nd = n /\ In x (n_sf nd);
  i_quiet : quiet s nodes }.

Lemma same_spec : forall y n x, same y (n, x) = true <-> y = (n, x).
Proof.
  intros [a [b c]] n [d e]. unfold same. cbn [fst snd]. rewrite !andb_true_iff, !N.eqb_eq, Bool.eqb_true_iff.
  split; [intros [[-> ->] ->]; auto|intros [= -> -> ->]; auto].
Qed.
Lemma in_give_up : forall n x h y, In y (give_up n x h) <-> In y h /\ y <> (n, x).
Proof.
  intros. unfold give_up. rewrite filter_In, negb_true_iff. rewrite <- same_spec.
  destruct (same y (n, x)); intuition congruence.
Qed.

Lemma inv_init : forall rnf agents, inv (nodes_of rnf agents) (home_init rnf (one_each agents)) [].
Proof.
  intros. split; [|reflexivity]. exists (map fresh agents). split; [|split].
  - unfold home_init, one_each. cbn [h_ccix]. rewrite !map_map. apply map_ext. reflexivity.
  - unfold all, home_init, nodes_of. cbn [h_rnf]. rewrite map_app, !map_map. cbn [n_id fresh].
    now rewrite !map_id.
  - intros n x [].
Qed.

Lemma map_single_split : forall a n b, map single a ++ [n] :: map single b = map single (a ++ n :: b).
Proof. intros. now rewrite map_app. Qed.

Lemma app_id_nodup : forall (a b : list node), NoDup (map n_id (a ++ b)) ->
  NoDup (map n_id a) /\ NoDup (map n_id b) /\ (forall i, In i (map n_id a) -> In i (map n_id b) -> False).
Proof.
  intros a b H. rewrite map_app in H. induction (map n_id a) as [|x l IH]; simpl in *.
  - repeat split; auto. constructor.
  - inversion H; subst. destruct (IH H3) as (A & B & C). rewrite in_app_iff in H2.
    repeat split; auto; [constructor; tauto|]. intros i [->|I] J; [tauto|eauto].
Qed.

Lemma inv_step : forall nodes s h e, NoDup nodes -> proper nodes e -> inv nodes s h ->
  exists s', hstep s e = Ok s' /\ inv nodes s' (truth s h e).
Proof.
  intros nodes s h e ND P [(cs & HC & HI & HT) Q]. unfold quiet in Q.
  assert (ND' := ND). rewrite <- HI in ND'. destruct (app_id_nodup _ _ ND') as (ND1 & ND2 & ND3).
  destruct e as [q|i resp| |n x].
  - (* Start *)
    cbn [hstep truth]. destruct (h_cur s) as [[q0 ts]|] eqn:EC.
    { exists s. split; [auto|]. split; [eauto|]. unfold quiet. now rewrite EC. }
    destruct (q_poc q) eqn:EP.
    + eexists. split; [reflexivity|].
      assert (S : snp_rnf q (h_next s) (filter (wants q) (h_rnf s)) ++
                  snp_ccix q (h_next s + N.of_nat (length (filter (wants q) (h_rnf s))))
                    (filter (existsb (wants q)) (h_ccix s)) =
                  snp_rnf q (h_next s) (filter (wants q) (all s cs))).
      { rewrite HC, filter_single, ccix_single.
        - unfold all. now rewrite filter_app, snp_app.
        - intros n I. apply filter_In in I. destruct I as [_ I]. unfold wants in I.
          apply andb_true_iff in I. tauto. }
      assert (Len : (length (filter (wants q) (h_rnf s)) + length (filter (existsb (wants q)) (h_ccix s)))%nat
                    = length (filter (wants q) (all s cs))).
      { rewrite HC, filter_single, map_length. unfold all. now rewrite filter_app, app_length. }
      split.
      * exists cs. cbn [h_ccix]. split; [auto|]. unfold all in *. cbn [h_rnf]. auto.
      * unfold quiet. cbn [h_cur h_snp]. rewrite Q. cbn [app]. rewrite S, Len.
        assert (F : forall n, In n (map who (snp_rnf q (h_next s) (filter (wants q) (all s cs)))) ->
                    n <> q_src q /\ In n nodes).
        { intros n I. rewrite snp_who in I. apply in_map_iff in I. destruct I as [m [<- I]].
          apply filter_In in I. destruct I as [I W]. unfold wants in W.
          apply andb_true_iff in W. destruct W as [W _]. rewrite negb_true_iff, N.eqb_neq in W.
          split; [auto|]. rewrite <- HI. now apply in_map. }
        split; [apply snp_txn|]. split; [apply ids_nodup|].
        split; [rewrite snp_who; now apply filter_ids_nodup|].
        split; [intros I; apply F in I; tauto|]. split; [intros e; apply snp_line|].
        split; [exact P|]. intros n I. now apply F.
    + eexists. split; [reflexivity|]. split.
      * exists cs. cbn [h_ccix]. split; [auto|]. unfold all in *. cbn [h_rnf]. auto.
      * unfold quiet. cbn [h_cur h_snp]. rewrite Q. cbn [map].
        repeat split; try constructor; try tauto; try apply P; try (intros; contradiction).
  - (* Answer *)
    cbn [hstep truth]. destruct (nth_error (h_snp s) i) as [[[t n] x]|] eqn:EN.
    2:{ exists s. split; [auto|]. split; eauto. }
    destruct (h_cur s) as [[q ts]|] eqn:EC.
    2:{ rewrite Q in EN. destruct i; discriminate. }
    destruct Q as (Q1 & Q2 & Q3 & Q4 & Q5 & Q6 & Q7).
    assert (Et : nth_error ts i = Some t).
    { rewrite <- Q1, nth_error_map, EN. reflexivity. }
    assert (Em : existsb (N.eqb t) ts = true).
    { apply existsb_exists. exists t. split; [eapply nth_error_In; eauto|apply N.eqb_refl]. }
    assert (Ew : In n (map who (h_snp s))).
    { apply in_map_iff. exists (t, n, x). split; [auto|eapply nth_error_In; eauto]. }
    assert (Ex : x = q_line q) by (apply (Q5 (t, n, x)); eapply nth_error_In; eauto).
    rewrite Em, HC.
    assert (QQ : forall s', h_cur s' = Some (q, filter (fun y => negb (y =? t)) ts) ->
                   h_snp s' = remove_at i (h_snp s) -> quiet s' nodes).
    { intros s' C N. unfold quiet. rewrite C, N.
      assert (forall m, In m (map who (remove_at i (h_snp s))) -> In m (map who (h_snp s))).
      { intros m I. rewrite remove_at_map in I. now apply in_remove_at in I. }
      split; [rewrite remove_at_map, Q1; now apply remove_at_filter|].
      split; [now apply NoDup_filter|]. split; [rewrite remove_at_map; now apply remove_at_nodup|].
      split; [auto|]. split; [intros e I; apply Q5; now apply in_remove_at in I|]. split; auto. }
    destruct (contains n (h_rnf s)) eqn:ECn.
    + assert (L : exists found, lookup_ccix n (map single cs) = Ok found).
      { destruct (lookup_single n cs) as [(a & y & b & _ & _ & _ & L)|[_ L]]; eauto. }
      destruct L as [found L]. rewrite L. eexists. split; [reflexivity|].
      apply contains_spec in ECn.
      split; [|apply QQ; reflexivity]. exists cs. cbn [h_ccix]. split; [auto|].
      unfold all in *. cbn [h_rnf]. rewrite upd1_upd by auto.
      assert (EU : upd n (sf_answer resp (q_line q)) (h_rnf s) ++ cs =
                   upd n (sf_answer resp (q_line q)) (h_rnf s ++ cs)).
      { rewrite upd_app, (upd_other n _ cs); [auto|]. intros I. eapply ND3; eauto. }
      rewrite EU. split; [now rewrite upd_ids|].
      intros m y I.
      assert (I' : In (m, y) h /\ (gone resp = true -> (m, y) <> (n, x))).
      { destruct (gone resp); [apply in_give_up in I|]; intuition congruence. }
      destruct I' as [Ih Ig]. destruct (HT m y Ih) as (nd & A & B & C).
      exists (if n_id nd =? n then mkNode (n_id nd) (sf_answer resp (q_line q) (n_sf nd)) else nd).
      split; [apply in_upd; eauto|]. destruct (n_id nd =? n) eqn:E; [|auto].
      cbn [n_id n_sf]. split; [auto|]. apply sf_answer_in. split; [auto|].
      apply N.eqb_eq in E. intros G Ey. apply (Ig G). congruence.
    + apply contains_not in ECn.
      assert (In n (map n_id cs)).
      { apply Q7 in Ew. rewrite <- HI in Ew. unfold all in Ew. rewrite map_app, in_app_iff in Ew. tauto. }
      destruct (lookup_single n cs) as [(a & y & b & Ecs & Ey & Ea & L)|[F _]]; [|contradiction].
      rewrite L. eexists. split; [reflexivity|].
      assert (U : upd (q_src q) (sf_answer resp (q_line q)) [y] = [y]).
      { apply upd_other. simpl. intros [E|[]]. rewrite Ey in E. apply Q4. now rewrite <- E. }
      split; [|apply QQ; reflexivity]. exists cs. cbn [h_ccix]. rewrite U, map_single_split, <- Ecs.
      split; [auto|]. unfold all in *. cbn [h_rnf]. split; [auto|].
      intros m z I. apply HT. destruct (gone resp); [apply in_give_up in I; tauto|auto].
  - (* Finish *)
    cbn [hstep truth]. destruct (h_cur s) as [[q [|t ts]]|] eqn:EC.
    2:{ exists s. split; [auto|]. split; [eauto|]. unfold quiet. now rewrite EC. }
    2:{ exists s. split; [auto|]. split; [eauto|]. unfold quiet. now rewrite EC. }
    destruct Q as (Q1 & _ & _ & _ & _ & (Qs & Qa) & _).
    apply map_eq_nil in Q1. rewrite <- align_line.
    assert (QQ : forall s', h_cur s' = None -> h_snp s' = h_snp s -> quiet s' nodes).
    { intros s' C N. unfold quiet. rewrite C. congruence. }
    set (h' := if takes (q_op q) then (q_src q, q_line q) :: h else if keeps (q_op q) then h
               else give_up (q_src q) (q_line q) h).
    assert (Hh : forall m y, In (m, y) h' -> ((m = q_src q /\ y = q_line q) /\ takes (q_op q) = true) \/
              (In (m, y) h /\ (takes (q_op q) = false -> keeps (q_op q) = false -> (m, y) <> (q_src q, q_line q)))).
    { intros m y I. unfold h' in I. destruct (takes (q_op q)).
      - destruct I as [I|I]; [left; split; [split; congruence|auto]|right; split; [auto|congruence]].
      - right. destruct (keeps (q_op q)); [split; [auto|congruence]|].
        apply in_give_up in I. tauto. }
    clearbody h'.
    assert (UP : forall cs', (forall nd, In nd (h_rnf s ++ cs) ->
                    In (if n_id nd =? q_src q then mkNode (n_id nd) (sf_request (q_op q) (q_line q) (n_sf nd)) else nd) cs') ->
                 forall m y, In (m, y) h' -> exists nd, In nd cs' /\ n_id nd = m /\ In y (n_sf nd)).
    { intros cs' K m y I. apply Hh in I. destruct I as [[[-> ->] T]|[I T]].
      - rewrite <- HI in Qs. unfold all in Qs. apply in_map_iff in Qs. destruct Qs as [nd [E I]].
        eexists. split; [apply K; exact I|]. rewrite E, N.eqb_refl. cbn [n_id n_sf]. split; [auto|].
        apply sf_request_in. auto.
      - destruct (HT m y I) as (nd & A & B & C). eexists. split; [apply K; exact A|].
        destruct (n_id nd =? q_src q) eqn:E; [|auto]. cbn [n_id n_sf]. split; [auto|].
        apply sf_request_in. left. split; [auto|]. intros T1 T2 Ey. apply N.eqb_eq in E.
        apply (T T1 T2). congruence. }
    destruct (q_updates q) eqn:EU.
    + destruct (contains (q_src q) (h_rnf s)) eqn:ECn.
      * apply contains_spec in ECn. eexists. split; [reflexivity|]. split; [|now apply QQ].
        exists cs. cbn [h_ccix]. split; [auto|]. unfold all in *. cbn [h_rnf]. rewrite upd1_upd by auto.
        assert (EE : upd (q_src q) (sf_request (q_op q) (q_line q)) (h_rnf s) ++ cs =
                     upd (q_src q) (sf_request (q_op q) (q_line q)) (h_rnf s ++ cs)).
        { rewrite upd_app, (upd_other (q_src q) _ cs); [auto|]. intros I. eapply ND3; eauto. }
        rewrite EE. split; [now rewrite upd_ids|]. apply UP. intros nd I. apply in_upd. eauto.
      * apply contains_not in ECn.
        assert (In (q_src q) (map n_id cs)).
        { rewrite <- HI in Qs. unfold all in Qs. rewrite map_app, in_app_iff in Qs. tauto. }
        destruct (lookup_single (q_src q) cs) as [(a & y & b & Ecs & Ey & Ea & L)|[F _]]; [|contradiction].
        rewrite HC, L. eexists. split; [reflexivity|]. split; [|now apply QQ].
        exists (upd (q_src q) (sf_request (q_op q) (q_line q)) cs). cbn [h_ccix].
        assert (EE : upd (q_src q) (sf_request (q_op q) (q_line q)) (h_rnf s ++ cs) =
                     h_rnf s ++ upd (q_src q) (sf_request (q_op q) (q_line q)) cs).
        { rewrite upd_app, (upd_other (q_src q) _ (h_rnf s)); auto. }
        split; [|split].
        -- assert (Eb : ~ In (q_src q) (map n_id b)).
           { rewrite Ecs, map_app in ND2. simpl in ND2. apply NoDup_remove_2 in ND2.
             rewrite Ey in ND2. intros I. apply ND2. apply in_or_app. auto. }
           rewrite Ecs, upd_app, (upd_other _ _ a) by auto. cbn [upd map]. rewrite Ey, N.eqb_refl.
           change (map (fun n => if n_id n =? q_src q then mkNode (n_id n) (sf_request (q_op q) (q_line q) (n_sf n)) else n) b)
             with (upd (q_src q) (sf_request (q_op q) (q_line q)) b).
           rewrite (upd_other _ _ b) by auto. rewrite map_app. reflexivity.
        -- unfold all in *. cbn [h_rnf]. rewrite <- EE. now rewrite upd_ids.
        -- unfold all. cbn [h_rnf]. rewrite <- EE. apply UP. intros nd I. apply in_upd. eauto.
    + eexists. split; [reflexivity|]. split; [|now apply QQ].
      exists cs. cbn [h_ccix]. split; [auto|]. unfold all in *. cbn [h_rnf]. split; [auto|].
      (* nothing is recorded: the requester does not take the line *)
      assert (TF : takes (q_op q) = false).
      { destruct (takes (q_op q)) eqn:T; [|auto]. exfalso. unfold takes in T.
        apply existsb_exists in T. destruct T as [o [I E]]. apply N.eqb_eq in E.
        unfold q_updates in EU. rewrite !orb_false_iff in EU. destruct EU as [[E1 _] E3].
        simpl in I. destruct I as [I|[I|[I|[I|[I|[I|[]]]]]]]; subst o;
          rewrite E in *; cbn in E1; try discriminate;
          rewrite Qa in E3 by (simpl; tauto); discriminate. }
      intros m y I. apply Hh in I. destruct I as [[_ T]|[I _]]; [congruence|auto].
  - (* Drop *)
    cbn [hstep truth]. exists s. split; [auto|]. split; [|exact Q]. exists cs. split; [auto|]. split; [auto|].
    intros m y I. apply in_give_up in I. apply HT. tauto.
Qed.

Lemma inv_run : forall nodes es s h, NoDup nodes -> Forall (proper nodes) es -> inv nodes s h ->
  exists s', hrun s es = Ok s' /\ inv nodes s' (holders s h es).
Proof.
  intros nodes. induction es as [|e es IH]; intros s h ND F I.
  - exists s. split; auto.
  - inversion F; subst. destruct (inv_step nodes s h e ND H1 I) as (s1 & E & I1).
    cbn [hrun holders]. rewrite E. now apply IH.
Qed.
