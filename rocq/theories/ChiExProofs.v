(** Lemmas for exclusive accesses in CHI. *)
From Verif Require Import Base ChiExModel ChiExSpec.
From Coq Require Import Lia ZifyN ZifyNat.
Open Scope N_scope.

Lemma line_of_div : forall a, line_of a = 64 * (a / 64).
Proof. intros. unfold line_of, LSZ. lia. Qed.
Lemma line_of_eq : forall a b, line_of a = line_of b <-> same_line a b.
Proof. intros. rewrite !line_of_div. unfold same_line. lia. Qed.
Lemma line_of_aligned : forall a, a mod 64 = 0 -> line_of a = a.
Proof. intros a H. rewrite line_of_div. pose proof (N.div_mod a 64 ltac:(lia)). lia. Qed.

Lemma mon_in_In : forall a l, mon_in a l = true <-> In a l.
Proof.
  intros. unfold mon_in. rewrite existsb_exists. split.
  - intros [x [H E]]. apply N.eqb_eq in E. now subst.
  - intros H. exists a. split; auto. apply N.eqb_refl.
Qed.
Lemma In_mon_set : forall x a l, In x (mon_set a l) <-> x = a \/ In x l.
Proof.
  intros. unfold mon_set. destruct (mon_in a l) eqn:E.
  - apply mon_in_In in E. split; [tauto|]. intros [->|H]; auto.
  - rewrite in_app_iff. simpl. split; intros H; intuition congruence.
Qed.
Lemma In_mon_reset : forall x a l, In x (mon_reset a l) <-> x <> a /\ In x l.
Proof.
  intros. unfold mon_reset. rewrite filter_In, negb_true_iff, N.eqb_neq. tauto.
Qed.

(** Validity of lines *)
Lemma valid_set_line : forall c a s b m, s <> Inv -> valid c b = true ->
  valid (mkXc (xc_line (set_line c a s)) m) b = true.
Proof.
  intros c a s b m H. unfold valid, set_line. simpl.
  destruct (line_of b =? line_of a); auto. destruct s; congruence.
Qed.
Lemma valid_set_line_same : forall c a s m, s <> Inv ->
  valid (mkXc (xc_line (set_line c a s)) m) a = true.
Proof.
  intros c a s m H. unfold valid, set_line. simpl. rewrite N.eqb_refl.
  destruct s; congruence.
Qed.

(** Pieces *)
Lemma piece_step : forall a n, 0 < n -> let k := N.min n (64 - a mod 64) in
  0 < k <= n /\ (forall x, a <= x < a + k -> same_line a x) /\
  (k < n -> (a + k) / 64 = a / 64 + 1).
Proof.
  intros a n Hn k. subst k.
  pose proof (N.mod_lt a 64 ltac:(lia)). pose proof (N.div_mod a 64 ltac:(lia)) as D.
  set (q := a / 64) in *. set (r := a mod 64) in *. clearbody q r.
  split; [lia|]. split.
  - intros x Hx. unfold same_line.
    assert (a / 64 = q) as -> by (symmetry; apply N.div_unique with r; lia).
    apply N.div_unique with (x - 64 * q); lia.
  - intros Hk. symmetry. apply N.div_unique with 0; lia.
Qed.
Lemma pieces_range : forall f a n p, In p (pieces f a n) -> a <= p < a + n.
Proof.
  induction f as [|f IH]; cbn [pieces In]; intros a n p H; [easy|].
  destruct (n =? 0) eqn:E; [easy|]. apply N.eqb_neq in E.
  destruct (piece_step a n ltac:(lia)) as [K _]. unfold LSZ in *.
  set (k := N.min n (64 - a mod 64)) in *. clearbody k.
  destruct H as [<-|H]; [lia|]. apply IH in H. lia.
Qed.
Lemma pieces_lines : forall f a n p, In p (pieces f a n) -> p = a \/ a / 64 < p / 64.
Proof.
  intros [|f] a n p H; cbn [pieces In] in H; [easy|].
  destruct (n =? 0) eqn:E; [easy|]. apply N.eqb_neq in E.
  destruct (piece_step a n ltac:(lia)) as [K [_ L]]. unfold LSZ in *.
  set (k := N.min n (64 - a mod 64)) in *. clearbody k.
  destruct H as [<-|H]; [now left|]. right. apply pieces_range in H.
  specialize (L ltac:(lia)).
  pose proof (N.div_le_mono (a + k) p 64 ltac:(lia) ltac:(lia)). lia.
Qed.
Lemma pieces_cover : forall f a n, (N.to_nat n <= f)%nat -> covers (pieces f a n) a n.
Proof.
  induction f as [|f IH]; cbn [pieces In]; intros a n Hf x Hx; [lia|].
  destruct (n =? 0) eqn:E; [apply N.eqb_eq in E; lia|]. apply N.eqb_neq in E.
  destruct (piece_step a n ltac:(lia)) as [K [S _]]. unfold LSZ in *.
  set (k := N.min n (64 - a mod 64)) in *. clearbody k.
  destruct (N.lt_ge_cases x (a + k)).
  - exists a. split; [now left|]. split; [lia|]. apply S. lia.
  - destruct (IH (a + k) (n - k) ltac:(lia) x ltac:(lia)) as [w [W1 W2]].
    exists w. split; [now right|]. exact W2.
Qed.
(** Without one of its pieces an access is not covered. *)
Lemma pieces_prefix : forall f a n ws rest, pieces f a n = ws ++ rest -> rest <> [] ->
  ~ covers ws a n.
Proof.
  induction f as [|f IH]; cbn [pieces In]; intros a n ws rest E R C.
  - symmetry in E. apply app_eq_nil in E. tauto.
  - destruct (n =? 0) eqn:En.
    { symmetry in E. apply app_eq_nil in E. tauto. }
    apply N.eqb_neq in En.
    destruct (piece_step a n ltac:(lia)) as [K [S L]]. unfold LSZ in *.
    set (k := N.min n (64 - a mod 64)) in *. clearbody k.
    destruct ws as [|w ws].
    + destruct (C a ltac:(lia)) as [w [[] _]].
    + simpl in E. injection E as -> E.
      apply (IH _ _ _ _ E R). intros x Hx.
      destruct (C x ltac:(lia)) as [v [[<-|V] [V2 V3]]]; [|eauto].
      exfalso. unfold same_line in V3. specialize (L ltac:(lia)).
      pose proof (N.div_le_mono (w + k) x 64 ltac:(lia) ltac:(lia)). lia.
Qed.
Lemma pieces_one : forall a n, 0 < n -> a mod 64 + n <= 64 -> pieces_of a n = [a].
Proof.
  intros a n H H'. unfold pieces_of. destruct (N.to_nat n) as [|f] eqn:E; [lia|].
  cbn [pieces]. destruct (n =? 0) eqn:En; [apply N.eqb_eq in En; lia|].
  unfold LSZ. replace (N.min n (64 - a mod 64)) with n by lia.
  rewrite N.sub_diag. destruct f; reflexivity.
Qed.

(** The load *)
Lemma xload_inv : forall ps c resp failed fetch,
  let c' := fst (fst (xload_pieces c resp failed fetch ps)) in
  (forall b, valid c b = true -> valid c' b = true) /\
  (forall b, In b (xc_mon c') -> In b (xc_mon c) \/ (In b ps /\ valid c' b = true)).
Proof.
  induction ps as [|a ps IH]; simpl; intros c resp failed fetch; [split; auto|].
  destruct (valid c a) eqn:V.
  - destruct (IH c resp failed fetch) as [I1 I2]. split; [exact I1|].
    intros b H. destruct (I2 b H) as [|[]]; auto.
  - set (s := if fetch (line_of a) then Unique else Shared).
    assert (Hs : s <> Inv) by (subst s; destruct (fetch _); discriminate).
    set (c1 := mkXc _ _). destruct (IH c1 false (failed || negb resp) fetch) as [I1 I2].
    split.
    + intros b H. apply I1. now apply valid_set_line.
    + intros b H. destruct (I2 b H) as [H'|[]]; auto.
      subst c1. simpl in H'. apply In_mon_set in H'. destruct H' as [->|H']; auto.
      right. split; [now left|]. apply I1. now apply valid_set_line_same.
Qed.
Lemma xload_state : forall c a n resp fetch,
  fst (xload c a n resp fetch) = fst (fst (xload_pieces c resp false fetch (pieces_of a n))).
Proof.
  intros. unfold xload. destruct (xload_pieces _ _ _ _ _) as [[c' r] f]. reflexivity.
Qed.

(** The store *)
Lemma xstore_inv : forall ps c resp done,
  let '(c', resp', done', all) := xstore_pieces c resp done ps in
  (forall b, valid c b = true -> valid c' b = true) /\
  (forall b, In b (xc_mon c') -> In b (xc_mon c)) /\
  (forall b, In b done' -> In b done \/ (In b ps /\ In b (xc_mon c))) /\
  (exists ws rest, ps = ws ++ rest /\ done' = done ++ ws /\ (all = true <-> rest = [])) /\
  (forall a ps', ps = a :: ps' -> ~ In a (xc_mon c')) /\
  (resp = false -> resp' = false).
Proof.
  induction ps as [|a ps IH]; simpl; intros c resp done.
  - split; auto. split; auto. split; auto. split.
    { exists [], []. split; [reflexivity|]. split; [now rewrite app_nil_r|tauto]. }
    split; [discriminate|auto].
  - destruct (mon_in a (xc_mon c)) eqn:M; simpl.
    + apply mon_in_In in M.
      destruct (valid c a && negb (unique c a) && negb resp) eqn:F.
      * split; [intros; apply valid_set_line; [discriminate|auto]|]. simpl.
        split; [intros b H; now apply In_mon_reset in H|]. split; [auto|]. split.
        { exists [], (a :: ps). rewrite app_nil_r. repeat split; discriminate. }
        split; [|auto]. intros a' ps' [= <- <-] H. apply In_mon_reset in H. tauto.
      * set (c1 := mkXc _ _). set (r1 := if valid c a && _ then _ else _).
        specialize (IH c1 r1 (done ++ [a])).
        destruct (xstore_pieces c1 r1 (done ++ [a]) ps) as [[[c' resp'] done'] all].
        destruct IH as (I1 & I2 & I3 & (ws & rest & -> & -> & I4) & I5 & I6).
        split; [intros b H; apply I1; apply valid_set_line; [discriminate|auto]|].
        split; [intros b H; apply I2 in H; now apply In_mon_reset in H|].
        split.
        { intros b H. apply I3 in H. destruct H as [H|[H H2]].
          - apply in_app_iff in H. destruct H as [H|[<-|[]]]; auto.
          - apply In_mon_reset in H2. right. tauto. }
        split; [exists (a :: ws), rest; rewrite <- app_assoc; auto|].
        split.
        { intros a' ps' [= <- <-] H. apply I2 in H. apply In_mon_reset in H. tauto. }
        intros ->. apply I6. subst r1. now destruct (valid c a && _).
    + split; auto. split; auto. split; auto. split.
      { exists [], (a :: ps). rewrite app_nil_r. repeat split; discriminate. }
      split; [|auto]. intros a' ps' [= <- <-] H. apply mon_in_In in H. congruence.
Qed.

(** What the monitor of a cache without displaced lines knows *)
Definition opened (es : list xev) (a : N) : Prop :=
  exists e1 l e2, es = e1 ++ l :: e2 /\ loads l a /\
    (forall e, In e e2 -> ~ taken_by_other e a /\ ~ stores_at e a).
Lemma opened_more : forall es e a, opened es a -> ~ taken_by_other e a -> ~ stores_at e a ->
  opened (es ++ [e]) a.
Proof.
  intros es e a (e1 & l & e2 & -> & L & H) T S. exists e1, l, (e2 ++ [e]).
  rewrite <- app_assoc. split; [reflexivity|]. split; [exact L|].
  intros x Hx. apply in_app_iff in Hx. destruct Hx as [Hx|[<-|[]]]; auto.
Qed.
Lemma xrun_app : forall c es e, xrun c (es ++ [e]) = xstep (xrun c es) e.
Proof. intros. unfold xrun. now rewrite fold_left_app. Qed.

Lemma monitor_knows : forall es, (forall e, In e es -> ~ displaced e) ->
  forall a, a mod 64 = 0 -> In a (xc_mon (xrun xc_init es)) ->
  valid (xrun xc_init es) a = true /\ opened es a.
Proof.
  intros es. induction es as [|e es IH] using rev_ind; [easy|].
  intros D a A M. rewrite xrun_app in *.
  assert (IH' := IH ltac:(intros; apply D; apply in_app_iff; auto) a A). clear IH.
  assert (De : ~ displaced e) by (apply D; apply in_app_iff; simpl; auto).
  set (c := xrun xc_init es) in *. clearbody c.
  destruct e as [b n resp fetch|b n resp|b|b|b]; simpl in M |- *.
  - rewrite xload_state in *.
    destruct (xload_inv (pieces_of b n) c resp false fetch) as [I1 I2].
    destruct (I2 a M) as [H|[H V]].
    + destruct (IH' H) as [V O]. split; [now apply I1|]. apply opened_more; auto.
    + split; [exact V|]. exists es, (XLoad b n resp fetch), []. split; [reflexivity|].
      split; [|easy]. apply pieces_range in H. exact H.
  - unfold xstore in *. pose proof (xstore_inv (pieces_of b n) c resp []) as I.
    destruct (xstore_pieces c resp [] (pieces_of b n)) as [[[c' r'] d'] all]. simpl in *.
    destruct I as (I1 & I2 & _ & _ & I5 & _).
    destruct (IH' (I2 a M)) as [V O]. split; [now apply I1|].
    apply opened_more; auto. simpl. intros [-> Hn].
    assert (exists ps, pieces_of a n = a :: ps) as [ps Hp].
    { unfold pieces_of. destruct (N.to_nat n) eqn:E; [lia|]. simpl.
      destruct (n =? 0) eqn:En; [apply N.eqb_eq in En; lia|]. eauto. }
    exact (I5 _ _ Hp M).
  - destruct (valid c b) eqn:V.
    + simpl in M. apply In_mon_reset in M. destruct M as [Ne M].
      destruct (IH' M) as [Va O].
      assert (Nl : line_of a <> line_of b) by (rewrite (line_of_aligned a A); exact Ne).
      split.
      * unfold valid, set_line in *. simpl.
        destruct (line_of a =? line_of b) eqn:E; [apply N.eqb_eq in E; tauto|exact Va].
      * apply opened_more; auto. simpl. intros S. apply Nl. symmetry. now apply line_of_eq.
    + destruct (IH' M) as [Va O]. split; [exact Va|]. apply opened_more; auto.
      simpl. intros S. apply line_of_eq in S. unfold valid in *. rewrite S in V. congruence.
  - assert (Hm : In a (xc_mon c)) by (destruct (unique c b); exact M).
    destruct (IH' Hm) as [V O]. split; [|apply opened_more; auto].
    destruct (unique c b); [|exact V]. apply (valid_set_line c b Shared a (xc_mon c)); [discriminate|exact V].
  - simpl in De. tauto.
Qed.

(** The home *)
Definition hstate (l : list N) (rs : list hreq) : list N :=
  fold_left (fun l r => fst (route l r)) rs l.
Lemma route_all_app : forall rs l r,
  route_all l (rs ++ [r]) = route_all l rs ++ [(r, snd (route (hstate l rs) r))].
Proof.
  induction rs as [|x rs IH]; intros l r; simpl.
  - destruct (route l r). reflexivity.
  - destruct (route l x) as [l' o] eqn:E. simpl. rewrite IH. reflexivity.
Qed.
Lemma route_all_length : forall rs l, length (route_all l rs) = length rs.
Proof.
  induction rs as [|x rs IH]; intros l; simpl; [reflexivity|].
  destruct (route l x). simpl. now rewrite IH.
Qed.
Lemma atomic_spec : forall r, negb (h_atomic r) && h_excl r = true <-> exclusive r.
Proof.
  intros r. unfold h_atomic, exclusive. rewrite andb_true_iff, negb_true_iff, andb_false_iff.
  rewrite !N.leb_gt. tauto.
Qed.
Lemma registers_spec : forall r, h_registers r = true <-> In (h_op r) [1; 2; 38; 11].
Proof.
  intros r. unfold h_registers. change (existsb (N.eqb (h_op r)) ?l) with (mon_in (h_op r) l).
  rewrite mon_in_In. unfold OP_ReadClean, OP_ReadNotSharedDirty, OP_ReadShared, OP_CleanUnique.
  simpl. tauto.
Qed.

Definition owned (out : list (hreq * routed)) (p : N) : Prop :=
  exists i ri oi, nth_error out i = Some (ri, oi) /\ opens ri /\ h_lpid ri = p /\
    forall j rj oj, (i < j)%nat -> nth_error out j = Some (rj, oj) -> ro_okay oj = true -> h_lpid rj = p.

Lemma owned_app : forall out r o p,
  owned (out ++ [(r, o)]) p <->
  (opens r /\ h_lpid r = p) \/ (owned out p /\ (ro_okay o = true -> h_lpid r = p)).
Proof.
  intros out r o p. split.
  - intros (i & ri & oi & E & O & P & H).
    destruct (Nat.lt_ge_cases i (length out)) as [Lt|Ge].
    + rewrite nth_error_app1 in E by exact Lt. right. split.
      * exists i, ri, oi. split; [exact E|]. split; [exact O|]. split; [exact P|].
        intros j rj oj Hj Ej. apply (H j rj oj Hj). rewrite nth_error_app1; auto.
        apply nth_error_Some. congruence.
      * apply (H (length out) r o Lt). rewrite nth_error_app2, Nat.sub_diag by lia. reflexivity.
    + rewrite nth_error_app2 in E by exact Ge. left.
      destruct (i - length out)%nat as [|[|]]; simpl in E; try discriminate.
      injection E as <- <-. auto.
  - intros [[O P]|[(i & ri & oi & E & O & P & H) K]].
    + exists (length out), r, o. split; [rewrite nth_error_app2, Nat.sub_diag by lia; reflexivity|].
      split; [exact O|]. split; [exact P|]. intros j rj oj Hj Ej. exfalso.
      assert (nth_error (out ++ [(r, o)]) j <> None) as N0 by congruence.
      apply nth_error_Some in N0. rewrite app_length in N0. simpl in N0. lia.
    + assert (Li : (i < length out)%nat) by (apply nth_error_Some; congruence).
      exists i, ri, oi. split; [rewrite nth_error_app1; auto|]. split; [exact O|]. split; [exact P|].
      intros j rj oj Hj Ej. destruct (Nat.lt_ge_cases j (length out)) as [Lt|Ge].
      * rewrite nth_error_app1 in Ej by exact Lt. exact (H j rj oj Hj Ej).
      * rewrite nth_error_app2 in Ej by exact Ge.
        destruct (j - length out)%nat as [|[|]]; simpl in Ej; try discriminate.
        injection Ej as <- <-. exact K.
Qed.

Lemma hstate_owned : forall rs p, In p (hstate [] rs) <-> owned (route_all [] rs) p.
Proof.
  intros rs. induction rs as [|r rs IH] using rev_ind; intros p.
  - simpl. split; [easy|]. intros (i & ri & oi & E & _). destruct i; discriminate.
  - rewrite route_all_app, owned_app. unfold hstate. rewrite fold_left_app. simpl.
    fold (hstate [] rs). rewrite <- IH. set (l := hstate [] rs). clearbody l.
    unfold route. destruct (negb (h_atomic r) && h_excl r) eqn:X.
    + unfold opens. rewrite <- atomic_spec, X, <- registers_spec. unfold handle_excl.
      assert (Cu : h_op r =? OP_CleanUnique = true -> h_registers r = true).
      { intros Q. apply N.eqb_eq in Q. unfold h_registers. rewrite Q. reflexivity. }
      destruct ((h_op r =? OP_CleanUnique) && mon_in (h_lpid r) l) eqn:P; simpl.
      * apply andb_true_iff in P. destruct P as [P1 P2]. rewrite (Cu P1). simpl.
        split; [intros [<-|[]]; left; auto|]. intros [[_ <-]|[_ H]]; [auto|]. left. auto.
      * destruct (h_registers r); simpl.
        -- rewrite in_app_iff. simpl. split.
           ++ intros [H|[<-|[]]]; [right; split; [exact H|discriminate]|left; auto].
           ++ intros [[_ <-]|[H _]]; auto.
        -- split; [intros H; right; split; [exact H|discriminate]|].
           intros [[[_ Q] _]|[H _]]; [discriminate|exact H].
    + unfold opens. rewrite <- atomic_spec, X. simpl. split.
      * intros H. right. split; [exact H|discriminate].
      * intros [[[Q _] _]|[H _]]; [discriminate|exact H].
Qed.

Lemma route_all_firstn : forall rs l k r o, nth_error (route_all l rs) k = Some (r, o) ->
  o = snd (route (hstate l (firstn k rs)) r) /\
  route_all l (firstn k rs) = firstn k (route_all l rs).
Proof.
  induction rs as [|x rs IH]; intros l k r o E; simpl in E.
  - destruct k; discriminate.
  - destruct (route l x) as [l' ox] eqn:R. destruct k as [|k]; simpl in E.
    + injection E as <- <-. simpl. rewrite R. auto.
    + destruct (IH l' k r o E) as [I1 I2]. simpl. rewrite R. simpl. rewrite I2. auto.
Qed.
Lemma nth_error_firstn_lt : forall (A : Type) (l : list A) k i, (i < k)%nat ->
  nth_error (firstn k l) i = nth_error l i.
Proof.
  intros A l. induction l as [|x l IH]; intros [|k] [|i] H; simpl; auto; try lia.
  apply IH. lia.
Qed.
Lemma may_pass_owned : forall out k r, may_pass out k r <-> owned (firstn k out) (h_lpid r).
Proof.
  intros out k r. split.
  - intros (i & ri & oi & Hi & E & O & P & H). exists i, ri, oi.
    rewrite nth_error_firstn_lt by exact Hi. split; [exact E|]. split; [exact O|]. split; [exact P|].
    intros j rj oj Hj Ej.
    assert (Jk : (j < k)%nat).
    { assert (nth_error (firstn k out) j <> None) as N0 by congruence.
      apply nth_error_Some in N0. rewrite firstn_length in N0. lia. }
    rewrite nth_error_firstn_lt in Ej by exact Jk. apply (H j); auto.
  - intros (i & ri & oi & E & O & P & H).
    assert (Ik : (i < k)%nat).
    { assert (nth_error (firstn k out) i <> None) as N0 by congruence.
      apply nth_error_Some in N0. rewrite firstn_length in N0. lia. }
    rewrite nth_error_firstn_lt in E by exact Ik. exists i, ri, oi.
    split; [exact Ik|]. split; [exact E|]. split; [exact O|]. split; [exact P|].
    intros j rj oj [Hj Hk] Ej. apply (H j rj oj Hj). now rewrite nth_error_firstn_lt.
Qed.
