(** Invariant of the response slots. *)
From Verif Require Import Base RpSlotsModel RpSlotsSpec.
Open Scope N_scope.

Ltac spl := repeat match goal with |- _ /\ _ => split end.

Lemma set_nth_length l : forall i x, length (set_nth l i x) = length l.
Proof. induction l as [|y l IH]; intros [|i] x; cbn; auto. Qed.
Lemma nth_set_nth_eq l : forall i x d, (i < length l)%nat -> nth i (set_nth l i x) d = x.
Proof.
  induction l as [|y l IH]; intros [|i] x d H; cbn in *; try lia; auto. apply IH. lia.
Qed.
Lemma nth_set_nth_ne l : forall i j x d, i <> j -> nth j (set_nth l i x) d = nth j l d.
Proof.
  induction l as [|y l IH]; intros [|i] [|j] x d H; cbn; auto; try congruence.
Qed.
Lemma find_idx_some f l d : forall i,
  find_idx f l = Some i -> (i < length l)%nat /\ f (nth i l d) = true.
Proof.
  induction l as [|x l IH]; intros i H; cbn in H; [discriminate|].
  destruct (f x) eqn:E; [injection H as <-; cbn; split; [lia|exact E]|].
  destruct (find_idx f l) as [j|]; [|discriminate]. injection H as <-.
  destruct (IH j eq_refl). cbn. split; [lia|assumption].
Qed.
Lemma find_idx_none f l d :
  find_idx f l = None -> forall i, (i < length l)%nat -> f (nth i l d) = false.
Proof.
  induction l as [|x l IH]; intros H i Hi; cbn in *; [lia|].
  destruct (f x) eqn:E; [discriminate|]. destruct (find_idx f l); [discriminate|].
  destruct i as [|i]; [exact E|]. apply IH; [reflexivity|lia].
Qed.

Lemma run_snoc os : forall y o,
  run y (os ++ [o]) =
  rbind (run y os) (fun '(y', h) =>
    rbind (step y' o) (fun '(y'', b) => Ok (y'', h ++ [b]))).
Proof.
  induction os as [|o' os IH]; intros y o; cbn [app run rbind].
  - destruct (step y o) as [[y' b]| | |]; reflexivity.
  - destruct (step y o') as [[y' b]| | |]; cbn [rbind]; try reflexivity.
    rewrite IH. destruct (run y' os) as [[y2 h]| | |]; cbn [rbind]; try reflexivity.
    destruct (step y2 o) as [[y3 b3]| | |]; reflexivity.
Qed.

Definition sl (y : sys) (i : nat) : slot := nth i (y_slots y) slot0.

Record inv (y : sys) : Prop := {
  i_len : length (y_slots y) = NSLOTS;
  i_free : forall i, (i < NSLOTS)%nat -> sl_used (sl y i) = false -> sl_valid (sl y i) = false;
  i_thr : NoDup (map w_thread (y_wait y));
  i_slt : NoDup (map w_slot (y_wait y));
  i_seq : NoDup (map w_seq (y_wait y));
  i_wait : forall w, In w (y_wait y) ->
    (w_slot w < NSLOTS)%nat /\ sl_used (sl y (w_slot w)) = true /\
    sl_id (sl y (w_slot w)) = pkt_id (w_seq w) /\ w_seq w < y_seq y /\
    (sl_valid (sl y (w_slot w)) = true ->
       sl_pkt (sl y (w_slot w)) = w_seq w /\ ~ In (w_seq w, false) (y_net y)) /\
    (sl_valid (sl y (w_slot w)) = false -> In (w_seq w, false) (y_net y));
  i_used : forall i, (i < NSLOTS)%nat -> sl_used (sl y i) = true ->
    exists w, In w (y_wait y) /\ w_slot w = i;
  i_net : NoDup (map fst (y_net y));
  i_netlt : forall q p, In (q, p) (y_net y) -> q < y_seq y;
  i_netw : forall q, In (q, false) (y_net y) -> exists w, In w (y_wait y) /\ w_seq w = q }.

Lemma inv0 : inv sys0.
Proof.
  constructor; cbn [sys0 y_slots y_wait y_net map].
  - apply repeat_length.
  - intros i Hi _. unfold sl, sys0, slots0. cbn [y_slots]. rewrite nth_repeat. reflexivity.
  - constructor.
  - constructor.
  - constructor.
  - intros w [].
  - intros i Hi. unfold sl, sys0, slots0. cbn [y_slots]. rewrite nth_repeat. discriminate.
  - constructor.
  - intros q p [].
  - intros q [].
Qed.

Lemma NoDup_snoc {A} (l : list A) x : NoDup l -> ~ In x l -> NoDup (l ++ [x]).
Proof.
  intros H1 H2. apply NoDup_Add with (a := x) (l := l).
  - rewrite <- (app_nil_r l) at 1. apply Add_app.
  - split; assumption.
Qed.
Lemma NoDup_map_inj {A B} (f : A -> B) l a b :
  NoDup (map f l) -> In a l -> In b l -> f a = f b -> a = b.
Proof.
  induction l as [|x l IH]; intros H Ha Hb E; [contradiction|].
  cbn in H. inversion H as [|? ? Hn Hl]; subst.
  destruct Ha as [->|Ha], Hb as [->|Hb]; auto.
  - exfalso. apply Hn. rewrite E. apply in_map. exact Hb.
  - exfalso. apply Hn. rewrite <- E. apply in_map. exact Ha.
Qed.

Lemma waiting_some t l w : waiting t l = Some w -> In w l /\ w_thread w = t.
Proof. intros H. apply find_some in H. destruct H as (H & E). apply N.eqb_eq in E. auto. Qed.
Lemma waiting_none t l : waiting t l = None -> ~ In t (map w_thread l).
Proof.
  intros H Hi. apply in_map_iff in Hi. destruct Hi as (w & E & Hw).
  apply (find_none _ _ H) in Hw. apply N.eqb_neq in Hw. contradiction.
Qed.
Lemma waiting_in t l w :
  NoDup (map w_thread l) -> In w l -> w_thread w = t -> waiting t l = Some w.
Proof.
  intros Hn Hi E. destruct (waiting t l) as [w'|] eqn:F.
  - apply waiting_some in F. destruct F as (Hi' & E').
    f_equal. eapply NoDup_map_inj; eauto. congruence.
  - apply waiting_none in F. exfalso. apply F. subst t. apply in_map. exact Hi.
Qed.
Lemma waiting_snoc t l w :
  waiting t (l ++ [w]) =
  match waiting t l with
  | Some x => Some x
  | None => if w_thread w =? t then Some w else None
  end.
Proof.
  unfold waiting. induction l as [|x l IH]; cbn; [reflexivity|].
  destruct (w_thread x =? t); [reflexivity|exact IH].
Qed.
Lemma waiting_filter_eq t l :
  waiting t (filter (fun x => negb (w_thread x =? t)) l) = None.
Proof.
  unfold waiting. induction l as [|x l IH]; cbn; [reflexivity|].
  destruct (w_thread x =? t) eqn:E; cbn; [exact IH|]. rewrite E. exact IH.
Qed.
Lemma waiting_filter_ne t u l : u <> t ->
  waiting u (filter (fun x => negb (w_thread x =? t)) l) = waiting u l.
Proof.
  intros H. unfold waiting. induction l as [|x l IH]; cbn; [reflexivity|].
  destruct (N.eqb_spec (w_thread x) t) as [E|E]; cbn.
  - destruct (N.eqb_spec (w_thread x) u); [congruence|exact IH].
  - destruct (w_thread x =? u); [reflexivity|exact IH].
Qed.
Lemma NoDup_map_filter {A B} (f : A -> B) g l : NoDup (map f l) -> NoDup (map f (filter g l)).
Proof.
  induction l as [|x l IH]; cbn; intros H; [constructor|].
  inversion H as [|? ? Hn Hl]; subst. destruct (g x); cbn; [|auto].
  constructor; [|auto]. intros Hi. apply Hn.
  apply in_map_iff in Hi. destruct Hi as (y & <- & Hy). apply filter_In in Hy.
  apply in_map, Hy.
Qed.

Lemma in_remove_nth {A} (l : list A) : forall k x, In x (remove_nth k l) -> In x l.
Proof.
  induction l as [|y l IH]; intros [|k] x H; cbn in *; auto.
  destruct H as [->|H]; [auto|right; eapply IH; exact H].
Qed.
Lemma in_remove_nth_other {A} (l : list A) : forall k x y,
  nth_error l k = Some y -> In x l -> x <> y -> In x (remove_nth k l).
Proof.
  induction l as [|z l IH]; intros [|k] x y Hk Hi Hn; cbn in *; try contradiction.
  - injection Hk as ->. destruct Hi as [->|Hi]; [congruence|exact Hi].
  - destruct Hi as [->|Hi]; [auto|right; eapply IH; eauto].
Qed.
Lemma remove_nth_notin {A B} (f : A -> B) (l : list A) : forall k y,
  nth_error l k = Some y -> NoDup (map f l) -> ~ In (f y) (map f (remove_nth k l)).
Proof.
  induction l as [|z l IH]; intros [|k] y Hk Hn; cbn in *; try discriminate.
  - injection Hk as ->. inversion Hn; assumption.
  - inversion Hn as [|? ? H1 H2]; subst. intros [E|Hi].
    + apply H1. rewrite E. apply in_map. eapply nth_error_In; eauto.
    + eapply IH; eauto.
Qed.
Lemma NoDup_remove_nth {A B} (f : A -> B) (l : list A) : forall k,
  NoDup (map f l) -> NoDup (map f (remove_nth k l)).
Proof.
  induction l as [|z l IH]; intros [|k] Hn; cbn in *; auto; inversion Hn as [|? ? H1 H2]; subst; auto.
  constructor; [|auto]. intros Hi. apply H1. apply in_map_iff in Hi.
  destruct Hi as (y & <- & Hy). apply in_map. eapply in_remove_nth; eauto.
Qed.

Lemma pkt_id_inj a b n :
  a < n -> b < n -> n < a + 4294967296 -> n < b + 4294967296 -> pkt_id a = pkt_id b -> a = b.
Proof.
  unfold pkt_id. intros H1 H2 H3 H4 E.
  assert (Da := N.div_mod a 4294967296). assert (Db := N.div_mod b 4294967296).
  specialize (Da ltac:(discriminate)). specialize (Db ltac:(discriminate)).
  assert (a / 4294967296 = b / 4294967296 \/ a / 4294967296 + 1 <= b / 4294967296 \/
          b / 4294967296 + 1 <= a / 4294967296) by lia.
  rewrite E in Da. nia.
Qed.

Lemma pending_snoc t h o : pending t (h ++ [o]) = pend1 t (pending t h) o.
Proof. unfold pending. rewrite fold_left_app. reflexivity. Qed.

Definition hinv (y : sys) (h : list obs) : Prop :=
  forall t, pending t h = option_map w_seq (waiting t (y_wait y)).

(** One step keeps the invariant. *)
Lemma step_inv y h o y' b :
  inv y -> young y -> hinv y h -> step y o = Ok (y', b) ->
  inv y' /\ hinv y' (h ++ [b]) /\ (forall t r, b = Got t r -> pending t h = Some r).
Proof.
  intros I Y H S. destruct o as [t posted|k|t]; cbn [step] in S.
  - (* Request *)
    destruct (waiting t (y_wait y)) as [w|] eqn:W.
    { injection S as <- <-. split; [exact I|]. split; [|discriminate].
      intros u. rewrite pending_snoc. apply H. }
    destruct posted.
    + injection S as <- <-. split; [|split; [|discriminate]].
      * destruct I as [I1 I2 I3 I4 I5 I6 I7 I8 I9 I10].
        constructor; cbn [y_slots y_wait y_net y_seq]; auto.
        -- intros w Hw. destruct (I6 w Hw) as (A & B & C & D & E & F).
           spl; auto.
           ++ lia.
           ++ intros V. destruct (E V) as (E1 & E2). split; [exact E1|].
              intros Hin. apply in_app_or in Hin.
              destruct Hin as [Hin|[Hin|[]]]; [contradiction|discriminate].
           ++ intros V. apply in_or_app. left. auto.
        -- rewrite map_app. apply NoDup_snoc; [exact I8|].
           intros Hin. apply in_map_iff in Hin. destruct Hin as ((q & p) & E & Hq).
           cbn in E. subst q. apply I9 in Hq. lia.
        -- intros q p Hin. apply in_app_or in Hin. destruct Hin as [Hin|[Hin|[]]].
           ++ apply I9 in Hin. lia.
           ++ injection Hin as <- _. lia.
        -- intros q Hin. apply in_app_or in Hin. destruct Hin as [Hin|[Hin|[]]];
             [auto|discriminate].
      * intros u. rewrite pending_snoc. apply H.
    + destruct (response_claim (y_slots y) (pkt_id (y_seq y))) as [[l i]| | |] eqn:C;
        cbn [rbind] in S; try discriminate.
      injection S as <- <-.
      unfold response_claim in C.
      destruct (find_idx _ (y_slots y)) as [i'|] eqn:F; [|discriminate].
      injection C as <- <-. apply (find_idx_some _ _ slot0) in F. destruct F as (Fi & Fu).
      apply negb_true_iff in Fu.
      assert (Hfree : forall w, In w (y_wait y) -> w_slot w <> i').
      { intros w Hw E. destruct (i_wait y I w Hw) as (_ & B & _).
        unfold sl in B. rewrite E in B. congruence. }
      assert (Hv : sl_valid (sl y i') = false).
      { apply (i_free y I); [rewrite <- (i_len y I); exact Fi|exact Fu]. }
      split; [|split; [|discriminate]].
      * destruct I as [I1 I2 I3 I4 I5 I6 I7 I8 I9 I10].
        constructor; cbn [y_slots y_wait y_net y_seq]; unfold sl in *; cbn [y_slots].
        -- rewrite set_nth_length. exact I1.
        -- intros j Hj. destruct (Nat.eq_dec i' j) as [<-|Hn].
           ++ rewrite nth_set_nth_eq by exact Fi. discriminate.
           ++ rewrite nth_set_nth_ne by exact Hn. auto.
        -- rewrite map_app. apply NoDup_snoc; [exact I3|]. cbn. apply waiting_none. exact W.
        -- rewrite map_app. apply NoDup_snoc; [exact I4|]. cbn. intros Hin.
           apply in_map_iff in Hin. destruct Hin as (w & E & Hw). exact (Hfree w Hw E).
        -- rewrite map_app. apply NoDup_snoc; [exact I5|]. cbn. intros Hin.
           apply in_map_iff in Hin. destruct Hin as (w & E & Hw).
           destruct (I6 w Hw) as (_ & _ & _ & D & _). lia.
        -- intros w Hw. apply in_app_or in Hw. destruct Hw as [Hw|[<-|[]]].
           ++ rewrite nth_set_nth_ne by (intro E; apply (Hfree w Hw); auto).
              destruct (I6 w Hw) as (A & B & C & D & E & G).
              spl; auto; try lia.
              ** intros V. destruct (E V) as (E1 & E2). split; [exact E1|].
                 intros Hin. apply in_app_or in Hin.
                 destruct Hin as [Hin|[Hin|[]]]; [contradiction|injection Hin as Hin; lia].
              ** intros V. apply in_or_app. left. auto.
           ++ cbn [w_slot w_seq]. rewrite nth_set_nth_eq by exact Fi. cbn [sl_used sl_id sl_valid sl_pkt].
              spl; auto; try lia.
              all: intros V; try congruence.
              apply in_or_app. right. left. reflexivity.
        -- intros j Hj Hu. destruct (Nat.eq_dec i' j) as [<-|Hn].
           ++ eexists. split; [apply in_or_app; right; left; reflexivity|reflexivity].
           ++ rewrite nth_set_nth_ne in Hu by exact Hn. destruct (I7 j Hj Hu) as (w & Hw & E).
              exists w. split; [apply in_or_app; auto|exact E].
        -- rewrite map_app. apply NoDup_snoc; [exact I8|].
           intros Hin. apply in_map_iff in Hin. destruct Hin as ((q & p) & E & Hq).
           cbn in E. subst q. apply I9 in Hq. lia.
        -- intros q p Hin. apply in_app_or in Hin. destruct Hin as [Hin|[Hin|[]]].
           ++ apply I9 in Hin. lia.
           ++ injection Hin as <- _. lia.
        -- intros q Hin. apply in_app_or in Hin. destruct Hin as [Hin|[Hin|[]]].
           ++ destruct (I10 q Hin) as (w & Hw & E). exists w. split; [apply in_or_app; auto|exact E].
           ++ injection Hin as <-. eexists.
              split; [apply in_or_app; right; left; reflexivity|reflexivity].
      * intros u. rewrite pending_snoc. cbn [pend1 y_wait]. rewrite waiting_snoc. cbn [w_thread].
        destruct (N.eqb_spec t u) as [->|Hn].
        -- rewrite W. reflexivity.
        -- rewrite H. destruct (waiting u (y_wait y)); reflexivity.
  - (* Answer *)
    destruct (nth_error (y_net y) k) as [[q posted]|] eqn:E.
    2:{ injection S as <- <-. split; [exact I|]. split; [|discriminate].
        intros u. rewrite pending_snoc. apply H. }
    unfold response_deliver in S. destruct posted; cbn [rbind] in S.
    + injection S as <- <-. split; [|split; [|discriminate]].
      * destruct I as [I1 I2 I3 I4 I5 I6 I7 I8 I9 I10].
        constructor; cbn [y_slots y_wait y_net y_seq]; auto.
        -- intros w Hw. destruct (I6 w Hw) as (A & B & C & D & F & G).
           spl; auto.
           ++ intros V. destruct (F V) as (F1 & F2). split; [exact F1|].
              intros Hin. apply F2. eapply in_remove_nth; exact Hin.
           ++ intros V. eapply in_remove_nth_other; [exact E|auto|discriminate].
        -- apply NoDup_remove_nth. exact I8.
        -- intros q' p' Hin. eapply I9, in_remove_nth; exact Hin.
        -- intros q' Hin. eapply I10, in_remove_nth; exact Hin.
      * intros u. rewrite pending_snoc. apply H.
    + destruct (response_lookup (y_slots y) (pkt_id q)) as [i|] eqn:F; cbn [rbind] in S; [|discriminate].
      injection S as <- <-.
      unfold response_lookup in F. apply (find_idx_some _ _ slot0) in F.
      destruct F as (Fi & Fu). apply andb_true_iff in Fu. destruct Fu as (Fu & Fid).
      apply N.eqb_eq in Fid.
      assert (Hi : (i < NSLOTS)%nat) by (rewrite <- (i_len y I); exact Fi).
      destruct (i_used y I i Hi Fu) as (w & Hw & Ws).
      destruct (i_wait y I w Hw) as (WA & WB & WC & WD & WE & WF).
      assert (Hnet : In (q, false) (y_net y)) by (eapply nth_error_In; exact E).
      destruct (i_netw y I q Hnet) as (w2 & Hw2 & Wq).
      destruct (i_wait y I w2 Hw2) as (_ & _ & _ & WD2 & _).
      assert (Eseq : w_seq w = q).
      { assert (Yw := Y w Hw). assert (Yw2 := Y w2 Hw2). rewrite Wq in *.
        apply (pkt_id_inj _ _ (y_seq y)); auto.
        rewrite <- WC, <- Fid. unfold sl. rewrite Ws. reflexivity. }
      split; [|split; [|discriminate]].
      * destruct I as [I1 I2 I3 I4 I5 I6 I7 I8 I9 I10].
        constructor; cbn [y_slots y_wait y_net y_seq]; unfold sl in *; cbn [y_slots]; auto.
        -- rewrite set_nth_length. exact I1.
        -- intros j Hj. destruct (Nat.eq_dec i j) as [<-|Hn].
           ++ rewrite nth_set_nth_eq by exact Fi. discriminate.
           ++ rewrite nth_set_nth_ne by exact Hn. auto.
        -- intros w' Hw'. destruct (I6 w' Hw') as (A & B & C & D & F & G).
           destruct (Nat.eq_dec i (w_slot w')) as [Hs|Hn].
           ++ assert (w' = w) by (eapply (NoDup_map_inj w_slot); eauto; congruence). subst w'.
              rewrite <- Hs, nth_set_nth_eq by exact Fi. cbn [sl_used sl_id sl_valid sl_pkt].
              rewrite <- Hs in C.
              spl; auto; try congruence.
              intros _. split; [auto|]. intros Hin. eapply (remove_nth_notin fst); [exact E|exact I8|].
              cbn. rewrite <- Eseq. apply in_map_iff. exists (w_seq w, false). auto.
           ++ rewrite nth_set_nth_ne by exact Hn. spl; auto.
              ** intros V. destruct (F V) as (F1 & F2). split; [exact F1|].
                 intros Hin. apply F2. eapply in_remove_nth; exact Hin.
              ** intros V. eapply in_remove_nth_other; [exact E|auto|].
                 intros Eq. injection Eq as Eq.
                 apply Hn. replace w' with w; [auto|].
                 eapply (NoDup_map_inj w_seq); eauto. congruence.
        -- intros j Hj Hu. destruct (Nat.eq_dec i j) as [<-|Hn]; [eauto|].
           rewrite nth_set_nth_ne in Hu by exact Hn. auto.
        -- apply NoDup_remove_nth. exact I8.
        -- intros q' p' Hin. eapply I9, in_remove_nth; exact Hin.
        -- intros q' Hin. eapply I10, in_remove_nth; exact Hin.
      * intros u. rewrite pending_snoc. apply H.
  - (* Wake *)
    destruct (waiting t (y_wait y)) as [w|] eqn:W.
    2:{ injection S as <- <-. split; [exact I|]. split; [|discriminate].
        intros u. rewrite pending_snoc. apply H. }
    apply waiting_some in W. destruct W as (Hw & Wt).
    destruct (i_wait y I w Hw) as (WA & WB & WC & WD & WE & WF).
    fold (sl y (w_slot w)) in S.
    destruct (sl_valid (sl y (w_slot w))) eqn:V.
    2:{ injection S as <- <-. split; [exact I|]. split; [|discriminate].
        intros u. rewrite pending_snoc. apply H. }
    injection S as <- <-. destruct (WE eq_refl) as (Wp & Wn). clear WE WF.
    assert (Hwt : waiting t (y_wait y) = Some w).
    { apply waiting_in; auto. apply (i_thr y I). }
    split; [|split].
    + destruct I as [I1 I2 I3 I4 I5 I6 I7 I8 I9 I10].
      assert (Fi : (w_slot w < length (y_slots y))%nat) by (rewrite I1; exact WA).
      constructor; cbn [y_slots y_wait y_net y_seq]; unfold response_done, sl in *; cbn [y_slots]; auto.
      * rewrite set_nth_length. exact I1.
      * intros j Hj. destruct (Nat.eq_dec (w_slot w) j) as [<-|Hn].
        -- rewrite nth_set_nth_eq by exact Fi. reflexivity.
        -- rewrite nth_set_nth_ne by exact Hn. auto.
      * apply NoDup_map_filter. exact I3.
      * apply NoDup_map_filter. exact I4.
      * apply NoDup_map_filter. exact I5.
      * intros w' Hw'. apply filter_In in Hw'. destruct Hw' as (Hw' & Ht).
        apply negb_true_iff, N.eqb_neq in Ht.
        assert (w_slot w <> w_slot w').
        { intros E. apply Ht. rewrite <- Wt. f_equal.
          eapply (NoDup_map_inj w_slot); eauto. }
        rewrite nth_set_nth_ne by assumption. apply I6. exact Hw'.
      * intros j Hj Hu. destruct (Nat.eq_dec (w_slot w) j) as [<-|Hn].
        -- rewrite nth_set_nth_eq in Hu by exact Fi. discriminate.
        -- rewrite nth_set_nth_ne in Hu by exact Hn. destruct (I7 j Hj Hu) as (w' & Hw' & E).
           exists w'. split; [|exact E]. apply filter_In. split; [exact Hw'|].
           apply negb_true_iff, N.eqb_neq. intros Et.
           apply Hn. rewrite <- E. f_equal. eapply (NoDup_map_inj w_thread); eauto. congruence.
      * intros q Hin. destruct (I10 q Hin) as (w' & Hw' & E).
        exists w'. split; [|exact E]. apply filter_In. split; [exact Hw'|].
        apply negb_true_iff, N.eqb_neq. intros Et.
        assert (w' = w) by (eapply (NoDup_map_inj w_thread); eauto; congruence). subst w'.
        apply Wn. rewrite E. exact Hin.
    + intros u. rewrite pending_snoc. cbn [pend1 y_wait].
      destruct (N.eqb_spec t u) as [<-|Hn].
      * rewrite waiting_filter_eq. reflexivity.
      * rewrite waiting_filter_ne by auto. apply H.
    + intros t' r E. injection E as <- <-. rewrite H, Hwt. cbn. rewrite Wp. reflexivity.
Qed.

Lemma run_inv os : always_young os -> forall y h,
  run sys0 os = Ok (y, h) -> inv y /\ hinv y h /\ own_responses h.
Proof.
  induction os as [|o os IH] using rev_ind; intros HY y h R.
  - injection R as <- <-. split; [apply inv0|]. split; [intros t; reflexivity|].
    intros pre post t r E. destruct pre; discriminate.
  - rewrite run_snoc in R. destruct (run sys0 os) as [[y1 h1]| | |] eqn:R1; cbn [rbind] in R; try discriminate.
    assert (HY1 : always_young os).
    { intros pre post y' h' E R'. apply (HY pre (post ++ [o]) y' h'); [|exact R'].
      rewrite E, app_assoc. reflexivity. }
    destruct (IH HY1 y1 h1 eq_refl) as (I & H & O).
    destruct (step y1 o) as [[y2 b]| | |] eqn:S; cbn [rbind] in R; try discriminate.
    injection R as <- <-.
    assert (Y1 : young y1) by (apply (HY os [o] y1 h1); auto).
    destruct (step_inv y1 h1 o y2 b I Y1 H S) as (I2 & H2 & G).
    split; [exact I2|]. split; [exact H2|].
    intros pre post t r E.
    destruct post as [|x post] using rev_ind.
    + change (Got t r :: []) with ([Got t r]) in E. apply app_inj_tail in E.
      destruct E as (<- & E). apply G. exact E.
    + clear IHpost. rewrite app_comm_cons, app_assoc in E. apply app_inj_tail in E.
      destruct E as (E & _). eapply O. exact E.
Qed.

Lemma claim_fails y id :
  inv y -> response_claim (y_slots y) id = AssertFail -> length (y_wait y) = NSLOTS.
Proof.
  intros I C. unfold response_claim in C.
  destruct (find_idx _ (y_slots y)) as [i|] eqn:F; [discriminate|].
  assert (Hall : forall i, (i < NSLOTS)%nat -> In i (map w_slot (y_wait y))).
  { intros i Hi. assert (U := find_idx_none _ _ slot0 F i). cbv beta in U.
    rewrite (i_len y I) in U. specialize (U Hi). apply negb_false_iff in U.
    destruct (i_used y I i Hi U) as (w & Hw & <-). apply in_map. exact Hw. }
  assert (L1 : (NSLOTS <= length (map w_slot (y_wait y)))%nat).
  { rewrite <- (seq_length NSLOTS 0). apply NoDup_incl_length; [apply seq_NoDup|].
    intros i Hi. apply in_seq in Hi. apply Hall. lia. }
  assert (L2 : (length (map w_slot (y_wait y)) <= NSLOTS)%nat).
  { rewrite <- (seq_length NSLOTS 0) at 1. apply NoDup_incl_length; [apply (i_slt y I)|].
    intros i Hi. apply in_map_iff in Hi. destruct Hi as (w & <- & Hw).
    apply in_seq. destruct (i_wait y I w Hw). lia. }
  rewrite map_length in *. lia.
Qed.

Lemma step_safe y o r :
  inv y -> step y o = r -> (forall y' b, r <> Ok (y', b)) ->
  r = AssertFail /\ exists t, o = Request t false /\ length (y_wait y) = NSLOTS.
Proof.
  intros I S Hr. destruct o as [t posted|k|t]; cbn [step] in S.
  - destruct (waiting t (y_wait y)); [exfalso; eapply Hr; eauto|].
    destruct posted; [exfalso; eapply Hr; eauto|].
    destruct (response_claim (y_slots y) (pkt_id (y_seq y))) as [[l i]| | |] eqn:C; cbn [rbind] in S.
    + exfalso; eapply Hr; eauto.
    + split; [auto|]. exists t. split; [reflexivity|]. eapply claim_fails; eauto.
    + unfold response_claim in C. destruct (find_idx _ _); discriminate.
    + unfold response_claim in C. destruct (find_idx _ _); discriminate.
  - destruct (nth_error (y_net y) k) as [[q posted]|] eqn:E; [|exfalso; eapply Hr; eauto].
    unfold response_deliver in S. destruct posted; cbn [rbind] in S; [exfalso; eapply Hr; eauto|].
    destruct (response_lookup (y_slots y) (pkt_id q)) as [i|] eqn:F; cbn [rbind] in S; [exfalso; eapply Hr; eauto|].
    exfalso. assert (Hnet : In (q, false) (y_net y)) by (eapply nth_error_In; exact E).
    destruct (i_netw y I q Hnet) as (w & Hw & Wq).
    destruct (i_wait y I w Hw) as (WA & WB & WC & _).
    assert (U := find_idx_none _ _ slot0 F (w_slot w)). cbv beta in U.
    rewrite (i_len y I) in U. specialize (U WA). fold (sl y (w_slot w)) in U.
    rewrite WB, WC, Wq, N.eqb_refl in U. discriminate.
  - destruct (waiting t (y_wait y)); [|exfalso; eapply Hr; eauto].
    destruct (sl_valid _); exfalso; eapply Hr; eauto.
Qed.

Lemma slots_own os y h :
  always_young os -> run sys0 os = Ok (y, h) -> own_responses h.
Proof. intros HY R. apply (run_inv os HY y h R). Qed.

Lemma slots_safe os y h o :
  always_young os -> run sys0 os = Ok (y, h) ->
  (forall y' b, step y o <> Ok (y', b)) ->
  exists t, o = Request t false /\ length (y_wait y) = 256%nat.
Proof.
  intros HY R Hr. destruct (run_inv os HY y h R) as (I & _).
  apply (step_safe y o (step y o) I eq_refl Hr).
Qed.

Lemma slots_delivered os y h t q :
  always_young os -> run sys0 os = Ok (y, h) ->
  pending t h = Some q -> ~ In (q, false) (y_net y) ->
  exists y', step y (Wake t) = Ok (y', Got t q).
Proof.
  intros HY R P Hn. destruct (run_inv os HY y h R) as (I & H & _).
  rewrite H in P. destruct (waiting t (y_wait y)) as [w|] eqn:W; [|discriminate].
  injection P as Wq. cbn [step]. rewrite W. apply waiting_some in W. destruct W as (Hw & Wt).
  destruct (i_wait y I w Hw) as (WA & WB & WC & WD & WE & WF).
  fold (sl y (w_slot w)). destruct (sl_valid (sl y (w_slot w))) eqn:V.
  - destruct (WE eq_refl) as (-> & _). rewrite Wq. eauto.
  - rewrite Wq in WF. exfalso. auto.
Qed.
