(** Every step keeps the coherence invariant. *)
From Verif Require Import Base TlmModel TlmSpec AceSpec AceModel AceFacts AceOrder AceCoherence.
Open Scope N_scope.

Section CohStep.
Context (f : cfg).
Notation cl := (cl f).

(** ** Properties of the requests in progress *)
Section Ops.
Context (Q : nat -> run -> Prop)
  (Hadv : forall m r l, Q m r -> Q m (advance f r l))
  (Hex : forall m r b, Q m r -> Q m (mkRun (r_op r) (r_pos r) (r_acc r) b)).
Definition runs_ok (s : state) : Prop := forall m r, run_of (s_pc s m) = Some r -> Q m r.

Lemma ops_goto s m p :
  (forall r, run_of p = Some r -> Q m r) -> runs_ok s -> runs_ok (goto s m p).
Proof.
  intros Hp H i r. cbn. destruct (Nat.eq_dec i m) as [->|N]; [rewrite updn_eq; apply Hp|rewrite updn_ne by auto; apply H].
Qed.
Lemma ops_leave s m r : Q m r -> runs_ok s -> runs_ok (tx_leave f s m r).
Proof.
  intros Hp H i r' E. destruct (Nat.eq_dec i m) as [->|N].
  - rewrite leave_pc_own in E. now injection E as <-.
  - destruct (leave_pc f s m r i N) as [X|(r1 & k & X & Y)].
    + rewrite X in E. now apply H.
    + rewrite Y in E. injection E as <-. apply (H i). now rewrite X.
Qed.
Lemma ops_pc s s' : s_pc s' = s_pc s -> runs_ok s -> runs_ok s'.
Proof. intros E H m r. rewrite E. apply H. Qed.
Lemma ops_issue s m r k : Q m r -> runs_ok s -> runs_ok (issue f s m r k).
Proof.
  intros Hp H. unfold issue. destruct (is_overlapping _ _ _); (apply ops_goto; [|now apply (ops_pc s)]);
    cbn; intros r' E; now injection E as <-.
Qed.
Lemma ops_issue_wb s m r c k : Q m r -> runs_ok s -> runs_ok (issue_wb s m r c k).
Proof.
  intros Hp H. unfold issue_wb. apply ops_goto; [|now apply (ops_pc s)].
  cbn; intros r' E; now injection E as <-.
Qed.
Lemma ops_fill s m r k : Q m r -> runs_ok s -> runs_ok (fill f s m r k).
Proof.
  intros Hp H. unfold fill. destruct (l_valid _); [destruct (l_dirty _)|];
    (apply ops_issue_wb || apply ops_issue); auto.
Qed.

Ltac one := cbn; let r := fresh in let E := fresh in intros r E; (discriminate || (injection E as <-; auto)).

Lemma step_ops s lb s' es :
  label_ok (fun m o => Q m (mkRun o 0 [] false)) lb -> step f s lb = Some (s', es) -> runs_ok s -> runs_ok s'.
Proof.
  intros HL H I. destruct lb as [m o|m|m|m j|m|m|m|]; cbn [step] in H; cbn [label_ok] in HL.
  - destruct (s_pc s m); try discriminate. destruct (m <? f_nm f)%nat; [|discriminate].
    injection H as <- <-. apply ops_goto; [one|exact I].
  - destruct (s_pc s m) eqn:E; try discriminate.
    assert (Hp : Q m r) by (apply I; now rewrite E).
    injection H as H. assert (s' = fst (local f s m r)) as -> by now rewrite H. clear H.
    unfold local. destruct (o_kind (r_op r)).
    + destruct (_ <=? _); [apply ops_goto; [one|exact I]|].
      destruct (in_cache _ _ _ _); [apply ops_goto; [one|exact I]|].
      destruct (f_wt f m); [|destruct (o_excl (r_op r))]; cbn [fst]; apply ops_fill; auto.
    + destruct (_ <=? _); [apply ops_goto; [one|exact I]|].
      destruct (f_wt f m); [apply ops_issue; auto|].
      destruct (o_excl (r_op r) && _); [apply ops_goto; [one|exact I]|].
      destruct (in_cache _ _ _ _).
      * destruct (negb (l_shared _)); [apply ops_goto; [one|exact I]|apply ops_issue; auto].
      * apply ops_fill; auto.
    + destruct (in_cache _ _ _ _ && _); [apply ops_issue_wb|apply ops_issue]; auto.
    + apply ops_issue; auto. destruct (in_cache _ _ _ _); auto.
    + apply ops_issue; auto. destruct (in_cache _ _ _ _); auto.
  - destruct (s_pc s m) eqn:E; try discriminate. assert (Hp : Q m r) by (apply I; now rewrite E).
    assert (s' = engine f s m r k) as -> by congruence. unfold engine.
    destruct (o_excl (r_op r)); [destruct k; try destruct (s_pos s m)|]; (apply ops_goto; [one|exact I]).
  - destruct (s_pc s m) eqn:E; try discriminate. assert (Hp : Q m r) by (apply I; now rewrite E).
    destruct (_ && _); [|discriminate]. destruct (handle_snoop _ _ _ _ _). injection H as <- <-.
    apply ops_goto; [one|exact I].
  - destruct (s_pc s m) eqn:E; try discriminate. assert (Hp : Q m r) by (apply I; now rewrite E).
    destruct todo; [|discriminate]. injection H as <- <-. apply ops_goto; [|exact I].
    destruct (x_ds x); one.
  - unfold downstream in H. destruct (s_pc s m) eqn:E; try discriminate;
      (assert (Hp : Q m r) by (apply I; now rewrite E)).
    + destruct (x_ds x); [|discriminate]. injection H as <- <-. apply ops_goto; [one|exact I].
    + destruct (x_ok x); [injection H as <- <-; apply ops_goto; [one|exact I]|].
      destruct k; injection H as <- <-; (apply ops_goto; [one|exact I]).
    + injection H as <- <-. apply ops_goto; [one|exact I].
  - unfold complete in H. destruct (s_pc s m) eqn:E; try discriminate;
      (assert (Hp : Q m r) by (apply I; now rewrite E));
      pose proof (ops_leave s m r Hp I) as I'; set (t := tx_leave f s m r) in *.
    + destruct k.
      1-4: destruct (o_kind (r_op r)); [destruct (_ && _)| | | |];
           injection H as <- <-; (apply ops_goto; [one|exact I']).
      * destruct (o_excl (r_op r)); [destruct (l_valid _ && x_ex x)|]; injection H as <- <-;
          (apply ops_goto; [one|exact I']).
      * destruct (o_excl (r_op r) && _); injection H as <- <-; (apply ops_goto; [one|exact I']).
      * injection H as <- <-. apply ops_goto; [one|exact I'].
      * injection H as <- <-. apply ops_goto; [one|exact I'].
      * injection H as <- <-. apply ops_goto; [one|exact I'].
      * injection H as <- <-. apply ops_goto; [one|exact I'].
      * injection H as <- <-. apply ops_goto; [one|exact I'].
    + injection H as <- <-. apply ops_issue; auto.
  - injection H as <- <-. exact I.
Qed.
End Ops.
Definition ops_ok (P : nat -> op -> Prop) : state -> Prop := runs_ok (fun m r => P m (r_op r)).

(** ** Transactions on the same line *)
Lemma range_in m r k :
  run_ok f r -> kind_ok f m r k ->
  tl f r <= fst (range_of f r k) /\
  fst (range_of f r k) + snd (range_of f r k) <= tl f r + cl /\
  (k <> K_WriteUnique -> range_of f r k = (tl f r, cl)).
Proof.
  intros [H1 H2] Hk. unfold op_ok in H1. unfold kind_ok in Hk.
  pose proof (align_off f (cur_addr r)) as Ea. pose proof (seg_len_line f r) as Hs. fold (tl f r) in Ea.
  destruct (o_kind (r_op r)) eqn:K.
  - assert (E : range_of f r k = (tl f r, cl)).
    { destruct Hk as [_ Hk]. destruct (f_wt f m); [subst k|destruct Hk; subst k]; reflexivity. }
    rewrite E. cbn. split; [lia|]. split; [lia|reflexivity].
  - destruct Hk as [_ Hk]. destruct (f_wt f m).
    + destruct Hk as [->|(-> & Hf & _)]; cbn [range_of fst snd].
      * split; [lia|]. split; [lia|congruence].
      * pose proof (seg_full f r Hf) as H0. split; [lia|]. split; [lia|]. intros _. f_equal; lia.
    + assert (E : range_of f r k = (tl f r, cl)) by (destruct Hk as [->|[->|[-> _]]]; reflexivity).
      rewrite E. cbn. split; [lia|]. split; [lia|reflexivity].
  - destruct H1 as [H1 H3]. subst k. cbn [range_of fst snd].
    assert (E : tl f r = o_addr (r_op r)) by (unfold tl, cur_addr; rewrite H2, N.add_0_r; exact H1).
    rewrite E, H3. split; [lia|]. split; [lia|reflexivity].
  - destruct H1 as [H1 H3]. subst k. cbn [range_of fst snd].
    assert (E : tl f r = o_addr (r_op r)) by (unfold tl, cur_addr; rewrite H2, N.add_0_r; exact H1).
    rewrite E, H3. split; [lia|]. split; [lia|reflexivity].
  - destruct H1 as [H1 H3]. subst k. cbn [range_of fst snd].
    assert (E : tl f r = o_addr (r_op r)) by (unfold tl, cur_addr; rewrite H2, N.add_0_r; exact H1).
    rewrite E, H3. split; [lia|]. split; [lia|reflexivity].
Qed.

Lemma snoop_addr_tl m r k : run_ok f r -> kind_ok f m r k -> snoop_addr f r k = tl f r.
Proof.
  intros Hr Hk. destruct (range_in m r k Hr Hk) as (H1 & H2 & H3).
  pose proof (range_pos f m r k Hr Hk) as Hp. unfold snoop_addr.
  set (g := fst (range_of f r k)) in *.
  assert (E : g = tl f r + (g - tl f r)) by lia. rewrite E. apply align_in; [apply align_align|lia].
Qed.

Definition views (s : state) : nat -> view := fun m => vw (s_pc s m).

Lemma view_tx_active p r k todo x fin :
  vw p = V_tx r k todo x fin -> active p = true.
Proof. destruct p; cbn; congruence. Qed.
Lemma view_tx_range s m r k todo x fin :
  views s m = V_tx r k todo x fin -> tx_range f s m = range_of f r k.
Proof. unfold views, tx_range. destruct (s_pc s m); cbn; congruence. Qed.
Lemma view_tx_ok s m r k todo x fin :
  InvO f s -> views s m = V_tx r k todo x fin -> run_ok f r /\ kind_ok f m r k.
Proof.
  intros I. pose proof (o_ok _ _ I m) as H. unfold views.
  destruct (s_pc s m); cbn in *; try discriminate; intro E; injection E as <- <- <- <- <-; tauto.
Qed.

Lemma same_line s m m' r k todo x fin r' k' todo' x' fin' :
  InvO f s -> m <> m' ->
  views s m = V_tx r k todo x fin -> views s m' = V_tx r' k' todo' x' fin' ->
  tl f r = tl f r' -> k = K_WriteUnique /\ k' = K_WriteUnique.
Proof.
  intros I N V V' T.
  pose proof (o_disj _ _ I m m' N (view_tx_active _ _ _ _ _ _ V) (view_tx_active _ _ _ _ _ _ V')) as D.
  rewrite (view_tx_range _ _ _ _ _ _ _ V), (view_tx_range _ _ _ _ _ _ _ V') in D.
  destruct (view_tx_ok _ _ _ _ _ _ _ I V) as [Hr Hk], (view_tx_ok _ _ _ _ _ _ _ I V') as [Hr' Hk'].
  pose proof (range_pos f m r k Hr Hk) as P. pose proof (range_pos f m' r' k' Hr' Hk') as P'.
  destruct (range_in m r k Hr Hk) as (A1 & A2 & A3), (range_in m' r' k' Hr' Hk') as (B1 & B2 & B3).
  pose proof (overlaps_spec (range_of f r k) (range_of f r' k') P P') as [_ S].
  rewrite D in S.
  assert (G : k = K_WriteUnique). 
  { destruct k; try reflexivity; exfalso; (rewrite A3 in * by discriminate); cbn [fst snd] in *;
      assert (false = true) by (apply S; lia); discriminate. }
  split; [exact G|].
  destruct k'; try reflexivity; exfalso; (rewrite B3 in * by discriminate); cbn [fst snd] in *;
      assert (false = true) by (apply S; lia); discriminate.
Qed.

(** ** Steps *)
Definition CohInv (s : state) : Prop := InvC f (lines (s_cache s)) (views s).

Lemma lines_put c m a l :
  forall j i, lines (updn c m (put_line f (c m) a l)) j i = upd2 (lines c) m (slot f a) l j i.
Proof.
  intros j i. unfold lines, upd2, put_line, set_line. destruct (Nat.eq_dec j m) as [->|N].
  - now rewrite !updn_eq.
  - now rewrite !updn_ne by auto.
Qed.
Lemma lines_same c m c' :
  c_line c' = c_line (c m) -> forall j i, lines (updn c m c') j i = lines c j i.
Proof.
  intros E j i. unfold lines. destruct (Nat.eq_dec j m) as [->|N]; [now rewrite updn_eq, E|now rewrite updn_ne by auto].
Qed.

Lemma views_goto s m p : forall i, views (goto s m p) i = updn (views s) m (vw p) i.
Proof.
  intro i. unfold views. cbn. destruct (Nat.eq_dec i m) as [->|N]; [now rewrite !updn_eq|now rewrite !updn_ne by auto].
Qed.
Lemma views_issue s m r k : forall i, views (issue f s m r k) i = updn (views s) m (V_pend r k) i.
Proof.
  intro i. unfold issue. destruct (is_overlapping _ _ _); rewrite views_goto; reflexivity.
Qed.
Lemma views_leave s m r : forall i, views (tx_leave f s m r) i = updn (views s) m V_none i.
Proof.
  intro i. unfold views. destruct (Nat.eq_dec i m) as [->|N].
  - now rewrite leave_pc_own, updn_eq.
  - rewrite updn_ne by auto. apply vw_woken. now apply leave_pc.
Qed.
Lemma updn_self {A} (g : nat -> A) m v : g m = v -> forall i, updn g m v i = g i.
Proof. intros E i. unfold updn. destruct (Nat.eqb_spec i m); congruence. Qed.
Lemma updn_twice {A} (g : nat -> A) m v w : forall i, updn (updn g m v) m w i = updn g m w i.
Proof. intro i. unfold updn. now destruct (Nat.eqb i m). Qed.

(** Goal [CohInv s'] where lines and views of [s'] agree pointwise with a known invariant. *)
Lemma coh_by s' L V :
  InvC f L V -> (forall j i, lines (s_cache s') j i = L j i) -> (forall j, views s' j = V j) -> CohInv s'.
Proof. intros I EL EV. now apply (InvC_ext f L _ V). Qed.

Lemma coh_goto s m p : CohInv s -> view_ok f (lines (s_cache s)) m (vw p) -> CohInv (goto s m p).
Proof.
  intros I H. apply (coh_by _ _ _ (InvC_view f _ _ m _ I H)); [reflexivity|apply views_goto].
Qed.
Lemma coh_issue s m r k :
  CohInv s -> pend_ok f (lines (s_cache s)) m r k -> CohInv (issue f s m r k).
Proof.
  intros I H. apply (coh_by _ _ _ (InvC_view f _ _ m (V_pend r k) I H)); [|apply views_issue].
  now rewrite issue_cache.
Qed.
Lemma coh_issue_wb s m r c k :
  CohInv s -> view_ok f (lines (s_cache s)) m (V_wb r k false) -> CohInv (issue_wb s m r c k).
Proof.
  intros I H. apply (coh_by _ _ _ (InvC_view f _ _ m _ I H)); [reflexivity|].
  unfold issue_wb. intro i. rewrite views_goto. reflexivity.
Qed.
(** weakening one line of a process that is not writing back *)
Lemma coh_weaken s m a l :
  CohInv s -> writing (s_pc s m) = false -> line_le l (get_line f (s_cache s m) a) ->
  CohInv (cache_to s m (put_line f (s_cache s m) a l)).
Proof.
  intros I W H. eapply coh_by; [|apply lines_put|reflexivity].
  eapply InvC_shrink; [|intros j Wj i|exact I].
  - intros. apply upd2_le. exact H.
  - destruct (Nat.eq_dec j m) as [->|N]; [|now rewrite upd2_ne by auto].
    unfold views in Wj. rewrite vw_writing in Wj. cbn in Wj. congruence.
Qed.
Lemma coh_same_lines s m c' :
  c_line c' = c_line (s_cache s m) -> CohInv s -> CohInv (cache_to s m c').
Proof. intros E I. apply (coh_by _ _ _ I); [now apply lines_same|reflexivity]. Qed.
Lemma coh_mem s w : CohInv s -> CohInv (st_mem s w).
Proof. intro I. exact I. Qed.

Lemma le_invalid l : line_le (set_valid l false) l.
Proof. repeat split; cbn; discriminate. Qed.

Lemma pend_trivial L m r k : fills k = false -> k <> K_CleanUnique -> pend_ok f L m r k.
Proof. intros F N. split; congruence. Qed.

Lemma coh_fill s m r k :
  CohInv s -> writing (s_pc s m) = false -> fills k = true -> CohInv (fill f s m r k).
Proof.
  intros I W F. unfold fill. pose proof (index_tl f r) as Ex.
  destruct (l_valid _) eqn:Lv; [destruct (l_dirty _) eqn:Ld|].
  - apply coh_issue_wb; [now apply coh_same_lines|].
    cbn [view_ok]. cbn [s_cache cache_to st_cache].
    assert (El : lines (updn (s_cache s) m (mkCache (c_line (s_cache s m)) (negb (c_toggle (s_cache s m))) (c_mon (s_cache s m)))) m
                 (index f (tl f r)) = get_line f (s_cache s m) (cur_addr r)) by (rewrite lines_same by reflexivity; reflexivity).
    rewrite El. auto.
  - apply coh_issue; [apply coh_weaken; auto using le_invalid|].
    split; [|intros ->; discriminate]. intros _. cbn [s_cache cache_to st_cache].
    rewrite lines_put, <- Ex, upd2_eq. reflexivity.
  - apply coh_issue; [exact I|]. split; [|intros ->; discriminate]. intros _. exact Lv.
Qed.

Definition plain (_ : nat) (o : op) : Prop := op_ok f o /\ o_excl o = false.

Lemma in_cache_line c a sec :
  in_cache f c a sec = true ->
  l_valid (get_line f c a) = true /\ l_tag (get_line f c a) = align f a /\ l_sec (get_line f c a) = sec.
Proof.
  unfold in_cache, line_is. rewrite !andb_true_iff, N.eqb_eq, Bool.eqb_true_iff. tauto.
Qed.

Lemma coh_store s m r :
  CohInv s -> vw (s_pc s m) = V_none ->
  l_valid (get_line f (s_cache s m) (cur_addr r)) = true ->
  l_shared (get_line f (s_cache s m) (cur_addr r)) = false ->
  CohInv (fst (store_here f s m r)).
Proof.
  intros I V Hv Hs. unfold store_here. cbn [fst].
  set (l' := write_line f (get_line f (s_cache s m) (cur_addr r)) r true).
  assert (I1 : CohInv (cache_to s m (put_line f (s_cache s m) (cur_addr r) l'))).
  { eapply coh_by; [|apply lines_put|reflexivity].
    apply InvC_dirtied; auto. }
  apply coh_goto; [|exact Logic.I].
  destruct (o_excl _); [|exact I1].
  apply (coh_by _ _ _ I1); [|reflexivity]. intros j i. cbn. unfold lines.
  destruct (Nat.eq_dec j m) as [->|N]; [now rewrite !updn_eq|now rewrite !updn_ne by auto].
Qed.

Lemma local_coh s m r :
  s_pc s m = Head r -> o_excl (r_op r) = false -> run_ok f r ->
  CohInv s -> CohInv (fst (local f s m r)).
Proof.
  intros E X Hr I.
  assert (W : writing (s_pc s m) = false) by now rewrite E.
  assert (V : vw (s_pc s m) = V_none) by now rewrite E.
  unfold local. rewrite X. cbn [andb].
  destruct (o_kind (r_op r)).
  - destruct (_ <=? _); [now apply coh_goto|].
    destruct (in_cache _ _ _ _); [now apply coh_goto|].
    destruct (f_wt f m); cbn [fst]; [apply coh_fill; auto|].
    apply coh_fill; auto; [now apply coh_same_lines|]. destruct (negb _); reflexivity.
  - destruct (_ <=? _); [now apply coh_goto|].
    destruct (f_wt f m); cbn [fst].
    { apply coh_issue; auto. apply pend_trivial; destruct (_ && _); reflexivity || discriminate. }
    destruct (in_cache _ _ _ _) eqn:Ic.
    + apply in_cache_line in Ic as (H1 & H2 & H3).
      destruct (l_shared _) eqn:Sh; cbn [negb fst]; [|now apply coh_store].
      apply coh_issue; auto. split; [discriminate|]. intros _. split; [exact H2|exact H3].
    + apply coh_fill; auto. destruct (_ =? _); reflexivity.
  - destruct (in_cache _ _ _ _) eqn:Ic; cbn [andb].
    + apply in_cache_line in Ic as (H1 & H2 & H3).
      destruct (l_dirty _) eqn:Ld; cbn [fst].
      * apply coh_issue_wb; auto. cbn [view_ok]. change (lines (s_cache s) m (index f (tl f r))) with
          (get_line f (s_cache s m) (cur_addr r)).
        split; [exact H1|]. split; [exact Ld|]. right. split; [reflexivity|]. split; [exact H2|exact H3].
      * apply coh_issue; auto. now apply pend_trivial.
    + apply coh_issue; auto. now apply pend_trivial.
  - cbn [fst]. apply coh_issue; [|now apply pend_trivial].
    destruct (in_cache _ _ _ _); [apply coh_weaken; auto using le_invalid|exact I].
  - cbn [fst]. apply coh_issue; [|now apply pend_trivial].
    destruct (in_cache _ _ _ _); [apply coh_weaken; auto using le_invalid|exact I].
Qed.

Lemma coh_view s m : CohInv s -> view_ok f (lines (s_cache s)) m (vw (s_pc s m)).
Proof. intros [_ H]. apply H. Qed.

Lemma in_others m j : In j (others f m) <-> (j < f_nm f)%nat /\ j <> m.
Proof. unfold others. rewrite in_drop, in_seq. split; intros [H1 H2]; (split; [lia|exact H2]). Qed.

Lemma tx_start L m r k : base f L -> tx_ok f L m r k (others f m) (tx0 false).
Proof.
  intro B.
  assert (G : forall j, j <> m -> ~ In j (others f m) -> ~ holds f L j (sc r) (tl f r)).
  { intros j N1 N2 H. apply holds_iff in H as (H & _). rewrite (b_nm _ _ B) in H; [discriminate|].
    rewrite in_others in N2. lia. }
  constructor; cbn.
  - intros j N1 N2 H. exfalso. now apply (G j).
  - discriminate.
  - intros [H|H]; congruence.
  - intros _ _. exact G.
  - intros _. split; congruence.
Qed.

(** transactions being snooped only ask caches of other masters *)
Definition todo_ok (s : state) : Prop :=
  forall m r k todo x, s_pc s m = Snooping r k todo x -> forall j, In j todo -> In j (others f m).
Lemma todo_step s lb s' es :
  step f s lb = Some (s', es) -> todo_ok s -> todo_ok s'.
Proof.
  assert (Q : forall s s', (forall i, s_pc s' i = s_pc s i \/
             match s_pc s' i with Snooping _ _ todo _ => forall j, In j todo -> In j (others f i) | _ => True end) ->
             todo_ok s -> todo_ok s').
  { intros s1 s2 H T m r k todo x E j Hj. destruct (H m) as [X|X].
    - rewrite X in E. eapply T; eauto.
    - rewrite E in X. auto. }
  assert (G : forall s1 m p s0, s_pc s1 = s_pc s0 ->
             match p with Snooping _ _ todo _ => forall j, In j todo -> In j (others f m) | _ => True end ->
             todo_ok s0 -> todo_ok (goto s1 m p)).
  { intros s1 m p s0 E Hp T. apply (Q s0); [|exact T]. intro i. cbn. rewrite E.
    destruct (Nat.eq_dec i m) as [->|N]; [rewrite updn_eq; now right|rewrite updn_ne by auto; now left]. }
  assert (Gi : forall s1 m r k s0, s_pc s1 = s_pc s0 -> todo_ok s0 -> todo_ok (issue f s1 m r k)).
  { intros s1 m r k s0 E T. unfold issue. destruct (is_overlapping _ _ _); (eapply G; [|exact Logic.I|exact T]); exact E. }
  assert (Gf : forall s1 m r k s0, s_pc s1 = s_pc s0 -> todo_ok s0 -> todo_ok (fill f s1 m r k)).
  { intros s1 m r k s0 E T. unfold fill, issue_wb. destruct (l_valid _); [destruct (l_dirty _)|];
      [eapply G; [|exact Logic.I|exact T]| |]; try (eapply Gi; [|exact T]); exact E. }
  assert (Gl : forall s0 m r, todo_ok s0 -> todo_ok (tx_leave f s0 m r)).
  { intros s0 m r T. apply (Q s0); [|exact T]. intro i. destruct (Nat.eq_dec i m) as [->|N].
    - rewrite leave_pc_own. now right.
    - destruct (leave_pc f s0 m r i N) as [X|(r1 & k & X & Y)]; [now left|rewrite Y; now right]. }
  intros H I. destruct lb as [m o|m|m|m j|m|m|m|]; cbn [step] in H.
  - destruct (s_pc s m); try discriminate. destruct (m <? f_nm f)%nat; [|discriminate].
    injection H as <- <-. now apply (G s m _ s).
  - destruct (s_pc s m) eqn:E; try discriminate.
    injection H as H. assert (s' = fst (local f s m r)) as -> by now rewrite H. clear H.
    unfold local. destruct (o_kind (r_op r)).
    + destruct (_ <=? _); [now apply (G s m _ s)|].
      destruct (in_cache _ _ _ _); [now apply (G s m _ s)|].
      destruct (f_wt f m); [|destruct (o_excl (r_op r))]; cbn [fst]; apply (Gf _ _ _ _ s); auto.
    + destruct (_ <=? _); [now apply (G s m _ s)|].
      destruct (f_wt f m); [apply (Gi _ _ _ _ s); auto|].
      destruct (o_excl (r_op r) && _); [now apply (G s m _ s)|].
      destruct (in_cache _ _ _ _).
      * destruct (negb (l_shared _)); [now apply (G _ m _ s)|apply (Gi _ _ _ _ s); auto].
      * apply (Gf _ _ _ _ s); auto.
    + destruct (in_cache _ _ _ _ && _); [now apply (G _ m _ s)|apply (Gi _ _ _ _ s); auto].
    + apply (Gi _ _ _ _ s); auto. destruct (in_cache _ _ _ _); auto.
    + apply (Gi _ _ _ _ s); auto. destruct (in_cache _ _ _ _); auto.
  - destruct (s_pc s m) eqn:E; try discriminate.
    assert (s' = engine f s m r k) as -> by congruence. unfold engine.
    destruct (o_excl (r_op r)); [destruct k; try destruct (s_pos s m)|]; (apply (G _ m _ s); auto).
  - destruct (s_pc s m) eqn:E; try discriminate.
    destruct (_ && _); [|discriminate]. destruct (handle_snoop _ _ _ _ _). injection H as <- <-.
    apply (G _ m _ s); auto. intros i Hi. apply in_drop in Hi as [Hi _]. eapply I; eauto.
  - destruct (s_pc s m) eqn:E; try discriminate.
    destruct todo; [|discriminate]. injection H as <- <-. apply (G _ m _ s); auto.
    destruct (x_ds x); exact Logic.I.
  - unfold downstream in H. destruct (s_pc s m) eqn:E; try discriminate.
    + destruct (x_ds x); [|discriminate]. injection H as <- <-. now apply (G _ m _ s).
    + destruct (x_ok x); [injection H as <- <-; now apply (G _ m _ s)|].
      destruct k; injection H as <- <-; now apply (G _ m _ s).
    + injection H as <- <-. now apply (G _ m _ s).
  - unfold complete in H. destruct (s_pc s m) eqn:E; try discriminate;
      pose proof (Gl s m r I) as I'; set (t := tx_leave f s m r) in *.
    + destruct k.
      1-4: destruct (o_kind (r_op r)); [destruct (_ && _)| | | |];
           injection H as <- <-; now apply (G _ m _ t).
      * destruct (o_excl (r_op r)); [destruct (l_valid _ && x_ex x)|]; injection H as <- <-; now apply (G _ m _ t).
      * destruct (o_excl (r_op r) && _); injection H as <- <-; now apply (G _ m _ t).
      * injection H as <- <-. now apply (G _ m _ t).
      * injection H as <- <-. now apply (G _ m _ t).
      * injection H as <- <-. now apply (G _ m _ t).
      * injection H as <- <-. now apply (G _ m _ t).
      * injection H as <- <-. now apply (G _ m _ t).
    + injection H as <- <-. now apply (Gi _ _ _ _ t).
  - injection H as <- <-. exact I.
Qed.

(** after the last snoop no other cache holds a line an invalidating transaction asks for *)
Lemma no_holders L m r k x :
  tx_ok f L m r k [] x -> sharing k = false -> forall j, j <> m -> ~ holds f L j (sc r) (tl f r).
Proof.
  intros T S j N H. destruct (t_share _ _ _ _ _ _ _ T j N (fun x => x) H) as (X & _). congruence.
Qed.

Lemma step_coh s lb s' es :
  label_ok plain lb -> step f s lb = Some (s', es) ->
  InvO f s -> ops_ok plain s -> todo_ok s -> CohInv s -> CohInv s'.
Proof.
  intros HL H O P T I. destruct lb as [m o|m|m|m j|m|m|m|]; cbn [label_ok] in HL; cbn [step] in H.
  - destruct (s_pc s m) eqn:E; try discriminate. destruct (m <? f_nm f)%nat; [|discriminate].
    injection H as <- <-. now apply coh_goto.
  - destruct (s_pc s m) eqn:E; try discriminate.
    injection H as H. assert (s' = fst (local f s m r)) as -> by now rewrite H. clear H.
    apply local_coh; auto.
    + apply (P m r). now rewrite E.
    + pose proof (o_ok _ _ O m) as K. now rewrite E in K.
  - destruct (s_pc s m) eqn:E; try discriminate.
    assert (s' = engine f s m r k) as -> by congruence.
    assert (X : o_excl (r_op r) = false) by (apply (P m r); now rewrite E).
    unfold engine. rewrite X. apply coh_goto; [exact I|]. pose proof (coh_view _ m I) as Hv. rewrite E in Hv.
    split; [exact Hv|]. apply tx_start. apply I.
  - destruct (s_pc s m) eqn:E; try discriminate.
    destruct (_ && _) eqn:C; [|discriminate].
    apply andb_prop in C as [C1 C2]. apply existsb_nat in C1. apply negb_true_iff in C2.
    pose proof (o_ok _ _ O m) as K. rewrite E in K. destruct K as [Hr Hk].
    rewrite (snoop_addr_tl m r k Hr Hk) in H.
    destruct (handle_snoop _ _ _ _ _) as [c' p] eqn:Hs. injection H as <- <-.
    assert (Nj : j <> m) by (pose proof (T m r k todo x E j C1) as Q; apply in_others in Q; tauto).
    pose proof (coh_view _ m I) as Hv. rewrite E in Hv. destruct Hv as [Hp Ht].
    pose proof (snoop_line f (snoop_of k) (s_cache s j) (tl f r) (sc r)) as Sl.
    unfold sc in Sl. rewrite Hs in Sl. cbn [fst] in Sl.
    set (L := lines (s_cache s)) in *. set (L' := updn L j (c_line c')).
    assert (Le : forall a i, line_le (L' a i) (L a i)).
    { intros a i. unfold L'. destruct (Nat.eq_dec a j) as [->|N]; [rewrite updn_eq; apply Sl|].
      rewrite updn_ne by auto. apply line_le_refl. }
    assert (I' : InvC f L' (views s)).
    { eapply InvC_shrink; [exact Le| |exact I]. intros a Wa i. unfold L'.
      destruct (Nat.eq_dec a j) as [->|N]; [|now rewrite updn_ne by auto].
      unfold views in Wa. rewrite vw_writing in Wa. congruence. }
    eapply coh_by; [apply (InvC_view f L' (views s) m (V_tx r k (filter (fun i => negb (Nat.eqb i j)) todo) (port_done k x p) false) I')| |].
    + split; [now apply (pend_shrink f L L' Le)|].
      apply (tx_snooped f L m r k todo x j c' p) with (c := s_cache s j); auto.
      * apply I.
      * apply I'.
      * now apply (tx_shrink f L L' Le).
    + intros a i. cbn. unfold L', L, lines.
      destruct (Nat.eq_dec a j) as [->|N]; [now rewrite !updn_eq|now rewrite !updn_ne by auto].
    + intro i. now rewrite views_goto.
  - destruct (s_pc s m) eqn:E; try discriminate. destruct todo; [|discriminate].
    injection H as <- <-. pose proof (coh_view _ m I) as Hv. rewrite E in Hv.
    apply coh_goto; [exact I|]. destruct (x_ds x); exact Hv.
  - unfold downstream in H. pose proof (coh_view _ m I) as Hv. pose proof (o_ok _ _ O m) as K.
    destruct (s_pc s m) eqn:E; try discriminate.
    + destruct (x_ds x) eqn:Ex; [|discriminate]. injection H as <- <-. apply coh_goto; [exact I|].
      destruct Hv as [Hp Ht]. split; [exact Hp|]. cbn. constructor; cbn.
      * apply (t_share _ _ _ _ _ _ _ Ht).
      * apply (t_dirty _ _ _ _ _ _ _ Ht).
      * intros [Q|Q]; [|congruence]. apply (t_data _ _ _ _ _ _ _ Ht). now left.
      * apply (t_none _ _ _ _ _ _ _ Ht).
      * apply (t_ok _ _ _ _ _ _ _ Ht).
    + assert (G : forall s1, s_cache s1 = s_cache s -> s_pc s1 = s_pc s ->
                   CohInv (goto s1 m (Finished r k x))).
      { intros s1 E1 E2. apply coh_goto; [unfold CohInv, views; rewrite E1, E2; exact I|].
        rewrite E1. exact Hv. }
      destruct (x_ok x) eqn:Ok; [injection H as <- <-; now apply G|].
      destruct K as (_ & _ & Hds). destruct Hv as [Hp Ht].
      assert (Gr : reads k = true -> forall d, CohInv (goto s m (Finished r k (mkTx (x_shared x) (x_dirty x) (Some d) (x_ds x) true (x_ex x))))).
      { intros R d. apply coh_goto; [exact I|]. split; [exact Hp|].
        assert (Nd : x_data x = None).
        { destruct (x_data x) eqn:Q; [|reflexivity]. pose proof (proj2 (t_ok _ _ _ _ _ _ _ Ht R)) as Y.
          rewrite Q, Ok in Y. exfalso. assert (false = true) by (apply Y; discriminate). discriminate. }
        constructor; cbn.
        - apply (t_share _ _ _ _ _ _ _ Ht).
        - intro D. destruct (t_dirty _ _ _ _ _ _ _ Ht D) as (D1 & D2 & D3). split; [discriminate|auto].
        - intros _ a Na Ha. exfalso. apply (t_none _ _ _ _ _ _ _ Ht R Nd a Na (fun x => x) Ha).
        - discriminate.
        - intros _. split; [discriminate|reflexivity]. }
      destruct k; injection H as <- <-; try (apply Gr; reflexivity); now apply G.
    + injection H as <- <-. apply coh_goto; [exact I|]. exact Hv.
  - unfold complete in H. pose proof (coh_view _ m I) as Hv. pose proof (o_ok _ _ O m) as K.
    assert (Hm : idle (s_pc s m) = false -> (m < f_nm f)%nat) by apply (o_nm _ _ O).
    pose proof (leave_cache f s m) as Ec.
    destruct (s_pc s m) eqn:E; try discriminate; specialize (Hm eq_refl).
    + pose proof (views_leave s m r) as Ev. specialize (Ec r).
      set (t := tx_leave f s m r) in *. destruct K as (Hr & Hk & Hds & Hok). destruct Hv as [Hp Ht].
      assert (It : CohInv t).
      { apply (coh_by t _ _ (InvC_view f _ _ m V_none I Logic.I)); [now rewrite Ec|exact Ev]. }
      assert (Vt : views t m = V_none) by (rewrite Ev; apply updn_eq).
      assert (X : o_excl (r_op r) = false) by (apply (P m r); now rewrite E).
      assert (Alone : k <> K_WriteUnique -> forall j r' k' todo x' fin, j <> m -> views t j = V_tx r' k' todo x' fin -> tl f r' <> tl f r).
      { intros Nk j r' k' todo x' fin Nj Vj Et. rewrite Ev, updn_ne in Vj by auto.
        destruct (same_line s m j r k [] x true r' k' todo x' fin O (not_eq_sym Nj)) as [Q _]; auto.
        unfold views. now rewrite E. }
      assert (Up : forall l, k <> K_WriteUnique -> l_valid l = true -> l_tag l = tl f r -> l_sec l = sc r ->
          (forall j, j <> m -> holds f (lines (s_cache s)) j (sc r) (tl f r) ->
             l_shared (lines (s_cache s) j (index f (tl f r))) = true /\ l_shared l = true /\
             (l_dirty l = true -> l_dirty (lines (s_cache s) j (index f (tl f r))) = false)) ->
          CohInv (cache_to t m (put_line f (s_cache t m) (cur_addr r) l))).
      { intros l Nk Lv Lt Ls Hs. eapply coh_by; [|apply lines_put|reflexivity].
        rewrite index_tl. apply InvC_upgrade; auto.
        - apply align_align.
        - apply Alone. exact Nk.
        - rewrite Ls. unfold lines in *. rewrite Ec. exact Hs. }
      rewrite X in H. cbn [andb] in H.
      assert (Rd : reads k = true -> k <> K_WriteUnique ->
         CohInv (goto (cache_to t m (put_line f (s_cache t m) (cur_addr r)
             (fill_line f (get_line f (s_cache t m) (cur_addr r)) r k x))) m (Head r))).
      { intros R Nk. apply coh_goto; [|exact Logic.I]. apply Up; auto.
        intros j Nj Hj. destruct (t_share _ _ _ _ _ _ _ Ht j Nj (fun x => x) Hj) as (S1 & S2 & S3).
        split; [exact S2|]. split; [exact S3|]. cbn. intro D.
        assert (D' : x_dirty x = true) by (destruct k; congruence).
        destruct (t_dirty _ _ _ _ _ _ _ Ht D') as (_ & _ & D3). now apply D3. }
      destruct k.
      1-4: assert (s' = goto (cache_to t m (put_line f (s_cache t m) (cur_addr r)
             (fill_line f (get_line f (s_cache t m) (cur_addr r)) r _ x))) m (Head r)) as ->
             by (destruct (o_kind (r_op r)); injection H as <- <-; reflexivity);
           apply Rd; [reflexivity|discriminate].
      * injection H as <- <-. apply coh_goto; [|exact Logic.I].
        destruct (l_valid _) eqn:Lv; [|apply coh_same_lines; [reflexivity|exact It]].
        destruct Hp as [_ Hp]. destruct (Hp eq_refl) as [Et Es].
        apply Up; auto; try discriminate; unfold get_line; cbn; rewrite ?Ec; auto.
        intros j Nj Hj. exfalso. apply (no_holders _ _ _ _ _ Ht eq_refl j Nj Hj).
      * injection H as <- <-.
        match goal with |- CohInv (goto (cache_to (cache_to t m ?c) m ?c2) m _) =>
          assert (Iu : CohInv (cache_to t m c)) end.
        { apply Up; auto; try discriminate. intros j Nj Hj. exfalso.
          apply (no_holders _ _ _ _ _ Ht eq_refl j Nj Hj). }
        apply (coh_store _ m r) in Iu.
        -- exact Iu.
        -- exact Vt.
        -- unfold get_line. cbn. rewrite updn_eq. cbn. now rewrite updN_eq.
        -- unfold get_line. cbn. rewrite updn_eq. cbn. now rewrite updN_eq.
      * injection H as <- <-. apply coh_goto; [|exact Logic.I].
        destruct (_ && in_cache _ _ _ _); [|apply coh_same_lines; [reflexivity|exact It]].
        apply coh_weaken; auto; [now rewrite <- vw_writing; fold (views t m); rewrite Vt|].
        repeat split; cbn; auto; discriminate.
      * injection H as <- <-. apply coh_goto; [|exact Logic.I].
        destruct (in_cache _ _ _ _); [|apply coh_same_lines; [reflexivity|exact It]].
        apply coh_weaken; auto; [now rewrite <- vw_writing; fold (views t m); rewrite Vt|].
        repeat split; cbn; auto; discriminate.
      * injection H as <- <-. now apply coh_goto.
      * injection H as <- <-. now apply coh_goto.
      * injection H as <- <-. now apply coh_goto.
    + injection H as <- <-. pose proof (views_leave s m r) as Ev. specialize (Ec r).
      set (t := tx_leave f s m r) in *. destruct Hv as (Lv & Ld & Hn).
      assert (It : CohInv t).
      { apply (coh_by t _ _ (InvC_view f _ _ m V_none I Logic.I)); [now rewrite Ec|exact Ev]. }
      assert (Vt : views t m = V_none) by (rewrite Ev; apply updn_eq).
      assert (Wt : writing (s_pc t m) = false) by (rewrite <- vw_writing; fold (views t m); now rewrite Vt).
      assert (Hf : fills next = true \/ next = K_CleanShared) by tauto.
      set (l := get_line f (s_cache t m) (cur_addr r)).
      apply coh_issue.
      * apply coh_weaken; auto. destruct Hf as [Hf| ->].
        -- destruct next; try discriminate; (split; [|split]; [destruct clean; reflexivity|destruct clean; reflexivity|cbn; discriminate]).
        -- repeat split; cbn; auto; discriminate.
      * destruct Hf as [Hf| ->]; [|now apply pend_trivial].
        split; [|intros ->; discriminate]. intros _. cbn [s_cache cache_to st_cache].
        rewrite lines_put, <- index_tl, upd2_eq. destruct next; try discriminate; reflexivity.
  - injection H as <- <-. exact I.
Qed.

Lemma init_coh w d : CohInv (init w d).
Proof.
  split; [constructor|].
  - reflexivity.
  - discriminate.
  - intros i j sec t _ H. apply holds_iff in H as (H & _). discriminate.
  - intro m. exact Logic.I.
Qed.
Lemma init_ops P w d : ops_ok P (init w d).
Proof. intros m r H. discriminate. Qed.
Lemma init_todo w d : todo_ok (init w d).
Proof. intros m r k todo x H. discriminate. Qed.

Lemma plain_ok lb : label_ok plain lb -> label_ok (fun _ => op_ok f) lb.
Proof. destruct lb; cbn; auto. intros [H _]. exact H. Qed.

Lemma exec_coh ls s s' es :
  Forall (label_ok plain) ls -> exec f s ls = Some (s', es) ->
  InvO f s -> InvB f s -> ops_ok plain s -> todo_ok s -> CohInv s -> CohInv s'.
Proof.
  revert s es. induction ls as [|lb ls IH]; intros s es HL H O B P T I; cbn [exec] in H.
  - injection H as <- <-. exact I.
  - inversion HL as [|? ? L1 L2]; subst. destruct (step f s lb) as [[s1 e1]|] eqn:E; [|discriminate].
    destruct (exec f s1 ls) as [[s2 e2]|] eqn:E2; [|discriminate]. injection H as <- <-.
    destruct (step_OB f s lb s1 e1 (plain_ok _ L1) E O B) as [O1 B1].
    apply (IH s1 e2); auto.
    + apply (step_ops (fun m r => plain m (r_op r))) with (s := s) (lb := lb) (es := e1); auto.
    + eapply todo_step; eauto.
    + eapply step_coh; eauto.
Qed.

Lemma coh_single_writer s : CohInv s -> single_writer (held_by f s).
Proof.
  intros [B _] i j [sec t] hi hj N Hi Hj. unfold held_by in *. cbn [fst snd] in *.
  destruct (line_is (get_line f (s_cache s i) t) t sec) eqn:Ei; [|discriminate].
  destruct (line_is (get_line f (s_cache s j) t) t sec) eqn:Ej; [|discriminate].
  injection Hi as <-. injection Hj as <-. cbn.
  assert (At : align f t = t).
  { unfold line_is in Ei. rewrite !andb_true_iff, N.eqb_eq in Ei. destruct Ei as [[V Et] _].
    destruct (b_tag _ _ B i _ V) as [_ A]. unfold lines, get_line in *. now rewrite Et in A. }
  unfold get_line, slot in *. rewrite At in *.
  destruct (b_sw _ _ B i j sec t N Ei Ej) as [S1 D1].
  destruct (b_sw _ _ B j i sec t (not_eq_sym N) Ej Ei) as [S2 _]. auto.
Qed.

End CohStep.
