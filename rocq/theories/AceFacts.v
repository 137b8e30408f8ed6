(** Arithmetic of cache lines and the effect of the model's helper functions on
    the parts of the state. *)
From Verif Require Import Base TlmModel TlmSpec AceSpec AceModel.
Open Scope N_scope.

Lemma updN_eq {A} (g : N -> A) i v : updN g i v i = v.
Proof. unfold updN. now rewrite N.eqb_refl. Qed.
Lemma updN_ne {A} (g : N -> A) i j v : j <> i -> updN g i v j = g j.
Proof. unfold updN. destruct (N.eqb_spec j i); congruence. Qed.
Lemma updn_eq {A} (g : nat -> A) i v : updn g i v i = v.
Proof. unfold updn. now rewrite Nat.eqb_refl. Qed.
Lemma updn_ne {A} (g : nat -> A) i j v : j <> i -> updn g i v j = g j.
Proof. unfold updn. destruct (Nat.eqb_spec j i); congruence. Qed.

Lemma existsb_nat j l : existsb (Nat.eqb j) l = true <-> In j l.
Proof.
  rewrite existsb_exists. split.
  - intros (x & Hx & E). apply Nat.eqb_eq in E. now subst.
  - intro H. exists j. split; [exact H|apply Nat.eqb_refl].
Qed.
Lemma in_drop j i l : In j (filter (fun x => negb (Nat.eqb x i)) l) <-> In j l /\ j <> i.
Proof.
  rewrite filter_In. split; intros [H H']; (split; [exact H|]).
  - intro. subst. now rewrite Nat.eqb_refl in H'.
  - destruct (Nat.eqb_spec j i); [contradiction|reflexivity].
Qed.

Section Facts.
Context (f : cfg).
Notation cl := (cl f).
Notation align := (align f).

Lemma cl_pos : 0 < cl.
Proof. unfold AceModel.cl. pose proof (N.pow_nonzero 2 (f_k f)). lia. Qed.

Lemma align_eq a : align a = cl * (a / cl).
Proof.
  unfold AceModel.align, AceModel.cl. rewrite N.ldiff_ones_r, N.shiftl_mul_pow2, N.shiftr_div_pow2. lia.
Qed.
Lemma line_off_eq a : line_off f a = a mod cl.
Proof. unfold line_off, AceModel.cl. apply N.land_ones. Qed.
Lemma align_off a : a = align a + line_off f a.
Proof.
  rewrite align_eq, line_off_eq. apply N.div_mod. pose proof cl_pos. lia.
Qed.
Lemma line_off_lt a : line_off f a < cl.
Proof. rewrite line_off_eq. apply N.mod_lt. pose proof cl_pos. lia. Qed.
Lemma align_in t o : align t = t -> o < cl -> align (t + o) = t.
Proof.
  intros H Ho. rewrite align_eq in *. pose proof cl_pos.
  assert (E : t + o = o + (t / cl) * cl) by lia.
  rewrite E, N.div_add, N.div_small by lia. lia.
Qed.
Lemma align_align a : align (align a) = align a.
Proof.
  rewrite (align_eq (align a)), (align_eq a). pose proof cl_pos.
  rewrite (N.mul_comm cl (a / cl)), N.div_mul by lia. lia.
Qed.
Lemma line_off_in t o : align t = t -> o < cl -> line_off f (t + o) = o.
Proof.
  intros H Ho. pose proof (align_off (t + o)) as E. rewrite (align_in t o H Ho) in E. lia.
Qed.
Lemma lines_apart t t' o o' :
  align t = t -> align t' = t' -> o < cl -> o' < cl -> t + o = t' + o' -> t = t' /\ o = o'.
Proof.
  intros H H' Ho Ho' E. assert (t = t').
  { rewrite <- (align_in t o H Ho), E. now apply align_in. }
  lia.
Qed.
(** distinct lines have disjoint address ranges *)
Lemma lines_disjoint t t' a :
  align t = t -> align t' = t' -> t <> t' -> t <= a < t + cl -> ~ (t' <= a < t' + cl).
Proof.
  intros H H' Hne Ha Ha'. apply Hne.
  destruct (lines_apart t t' (a - t) (a - t')); lia.
Qed.

Lemma seg_len_line r : line_off f (cur_addr r) + seg_len f r <= cl.
Proof. unfold seg_len. pose proof (line_off_lt (cur_addr r)). lia. Qed.
Lemma seg_len_pos r : r_pos r < o_len (r_op r) -> 0 < seg_len f r.
Proof. unfold seg_len. pose proof (line_off_lt (cur_addr r)). lia. Qed.
Lemma seg_len_le r : r_pos r + seg_len f r <= N.max (r_pos r) (o_len (r_op r)).
Proof. unfold seg_len. lia. Qed.
Lemma seg_full r : seg_len f r = cl -> line_off f (cur_addr r) = 0.
Proof. pose proof (seg_len_line r). lia. Qed.

(** ** Consecutive bytes *)
Lemma op_bytes_app o p n n' : op_bytes o p (n + n') = op_bytes o p n ++ op_bytes o (p + n) n'.
Proof.
  unfold op_bytes. rewrite N2Nat.inj_add, seq_app, map_app. f_equal.
  cbn [Nat.add]. rewrite <- (Nat.add_0_r (N.to_nat n)) at 1.
  rewrite Nat.add_comm.
  assert (G : forall k st, map (fun i => op_byte o (p + N.of_nat i)) (seq (st + N.to_nat n) k) =
              map (fun i => op_byte o (p + n + N.of_nat i)) (seq st k)).
  { induction k; intro st; cbn [seq map]; [reflexivity|]. f_equal.
    - f_equal. lia.
    - apply (IHk (S st)). }
  apply G.
Qed.

Lemma put_other l m a : (forall x, In x l -> a_addr x <> a) -> fold_left put l m a = m a.
Proof.
  revert m. induction l as [|x l IH]; intros m H; cbn; [reflexivity|].
  rewrite IH by (intros y Hy; apply H; now right).
  unfold put. destruct (a_en x); [|reflexivity]. unfold upd.
  destruct (N.eqb_spec a (a_addr x)) as [->|]; [|reflexivity].
  exfalso. now apply (H x); [left|].
Qed.

Lemma put_bytes o p n m a :
  fold_left put (op_bytes o p n) m a =
  if (o_addr o + p <=? a) && (a <? o_addr o + p + n) then
    let x := op_byte o (a - o_addr o) in if a_en x then a_byte x else m a
  else m a.
Proof.
  revert m. unfold op_bytes.
  assert (En : n = N.of_nat (N.to_nat n)) by lia. revert En. generalize (N.to_nat n). intros k ->.
  rename k into n.
  induction n as [|n IH]; intro m.
  - cbn. destruct (andb _ _) eqn:E; [lia|reflexivity].
  - rewrite seq_S, map_app, fold_left_app. cbn [map fold_left Nat.add].
    set (x := op_byte o (p + N.of_nat n)).
    assert (Hx : a_addr x = o_addr o + p + N.of_nat n) by (cbn; lia).
    unfold put at 1.
    destruct (N.eqb_spec a (o_addr o + p + N.of_nat n)) as [E|NE].
    + replace ((o_addr o + p <=? a) && (a <? o_addr o + p + N.of_nat (S n))) with true
        by (symmetry; apply andb_true_intro; lia).
      assert (Ex : op_byte o (a - o_addr o) = x).
      { unfold x. f_equal. lia. }
      cbv zeta. rewrite Ex. destruct (a_en x) eqn:En.
      * unfold upd. rewrite Hx, E, N.eqb_refl. reflexivity.
      * apply put_other. intros y Hy. apply in_map_iff in Hy as (i & <- & Hi).
        apply in_seq in Hi. cbn. lia.
    + assert (G : forall v, (if a_en x then upd v (a_addr x) (a_byte x) else v) a = v a).
      { intro v. destruct (a_en x); [|reflexivity]. unfold upd.
        destruct (N.eqb_spec a (a_addr x)); [congruence|reflexivity]. }
      rewrite G, IH.
      replace ((o_addr o + p <=? a) && (a <? o_addr o + p + N.of_nat (S n)))
        with ((o_addr o + p <=? a) && (a <? o_addr o + p + N.of_nat n)); [reflexivity|].
      destruct (N.leb_spec (o_addr o + p) a); cbn [andb]; [|reflexivity].
      destruct (N.ltb_spec a (o_addr o + p + N.of_nat n)), (N.ltb_spec a (o_addr o + p + N.of_nat (S n)));
        try reflexivity; lia.
Qed.

(** A write piece changes its line as [write_data] does and no other line. *)
Lemma piece_line r (d : N -> N) (m : mem) :
  (forall o, o < cl -> d o = m (align (cur_addr r) + o)) ->
  forall o, o < cl ->
    write_data f d r o = fold_left put (write_piece f r) m (align (cur_addr r) + o).
Proof.
  intros H o Ho. unfold write_data, write_piece. rewrite put_bytes.
  pose proof (align_off (cur_addr r)) as E. pose proof (seg_len_line r) as Hs.
  unfold cur_addr in E at 1. set (lo := line_off f (cur_addr r)) in *.
  set (t := align (cur_addr r)) in *. clearbody lo.
  replace ((o_addr (r_op r) + r_pos r <=? t + o) && (t + o <? o_addr (r_op r) + r_pos r + seg_len f r))
    with ((lo <=? o) && (o <? lo + seg_len f r)) by lia.
  destruct ((lo <=? o) && (o <? lo + seg_len f r)) eqn:C; [|now apply H].
  cbv zeta. replace (t + o - o_addr (r_op r)) with (r_pos r + (o - lo)) by lia.
  destruct (a_en _); [reflexivity|now apply H].
Qed.
Lemma piece_other r (m : mem) t :
  align t = t -> t <> align (cur_addr r) ->
  forall o, o < cl -> fold_left put (write_piece f r) m (t + o) = m (t + o).
Proof.
  intros Ht Hne o Ho. unfold write_piece. rewrite put_bytes.
  destruct (andb _ _) eqn:C; [|reflexivity]. exfalso.
  pose proof (align_off (cur_addr r)) as E. pose proof (seg_len_line r) as Hs.
  apply andb_prop in C as [C1 C2]. apply N.leb_le in C1. apply N.ltb_lt in C2.
  unfold cur_addr in E at 1.
  apply (lines_disjoint t (align (cur_addr r)) (t + o)); auto using align_align; lia.
Qed.
(** A full-line piece without disabled bytes determines the line. *)
Lemma piece_full r (d d' : N -> N) :
  seg_len f r = cl -> no_sparse f r = true ->
  forall o, o < cl -> write_data f d r o = write_data f d' r o.
Proof.
  intros Hs Hn o Ho. unfold write_data. rewrite (seg_full r Hs), Hs.
  replace ((0 <=? o) && (o <? 0 + cl)) with true by (symmetry; apply andb_true_intro; lia).
  cbv zeta. unfold no_sparse in Hn. rewrite forallb_forall in Hn.
  rewrite Hn; [reflexivity|]. unfold op_bytes. apply in_map_iff. exists (N.to_nat o).
  split; [f_equal; lia|]. apply in_seq. lia.
Qed.

(** ** What the helpers touch *)
Lemma issue_cache s m r k : s_cache (issue f s m r k) = s_cache s.
Proof. unfold issue. destruct (is_overlapping _ _ _); reflexivity. Qed.
Lemma issue_mem s m r k : s_mem (issue f s m r k) = s_mem s.
Proof. unfold issue. destruct (is_overlapping _ _ _); reflexivity. Qed.

Lemma restart_one_cache g s w : s_cache (restart_one f g s w) = s_cache s.
Proof. unfold restart_one. destruct (andb _ _); [destruct (s_pc s w)|]; reflexivity. Qed.
Lemma restart_one_mem g s w : s_mem (restart_one f g s w) = s_mem s.
Proof. unfold restart_one. destruct (andb _ _); [destruct (s_pc s w)|]; reflexivity. Qed.
Lemma restarts_cache g l s : s_cache (fold_left (restart_one f g) l s) = s_cache s.
Proof. revert s. induction l; intro s; cbn; [reflexivity|]. now rewrite IHl, restart_one_cache. Qed.
Lemma restarts_mem g l s : s_mem (fold_left (restart_one f g) l s) = s_mem s.
Proof. revert s. induction l; intro s; cbn; [reflexivity|]. now rewrite IHl, restart_one_mem. Qed.
Lemma leave_cache s m r : s_cache (tx_leave f s m r) = s_cache s.
Proof. unfold tx_leave. now rewrite restarts_cache. Qed.
Lemma leave_mem s m r : s_mem (tx_leave f s m r) = s_mem s.
Proof. unfold tx_leave. now rewrite restarts_mem. Qed.

(** [restart_one] only turns waiting processes into entered ones. *)
Definition woken (p p' : pc) : Prop :=
  p' = p \/ exists r k, p = Wait r k /\ p' = Entered r k.
Lemma woken_trans p q u : woken p q -> woken q u -> woken p u.
Proof.
  intros [->|(r & k & -> & ->)] [->|(r' & k' & E & ->)]; unfold woken; eauto; congruence.
Qed.
Lemma restart_one_pc g s w i : woken (s_pc s i) (s_pc (restart_one f g s w) i).
Proof.
  unfold restart_one, woken. destruct (andb _ _); [|now left].
  destruct (s_pc s w) eqn:E; try (now left). cbn.
  destruct (Nat.eq_dec i w) as [->|N]; [rewrite updn_eq, E; eauto|rewrite updn_ne by auto; now left].
Qed.
Lemma restarts_pc g l s i : woken (s_pc s i) (s_pc (fold_left (restart_one f g) l s) i).
Proof.
  revert s. induction l as [|w l IH]; intro s; cbn; [now left|].
  eapply woken_trans; [apply restart_one_pc|apply IH].
Qed.
Lemma leave_pc s m r i : i <> m -> woken (s_pc s i) (s_pc (tx_leave f s m r) i).
Proof.
  intro N. unfold tx_leave. eapply woken_trans; [|apply restarts_pc].
  cbn. rewrite updn_ne by auto. now left.
Qed.
Lemma leave_pc_own s m r : s_pc (tx_leave f s m r) m = Head r.
Proof.
  unfold tx_leave.
  match goal with |- s_pc (fold_left (restart_one f ?g) ?l ?s1) m = _ => pose proof (restarts_pc g l s1 m) as H end.
  cbn in H. rewrite updn_eq in H. destruct H as [->|(r' & k & E & _)]; [reflexivity|discriminate].
Qed.

End Facts.
