(** Property C23: CHI cache line fill tracking. *)
From Verif Require Import Base BaseFacts TlmModel CachelineModel CachelineSpec CachelineProofs.
Open Scope N_scope.

(** After any history the line is reported full exactly when every byte has been
    written or filled since the line was last emptied, empty exactly when none
    has, and every byte holds the last value stored. *)
Theorem C23_fill_tracking c ops :
  length (cl_data c) = LINE -> length (cl_be c) = LINE -> Forall in_line ops ->
  let valid0 i := nth i (cl_be c) 0 =? BE_ON in
  exists c', cl_run c ops = Ok c' /\
    (fill_grade c' = Full <-> forall i, (i < LINE)%nat -> byte_valid (valid0 i) ops i = true) /\
    (fill_grade c' = Empty <-> forall i, (i < LINE)%nat -> byte_valid (valid0 i) ops i = false) /\
    (forall i, (i < LINE)%nat -> nth i (cl_data c') 0 = byte_value (nth i (cl_data c) 0) ops i).
Proof.
  intros W1 W2 F valid0. destruct (run_bytes ops c (conj W1 W2) F) as [c' [E [W B]]].
  exists c'. split; [exact E|]. rewrite grade_full, grade_empty by exact W. unfold all_on, none_on, valid0.
  split; [|split].
  - split; intros H i Hi; destruct (B i Hi) as [_ V]; [rewrite <- V|rewrite V]; apply H, Hi.
  - split; intros H i Hi; destruct (B i Hi) as [_ V]; [rewrite <- V|rewrite V]; apply H, Hi.
  - intros i Hi. apply B, Hi.
Qed.

(** The reported CHI state is the one the flags and valid bytes mean, and the
    asserts fire only for the combinations CHI does not have. *)
Theorem C23_status c st : length (cl_data c) = LINE -> length (cl_be c) = LINE ->
  let all := forall i, (i < LINE)%nat -> nth i (cl_be c) 0 = BE_ON in
  let none := forall i, (i < LINE)%nat -> nth i (cl_be c) 0 <> BE_ON in
  get_status c = Ok st <-> chi_state (cl_valid c) (cl_shared c) (cl_dirty c) all none st.
Proof.
  intros W1 W2 all none. pose proof (grade_full c (conj W1 W2)) as GF.
  pose proof (grade_empty c (conj W1 W2)) as GE.
  assert (A : all_on c <-> all).
  { unfold all_on, all. split; intros H i Hi; specialize (H i Hi); [apply N.eqb_eq|]; [exact H|rewrite H; reflexivity]. }
  assert (E : none_on c <-> none).
  { unfold none_on, none. split; intros H i Hi; specialize (H i Hi).
    - apply N.eqb_neq, H.
    - apply N.eqb_neq, H. }
  rewrite A in GF. rewrite E in GE. clear A E.
  assert (NE : all -> none -> False).
  { intros H1 H2. assert (H0 : (0 < LINE)%nat) by (unfold LINE; lia). apply (H2 0%nat H0), H1, H0. }
  clearbody all none.
  unfold get_status.
  destruct (cl_valid c), (cl_shared c), (cl_dirty c); cbn [andb negb];
  destruct (fill_grade c);
  (split; [intros H; try discriminate; apply Ok_inj in H; subst st; constructor; try reflexivity;
           solve [ apply GF; reflexivity | apply GE; reflexivity
                 | intros X; apply GF in X; discriminate | intros X; apply GE in X; discriminate ]
          |intros H; inversion H; subst; try reflexivity; try discriminate; exfalso;
           repeat match goal with
           | X : all |- _ => apply GF in X; discriminate
           | X : none |- _ => apply GE in X; discriminate
           | X : ~ all |- _ => apply X, GF; reflexivity
           | X : ~ none |- _ => apply X, GE; reflexivity
           end]).
Qed.

(** The flags are the last ones set; emptying also cleans. *)
Theorem C23_flags c ops c' : cl_run c ops = Ok c' ->
  (cl_valid c', cl_shared c', cl_dirty c') = flags_after (cl_valid c, cl_shared c, cl_dirty c) ops.
Proof.
  revert c. induction ops as [|o ops IH]; intros c E; [apply Ok_inj in E; subst; reflexivity|].
  cbn [cl_run] in E. destruct (cl_step c o) as [c1| | |] eqn:E1; try discriminate. cbn [rbind] in E.
  rewrite (IH c1 E). cbn [flags_after].
  destruct o; cbn [cl_step] in E1; try (apply Ok_inj in E1; subst; reflexivity).
  unfold cl_write in E1. destruct (LINE <? off + length src)%nat; [discriminate|].
  destruct be; [apply Ok_inj in E1; subst; reflexivity|].
  destruct (write_loop off src (n :: be) pos (cl_data c) (cl_be c)).
  apply Ok_inj in E1; subst; reflexivity.
Qed.

(** A newly constructed line, whose bytes are whatever the memory held, is
    reported invalid. *)
Theorem C23_new_line junk : get_status (cl_new junk) = Ok S_INV.
Proof. reflexivity. Qed.

Definition ex_line := cl_new (repeat 7 64).
Example C23_case :
  exists c, cl_run ex_line [OpEmpty; OpWrite 4 [1;2;3;4] [255;0] 1; OpValid true; OpDirty true] = Ok c /\
    fill_grade c = Partial /\ get_status c = Ok S_UDP /\ firstn 9 (cl_data c) = [0;0;0;0;0;2;0;4;0].
Proof. eexists. repeat split. Qed.

Print Assumptions C23_fill_tracking.
Print Assumptions C23_status.
Print Assumptions C23_flags.
Print Assumptions C23_new_line.
