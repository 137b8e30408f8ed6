(** Snoop answers against ChiSpec.v. *)
From Verif Require Import Base CachelineModel ChiModel ChiFacts ChiSpec.
Open Scope N_scope.

Definition view_of (l : line) : view := if l_valid l then Some (mkSeen (l_shared l) (l_dirty l)) else None.
Definition answer_of (p : rsp) : answer :=
  mkAns (r_resp p)
    (match r_rop p with R_Data | R_DataFwded => Some true | R_DataPtl => Some false | R_Resp | R_Fwded => None end)
    (match r_comp p with Some c => Some (r_fstate p, c) | None => None end).
Definition purpose_of (q : snp) : purpose :=
  match q with
  | SnpOnce | SnpOnceFwd => P_Look
  | SnpClean | SnpShared | SnpNSD | SnpCleanFwd | SnpSharedFwd | SnpNSDFwd => P_Share
  | SnpCleanShared => P_Clean
  | SnpCleanInvalid => P_CleanInval
  | SnpUnique | SnpUniqueFwd => P_Take
  | SnpMakeInvalid => P_Drop
  end.
(** A line the cache can have: shared lines are whole, a partial line is dirty,
    an empty one clean. *)
Definition line_ok (l : line) : Prop :=
  match grade_of l with
  | Full => True
  | Partial => l_shared l = false /\ l_dirty l = true
  | Empty => l_shared l = false /\ l_dirty l = false
  end.

Ltac cases q l Hok :=
  unfold line_ok in Hok; unfold handle_snp, status_of;
  destruct q; destruct (l_valid l) eqn:?V; destruct (l_shared l) eqn:?S; destruct (l_dirty l) eqn:?D;
  destruct (grade_of l) eqn:?Gr; try (exfalso; destruct Hok; discriminate).

Lemma snp_total q rts l : line_ok l -> exists l' p, handle_snp q rts l = Ok (l', p).
Proof.
  intro H. cases q l H; cbn; eexists _, _; reflexivity.
Qed.

Ltac each rts H := unfold snp_once, snp_clean, snp_unique, snp_clean_shared, snp_clean_invalid, snp_once_fwd, snp_clean_fwd, snp_unique_fwd in H; cbn in H; try (destruct rts); cbn in H;
  match type of H with Ok (?a, ?b) = Ok (?c, ?d) => injection H as <- <- end.

Lemma snp_content q rts l l' p :
  handle_snp q rts l = Ok (l', p) -> l_tag l' = l_tag l /\ l_data l' = l_data l /\ l_be l' = l_be l.
Proof.
  unfold handle_snp. destruct q; try (destruct (status_of l) as [st| | |]; cbn; try discriminate);
    try (destruct st); intro E; cbn in E; injection E as <- <-; auto.
Qed.

Lemma snp_answer q rts l l' p : line_ok l -> handle_snp q rts l = Ok (l', p) ->
  let b := view_of l in let a := view_of l' in let x := answer_of p in
  allowed_after (purpose_of q) b a /\ dirty_kept (purpose_of q) b a x /\ pd_only_dirty b x /\ fwd_compatible a x /\
  (l_valid l = true -> (a_data x = Some false <-> grade_of l = Partial /\ purpose_of q <> P_Drop) /\
    ((a_data x = Some true \/ a_fwd x <> None) -> grade_of l = Full)) /\
  (~ (l_shared l = false /\ l_dirty l = true /\ (q = SnpClean \/ q = SnpShared \/ q = SnpNSD)) -> state_told a x /\ dirty_once a x) /\
  (~ (l_dirty l = true /\ q = SnpUniqueFwd) -> fwd_told x).
Proof.
  intros H E. cbv zeta. revert E.
  cases q l H; intro E; each rts E;
    unfold allowed_after, dirty_kept, pd_only_dirty, fwd_compatible, state_told, dirty_once, fwd_told, view_of, answer_of; cbn;
    rewrite ?V, ?S, ?D, ?Gr; cbn;
    repeat match goal with
    | |- _ /\ _ => split
    | |- _ <-> _ => split
    end; intros; cbn in *;
    try reflexivity; try discriminate; try congruence;
    repeat match goal with
    | X : Some _ = Some _ |- _ => injection X; clear X; intros; subst
    | X : _ /\ _ |- _ => destruct X
    | X : _ \/ _ |- _ => destruct X
    end; try reflexivity; try discriminate; try congruence;
    try (exfalso; match goal with X : ~ _ |- _ => apply X; tauto end);
    try (left; reflexivity); try (right; left; reflexivity);
    try (right; right; left; split; [reflexivity|discriminate]);
    try (right; right; right; eexists _, _; split; reflexivity);
    try (split; intros; try reflexivity; try discriminate; congruence).
  all: try match goal with X : resp_state _ = _ |- _ => vm_compute in X; discriminate X end.
  all: try match goal with X : resp_state _ <> _ |- _ => exfalso; apply X; reflexivity end.
  all: try match goal with X : resp_pd _ = _ |- _ => vm_compute in X; discriminate X end.
  all: try (split; intro X; solve [vm_compute in X; discriminate X | exfalso; apply X; reflexivity | reflexivity]).
  all: split; [split; [intros ?; try split; congruence|intros [? ?]; congruence]|intros [X|X]; congruence].
Qed.
