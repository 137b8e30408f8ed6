From Verif Require Import Base TxnIdsModel.
From Coq Require Import Permutation.
Open Scope N_scope.

Definition all_ids : list N := map N.of_nat (seq 0 256).

Definition tinv (s : tstate) : Prop :=
  Permutation (t_ids s ++ map snd (t_held s)) all_ids.

Lemma pair_eqb_eq a b : pair_eqb a b = true -> a = b.
Proof.
  unfold pair_eqb. intros H. apply andb_prop in H. destruct H as [H1 H2].
  apply Nat.eqb_eq in H1. apply N.eqb_eq in H2. destruct a, b; cbn in *; congruence.
Qed.

Lemma remove_first_perm x l : In x l -> Permutation l (x :: remove_first x l).
Proof.
  induction l as [|y l IH]; intros H; [destruct H|]. cbn [remove_first].
  destruct (pair_eqb x y) eqn:E; [apply pair_eqb_eq in E; subst; reflexivity|].
  destruct H as [->|H].
  - exfalso. unfold pair_eqb in E. rewrite Nat.eqb_refl, N.eqb_refl in E. discriminate.
  - rewrite (IH H) at 1. apply perm_swap.
Qed.

Lemma take_inv s r t s' : tinv s -> take_id s r t = Ok s' -> tinv s'.
Proof.
  unfold take_id, tinv. intros H E. destruct (t_ids s) as [|id ids]; [discriminate|].
  injection E as <-. cbn [t_ids t_held map snd]. rewrite <- H. symmetry. apply Permutation_middle.
Qed.

Lemma tstep_inv s e s' : tinv s -> possible s e -> tstep s e = Ok s' -> tinv s'.
Proof.
  intros H Hp E. destruct e as [t|t|t id]; cbn [tstep] in E.
  - destruct (t_ids s) eqn:Ei.
    + injection E as <-. unfold tinv in *. cbn [t_ids t_held]. rewrite Ei in H. exact H.
    + eapply take_inv; eauto.
  - eapply take_inv; eauto.
  - injection E as <-. unfold tinv in *. cbn [t_ids t_held possible] in *.
    rewrite <- app_assoc. cbn [app].
    rewrite <- H. apply Permutation_app_head.
    rewrite (Permutation_map snd (remove_first_perm _ _ Hp)). reflexivity.
Qed.

Lemma texec_inv s es s' : tinv s -> texec s es (Ok s') -> tinv s'.
Proof.
  intros H E. remember (Ok s') as r eqn:Er. revert s' Er H.
  induction E as [s|s e es s1 r Hp Hs Hx IH|s e es Hp Hs]; intros s' Er H.
  - apply (f_equal (fun r => match r with Ok a => a | _ => s end)) in Er. subst. exact H.
  - apply IH; [exact Er|]. eapply tstep_inv; eauto.
  - discriminate.
Qed.

Lemma all_ids_nodup : NoDup all_ids.
Proof.
  unfold all_ids. apply FinFun.Injective_map_NoDup; [|apply seq_NoDup].
  intros a b. apply Nat2N.inj.
Qed.

Lemma tinv_init : tinv ids_init.
Proof. unfold tinv, ids_init. cbn [t_ids t_held map]. rewrite app_nil_r. reflexivity. Qed.

Lemma tinv_nodup s : tinv s -> NoDup (t_ids s ++ map snd (t_held s)).
Proof. intros H. eapply Permutation_NoDup; [symmetry; exact H|apply all_ids_nodup]. Qed.

Lemma NoDup_app_r {A} (a b : list A) : NoDup (a ++ b) -> NoDup b.
Proof. induction a as [|x a IH]; intros H; [exact H|]. inversion H; subst. auto. Qed.

(** Deciding executions that end in undefined behaviour. *)
Definition possibleb (s : tstate) (e : tevent) : bool :=
  match e with
  | Get _ => true
  | Resume t => existsb (Nat.eqb t) (t_ready s)
  | Ret t id => existsb (pair_eqb (t, id)) (t_held s)
  end.
Fixpoint ends_ub (s : tstate) (es : list tevent) : bool :=
  match es with
  | [] => false
  | e :: es' =>
    possibleb s e &&
    match tstep s e with Ok s1 => ends_ub s1 es' | UB => true | _ => false end
  end.
Lemma possibleb_ok s e : possibleb s e = true -> possible s e.
Proof.
  destruct e as [t|t|t id]; cbn; intros H; [exact I| |];
    apply existsb_exists in H; destruct H as [x [Hx E]].
  - apply Nat.eqb_eq in E. subst. exact Hx.
  - apply pair_eqb_eq in E. subst. exact Hx.
Qed.
Lemma ends_ub_ok es : forall s, ends_ub s es = true -> texec s es UB.
Proof.
  induction es as [|e es IH]; intros s H; [discriminate|]. cbn [ends_ub] in H.
  apply andb_prop in H. destruct H as [Hp H]. apply possibleb_ok in Hp.
  destruct (tstep s e) as [s1| | |] eqn:E; try discriminate.
  - eapply te_step; eauto.
  - apply te_fail; assumption.
Qed.

Fixpoint run_events (s : tstate) (es : list tevent) : option tstate :=
  match es with
  | [] => Some s
  | e :: es' =>
    if possibleb s e then match tstep s e with Ok s1 => run_events s1 es' | _ => None end else None
  end.
Lemma run_events_ok es : forall s s', run_events s es = Some s' -> texec s es (Ok s').
Proof.
  induction es as [|e es IH]; intros s s' H; cbn [run_events] in H.
  - injection H as ->. constructor.
  - destruct (possibleb s e) eqn:Hp; [|discriminate]. apply possibleb_ok in Hp.
    destruct (tstep s e) as [s1| | |] eqn:E; try discriminate. eapply te_step; eauto.
Qed.
