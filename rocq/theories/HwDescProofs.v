(** Lemmas about the descriptors of the slave bridge. *)
From Coq Require Import ZArith.
From Verif Require Import Base HwDescModel.
From Coq Require Import FinFun.
From Coq Require Import Lia ZifyN ZifyNat ZifyBool.
Open Scope N_scope.

Definition good (s : st) : Prop :=
  (forall d, N.testbit (db s) d = data s d) /\ (forall d, 16 <= d -> data s d = false).

Lemma pow_bit d i : N.testbit (2 ^ d) i = (i =? d).
Proof. rewrite N.pow2_bits_eqb. apply N.eqb_sym. Qed.

Lemma mask_bit i : N.testbit MASK i = (i <? 16).
Proof.
  change MASK with (N.ones 16). destruct (i <? 16) eqn:E.
  - apply N.ones_spec_low. lia.
  - apply N.ones_spec_high. lia.
Qed.

Lemma descs_in d : In d descs <-> d < 16.
Proof.
  unfold descs. rewrite in_map_iff. split.
  - intros [x [<- H]]. apply in_seq in H. lia.
  - intros H. exists (N.to_nat d). split; [lia|]. apply in_seq. lia.
Qed.

Lemma descs_nodup : NoDup descs.
Proof. apply Injective_map_NoDup; [intros a b H; lia|apply seq_NoDup]. Qed.

Lemma loop_state ds : NoDup ds -> forall av ack s i,
  data (fst (loop ds av ack s)) i
  = if existsb (N.eqb i) ds then negb (N.testbit ack i) && (N.testbit av i || data s i)
    else data s i.
Proof.
  induction ds as [|d ds IH]; intros Hn av ack s i; [reflexivity|].
  inversion Hn as [|? ? Hd Hn']; subst. cbn [loop existsb].
  set (p := if N.testbit av d then desc_free s d else (s, [])).
  assert (Ep : data (fst p) = if N.testbit av d then upd (data s) d true else data s)
    by (unfold p; destruct (N.testbit av d); reflexivity).
  destruct p as [s1 a1]. cbn [fst] in Ep.
  specialize (IH Hn' av ack (if N.testbit ack d then release s1 d else s1) i).
  destruct (loop ds av ack _) as [s3 a3]. cbn [fst] in *. rewrite IH.
  assert (E2 : data (if N.testbit ack d then release s1 d else s1) i
               = if i =? d then negb (N.testbit ack i) && (N.testbit av i || data s i) else data s i).
  { destruct (i =? d) eqn:E.
    - apply N.eqb_eq in E. subst i.
      destruct (N.testbit ack d); cbn [release data]; [unfold upd; rewrite N.eqb_refl; reflexivity|].
      rewrite Ep. destruct (N.testbit av d); [unfold upd; rewrite N.eqb_refl|]; reflexivity.
    - destruct (N.testbit ack d); cbn [release data]; rewrite Ep; destruct (N.testbit av d);
        unfold upd; rewrite ?E; reflexivity. }
  destruct (existsb (N.eqb i) ds) eqn:Ex.
  - rewrite orb_true_r. destruct (i =? d) eqn:E; [|rewrite E2; reflexivity].
    apply N.eqb_eq in E. subst i. exfalso. apply Hd. apply existsb_exists in Ex.
    destruct Ex as [x [Hx E]]. apply N.eqb_eq in E. subst. exact Hx.
  - rewrite orb_false_r, E2. reflexivity.
Qed.

Lemma exists_descs i : existsb (N.eqb i) descs = (i <? 16).
Proof.
  destruct (i <? 16) eqn:E.
  - apply existsb_exists. exists i. split; [apply descs_in; lia|apply N.eqb_refl].
  - destruct (existsb (N.eqb i) descs) eqn:Ex; [|reflexivity]. apply existsb_exists in Ex.
    destruct Ex as [x [Hx Ei]]. apply N.eqb_eq in Ei. subst. apply descs_in in Hx. lia.
Qed.

Definition agree (s : st) : Prop := forall d, N.testbit (db s) d = data s d.

Lemma agree_free s d : agree s -> agree (fst (desc_free s d)).
Proof.
  intros H i. cbn [desc_free fst db data]. rewrite N.lor_spec, pow_bit, H. unfold upd.
  destruct (i =? d); [apply orb_true_r|apply orb_false_r].
Qed.

Lemma agree_release s d : agree s -> agree (release s d).
Proof.
  intros H i. cbn [release db data]. rewrite N.ldiff_spec, pow_bit, H. unfold upd.
  destruct (i =? d); [apply andb_false_r|apply andb_true_r].
Qed.

Lemma loop_agree ds : forall av ack s, agree s -> agree (fst (loop ds av ack s)).
Proof.
  induction ds as [|d ds IH]; intros av ack s H; [exact H|]. cbn [loop].
  assert (H1 : agree (fst (if N.testbit av d then desc_free s d else (s, []))))
    by (destruct (N.testbit av d); [now apply agree_free|exact H]).
  destruct (if N.testbit av d then desc_free s d else (s, [])) as [s1 a1]. cbn [fst] in H1.
  assert (H2 : agree (if N.testbit ack d then release s1 d else s1))
    by (destruct (N.testbit ack d); [now apply agree_release|exact H1]).
  specialize (IH av ack _ H2). destruct (loop ds av ack _). exact IH.
Qed.

Lemma loop_acts ds : forall av ack s,
  snd (loop ds av ack s) = flat_map (fun d => [Handle d; Flip (2 ^ d)]) (filter (N.testbit av) ds).
Proof.
  induction ds as [|d ds IH]; intros av ack s; [reflexivity|]. cbn [loop filter].
  destruct (N.testbit av d) eqn:E; cbn [desc_free].
  - specialize (IH av ack (if N.testbit ack d then
      release (mkSt (N.lor (db s) (2 ^ d)) (upd (data s) d true)) d
      else mkSt (N.lor (db s) (2 ^ d)) (upd (data s) d true))).
    destruct (loop ds av ack _). cbn [snd] in *. rewrite IH. reflexivity.
  - specialize (IH av ack (if N.testbit ack d then release s d else s)).
    destruct (loop ds av ack _). cbn [snd] in *. rewrite IH. reflexivity.
Qed.

Lemma good_mask s : good s -> N.land (db s) MASK = db s.
Proof.
  intros [H1 H2]. apply N.bits_inj. intros i. rewrite N.land_spec, mask_bit, H1.
  destruct (i <? 16) eqn:E; [apply andb_true_r|]. rewrite (H2 i) by lia. reflexivity.
Qed.

Lemma acked_val s busy own : good s ->
  acked s busy own = if (busy =? 0) && (own =? 0) then db s else 0.
Proof.
  intros H. unfold acked. rewrite (good_mask s H).
  destruct ((busy =? 0) && (own =? 0)) eqn:E.
  - replace busy with 0 by lia. replace own with 0 by lia. rewrite !N.ldiff_0_r.
    rewrite andb_false_r. reflexivity.
  - rewrite andb_true_r. destruct (N.ldiff _ _ =? 0) eqn:E0; cbn [negb]; [lia|reflexivity].
Qed.

Lemma process_good s av busy own : good s -> good (fst (fst (process s av busy own))).
Proof.
  intros [H1 H2]. unfold process. destruct (loop descs av _ s) as [s' acts] eqn:E. cbn [fst].
  assert (E' : s' = fst (loop descs av (acked s busy own) s)) by (rewrite E; reflexivity).
  subst s'. split; [exact (loop_agree _ _ _ s H1)|].
  intros d Hd. rewrite (loop_state descs descs_nodup), exists_descs.
  replace (d <? 16) with false by lia. apply H2, Hd.
Qed.

Lemma process_data s av busy own d : good s -> d < 16 ->
  data (fst (fst (process s av busy own))) d
  = negb (N.testbit (acked s busy own) d) && (N.testbit av d || data s d).
Proof.
  intros _ Hd. unfold process. pose proof (loop_state descs descs_nodup av (acked s busy own) s d) as L.
  destruct (loop descs av _ s) as [s' acts]. cbn [fst] in *. rewrite L, exists_descs.
  replace (d <? 16) with true by lia. reflexivity.
Qed.

Definition inv (x : st * phase) : Prop :=
  good (fst x) /\ match snd x with
                  | Idle => db (fst x) <> MASK
                  | Busy 0 => db (fst x) = MASK
                  | Busy _ => True
                  end.

Lemma inv_init : inv (init, Idle).
Proof.
  split; [split|discriminate]; intros; [apply N.bits_0|reflexivity].
Qed.

Lemma step_iter s av busy own r :
  step (s, Busy av) (Iter busy own r) =
  let p := process s av busy own in
  if negb (r =? 0) || (db (fst (fst p)) =? MASK) then ((fst (fst p), Busy r), snd (fst p))
  else ((fst (fst p), Idle), snd (fst p) ++ [Enable MASK]).
Proof. cbn [step]. unfold process. destruct (loop descs av _ s). reflexivity. Qed.

Lemma inv_step x e : inv x -> inv (fst (step x e)).
Proof.
  destruct x as [s [|av]]; destruct e as [r|busy own r]; intros H; try exact H.
  - cbn [step]. destruct (r =? 0) eqn:E; [exact H|]. destruct H as [H _]. split; [exact H|].
    cbn [fst snd]. destruct r; [discriminate|exact I].
  - rewrite step_iter. cbn zeta. destruct H as [H _]. cbn [fst] in H.
    pose proof (process_good s av busy own H) as G.
    destruct (process s av busy own) as [[s' a] b]. cbn [fst snd] in *.
    destruct (negb (r =? 0) || (db s' =? MASK)) eqn:E; (split; [exact G|]); cbn [fst snd].
    + destruct r; [|exact I]. cbn [N.eqb negb orb] in E. lia.
    + lia.
Qed.

Lemma inv_run es : forall x, inv x -> inv (run x es).
Proof. induction es as [|e es IH]; intros x H; [exact H|]. cbn [run]. apply IH, inv_step, H. Qed.
