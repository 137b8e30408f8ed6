From Verif Require Import Base BaseFacts LeFacts ChiFlitModel ChiFlitSpec.
From Coq Require Import Lia ZifyN ZifyNat ZifyBool.
Open Scope N_scope.

Lemma field_bits f pos w : field f pos w = bits_of f pos w.
Proof. unfold field, bits_of. now rewrite N.shiftr_div_pow2. Qed.
Lemma field_testbit f pos w i :
  N.testbit (field f pos w) i = if i <? w then N.testbit f (pos + i) else false.
Proof.
  unfold field. destruct (i <? w) eqn:E.
  - rewrite N.mod_pow2_bits_low by lia. rewrite N.shiftr_spec'. f_equal. lia.
  - apply N.mod_pow2_bits_high. lia.
Qed.
Lemma field_bit f pos : field f pos 1 = N.b2n (bit_of f pos).
Proof.
  apply N.bits_inj. intros i. rewrite field_testbit. destruct (i <? 1) eqn:E.
  - replace i with 0 by lia. rewrite N.add_0_r, N.b2n_bit0. reflexivity.
  - destruct (bit_of f pos); cbn [N.b2n]; [|now rewrite N.bits_0].
    symmetry. destruct i; [discriminate E|reflexivity].
Qed.
Lemma put_testbit f pos w v i : N.testbit (put f pos w v) i =
  if (pos <=? i) && (i <? pos + w) then N.testbit v (i - pos) else N.testbit f i.
Proof.
  unfold put. rewrite N.lor_spec, N.ldiff_spec. destruct (pos <=? i) eqn:A; cbn [andb].
  - rewrite !N.shiftl_spec_high' by lia. destruct (i <? pos + w) eqn:B.
    + rewrite N.ones_spec_low, N.mod_pow2_bits_low by lia. cbn. now rewrite andb_false_r.
    + rewrite N.ones_spec_high, N.mod_pow2_bits_high by lia. cbn.
      now rewrite andb_true_r, orb_false_r.
  - rewrite !N.shiftl_spec_low by lia. cbn. now rewrite andb_true_r, orb_false_r.
Qed.
Lemma field_put_same f pos w v : field (put f pos w v) pos w = v mod 2 ^ w.
Proof.
  apply N.bits_inj. intros i. rewrite field_testbit, put_testbit. destruct (i <? w) eqn:E.
  - rewrite N.mod_pow2_bits_low by lia.
    destruct ((pos <=? pos + i) && (pos + i <? pos + w)) eqn:B; [f_equal; lia|lia].
  - rewrite N.mod_pow2_bits_high by lia. reflexivity.
Qed.
Lemma field_put_other f pos w v p q : p + q <= pos \/ pos + w <= p ->
  field (put f pos w v) p q = field f p q.
Proof.
  intros H. apply N.bits_inj. intros i. rewrite !field_testbit, put_testbit.
  destruct (i <? q) eqn:E; [|reflexivity].
  destruct ((pos <=? p + i) && (p + i <? pos + w)) eqn:B; [lia|reflexivity].
Qed.

Definition val (x : fld) : N := match x with FT _ _ v => v | FB b => N.b2n b end.
Definition well (x : fld) : Prop :=
  match x with FT t w v => w < shifts t /\ w <= bits t /\ v < 2 ^ w | FB _ => True end.
Fixpoint span (l : list fld) : N := match l with [] => 0 | x :: l' => width x + span l' end.
Fixpoint holds (f pos : N) (l : list fld) : Prop :=
  match l with
  | [] => True
  | x :: l' => field f pos (width x) = val x /\ holds f (pos + width x) l'
  end.

Lemma tmask_ok t w v : w < shifts t -> w <= bits t -> v < 2 ^ w ->
  exists m, tmask t w = Ok m /\ N.land v m = v.
Proof.
  intros A B C. unfold tmask. destruct (shifts t <=? w) eqn:E; [lia|]. eexists.
  split; [reflexivity|]. pose proof (N.pow_nonzero 2 w ltac:(discriminate)) as NZ.
  rewrite N.mod_small.
  - rewrite N.sub_1_r, <- N.ones_equiv, N.land_ones. apply N.mod_small. exact C.
  - eapply N.lt_le_trans; [|apply N.pow_le_mono_r; [discriminate|exact B]]. lia.
Qed.
Lemma set1_ok W f pos x : well x -> pos + width x <= W ->
  set1 W (f, pos) x = Ok (put f pos (width x) (val x), pos + width x).
Proof.
  intros A B. destruct x as [t w v|b]; cbn [set1 width val well] in *.
  - destruct A as (A1 & A2 & A3). destruct (tmask_ok t w v A1 A2 A3) as (m & -> & E).
    unfold rbind, rmap, assign. rewrite E. clear E. destruct (W <? pos + w) eqn:E; [lia|reflexivity].
  - unfold rbind, rmap, assign. destruct (W <? pos + 1) eqn:E; [lia|reflexivity].
Qed.
Lemma val_small x : well x -> val x mod 2 ^ width x = val x.
Proof.
  destruct x as [t w v|b]; cbn.
  - intros (_ & _ & C). apply N.mod_small, C.
  - intros _. destruct b; reflexivity.
Qed.

Lemma sets_ok W l : forall f pos, Forall well l -> pos + span l <= W ->
  exists f', sets W (f, pos) l = Ok (f', pos + span l) /\ holds f' pos l /\
    forall p q, p + q <= pos \/ pos + span l <= p -> field f' p q = field f p q.
Proof.
  induction l as [|x l IH]; intros f pos F B; cbn [sets span holds] in *.
  - exists f. rewrite N.add_0_r. repeat split.
  - inversion_clear F as [|? ? F1 F2]. rewrite set1_ok by (assumption || lia).
    cbn [rbind].
    destruct (IH (put f pos (width x) (val x)) (pos + width x) F2 ltac:(lia)) as (f' & -> & H & O).
    exists f'. rewrite N.add_assoc. split; [reflexivity|]. split; [split; [|exact H]|].
    + rewrite O by lia. rewrite field_put_same. apply val_small, F1.
    + intros p q D. rewrite O by lia. apply field_put_other. lia.
Qed.

(** Reading what is held. *)
Definition matches (snp : bool) (r : rfld) (x : fld) : Prop :=
  match r, x with
  | RT t w, FT _ w' v => w = w' /\ v < 2 ^ w /\ v < 2 ^ bits t /\
      w < (if snp then shifts t else 31)
  | RB, FB _ => True
  | _, _ => False
  end.
Lemma matches_width s r x : matches s r x -> rwidth r = width x.
Proof. destruct r, x; cbn; try tauto. Qed.
Lemma get1_ok s W f pos r x : matches s r x -> pos + width x <= W ->
  field f pos (width x) = val x -> get1 s W f pos r = Ok (val x).
Proof.
  intros M B F. destruct r as [t w|], x as [t' w' v|b]; cbn [matches] in M; try contradiction.
  - destruct M as (<- & V1 & V2 & S). cbn [get1 width val] in *.
    assert (E : exists m, (if s then rmap (fun m => m) (if shifts t <=? w then UB else Ok (2 ^ w - 1))
       else imask w) = Ok m /\ m = N.ones w).
    { pose proof (N.pow_nonzero 2 w ltac:(discriminate)).
      destruct s; unfold imask, rmap.
      - destruct (shifts t <=? w) eqn:E; [lia|]. eexists. split; [reflexivity|].
        rewrite N.ones_equiv. lia.
      - destruct (31 <=? w) eqn:E; [lia|]. eexists. split; [reflexivity|].
        rewrite N.ones_equiv. lia. }
    destruct E as (m & -> & ->). unfold rbind, rmap, range.
    destruct (W <? pos + w) eqn:Q; [lia|]. unfold rbind. rewrite F, N.land_ones.
    assert (W64 : w < 64) by (clear - S; destruct s, t; cbn in S; lia).
    rewrite (N.mod_small v (2 ^ 64)).
    + rewrite (N.mod_small v (2 ^ w)) by exact V1. f_equal. apply N.mod_small, V2.
    + eapply N.lt_le_trans; [exact V1|]. apply N.pow_le_mono_r; [discriminate|lia].
  - cbn [get1 width val] in *. unfold range. destruct (W <? pos + 1) eqn:Q; [lia|].
    now rewrite F.
Qed.
Lemma gets_ok s W l : forall rs f pos, Forall2 (matches s) rs l -> pos + span l <= W ->
  holds f pos l -> gets s W f pos rs = Ok (map val l).
Proof.
  induction l as [|x l IH]; intros rs f pos M B H; inversion M as [|r ? rs' ? M1 M2]; subst.
  - reflexivity.
  - cbn [gets holds span map] in *. destruct H as [H1 H2].
    rewrite (get1_ok s W f pos r x M1 ltac:(lia) H1). rewrite (matches_width s r x M1).
    cbn [rbind]. rewrite (IH rs' f (pos + width x) M2 ltac:(lia) H2). reflexivity.
Qed.

Lemma isb_b2n b : isb (N.b2n b) = b.
Proof. destruct b; reflexivity. Qed.

(** From held fields to positions. *)
Lemma held_bits f pos w v : field f pos w = v -> bits_of f pos w = v.
Proof. intros <-. symmetry. apply field_bits. Qed.
Lemma held_bit f pos b : field f pos 1 = N.b2n b -> bit_of f pos = b.
Proof. rewrite field_bit. destruct (bit_of f pos), b; cbn; congruence. Qed.
Lemma field_part f pos w o q : o + q <= w -> field (field f pos w) o q = field f (pos + o) q.
Proof.
  intros H. apply N.bits_inj. intros i. rewrite !field_testbit.
  destruct (i <? q) eqn:E; [|reflexivity]. destruct (o + i <? w) eqn:F; [|lia].
  f_equal. lia.
Qed.

Ltac small := first [reflexivity | assumption | cbn; lia].
Ltac all_well := repeat (apply Forall_cons; [cbn [well]; repeat split; cbn [shifts bits];
  first [assumption | lia | reflexivity | idtac] |]); try apply Forall_nil.

(** The size field. *)
Lemma size_ok i : i <= 6 -> get_size (2 ^ i) = i.
Proof.
  intros H. assert (i = 0 \/ i = 1 \/ i = 2 \/ i = 3 \/ i = 4 \/ i = 5 \/ i = 6) as C by lia.
  destruct C as [-> |[-> |[-> |[-> |[-> |[-> | ->]]]]]]; reflexivity.
Qed.
(** The memory attributes. *)
Lemma memattr_ok x : memattr x < 2 ^ 4 /\ N.testbit (memattr x) 3 = q_alloc x /\
  N.testbit (memattr x) 2 = q_cache x /\ N.testbit (memattr x) 1 = q_dev x /\
  N.testbit (memattr x) 0 = q_ewa x.
Proof.
  unfold memattr. destruct (q_alloc x), (q_cache x), (q_dev x), (q_ewa x); repeat split.
Qed.

Lemma lanes_ok W n : forall buf f pos, (n <= length buf)%nat -> pos + 8 * N.of_nat n <= W ->
  bytes_ok buf ->
  exists f', lanes W f pos buf n = Ok f' /\
    (forall i, (i < n)%nat -> field f' (pos + 8 * N.of_nat i) 8 = nth i buf 0) /\
    forall p q, p + q <= pos \/ pos + 8 * N.of_nat n <= p -> field f' p q = field f p q.
Proof.
  induction n as [|n IH]; intros buf f pos L B Y; cbn [lanes].
  - exists f. split; [reflexivity|]. split; [intros i Z; lia|reflexivity].
  - destruct buf as [|x buf]; [cbn in L; lia|]. inversion_clear Y as [|? ? Y1 Y2].
    unfold assign. destruct (W <? pos + 8) eqn:E; [lia|]. cbn [rbind].
    destruct (IH buf (put f pos 8 x) (pos + 8) ltac:(cbn in L; lia) ltac:(lia) Y2)
      as (f' & -> & H & O).
    exists f'. split; [reflexivity|]. split.
    + intros [|i] Z.
      * rewrite N.add_0_r, O by lia. rewrite field_put_same. apply N.mod_small, Y1.
      * replace (pos + 8 * N.of_nat (S i)) with (pos + 8 + 8 * N.of_nat i) by lia.
        rewrite H by lia. reflexivity.
    + intros p q D. rewrite O by lia. apply field_put_other. lia.
Qed.

Lemma holds_frame f f' l : forall pos, holds f pos l ->
  (forall p q, pos <= p -> p + q <= pos + span l -> field f' p q = field f p q) ->
  holds f' pos l.
Proof.
  induction l as [|x l IH]; intros pos H O; cbn [holds span] in *; [exact I|].
  destruct H as [A B]. split.
  - rewrite O by lia. exact A.
  - apply IH; [exact B|]. intros p q C D. apply O; lia.
Qed.
Lemma bytes_read W f n : forall pos, pos + 8 * N.of_nat n <= W ->
  gets false W f pos (repeat (RT U8 8) n) =
  Ok (map (fun i => field f (pos + 8 * N.of_nat i) 8) (seq 0 n)).
Proof.
  induction n as [|n IH]; intros pos H; [reflexivity|].
  cbn [repeat gets get1 rwidth]. unfold imask, range. cbn [N.leb N.compare Pos.compare Pos.compare_cont].
  replace (31 <=? 8) with false by reflexivity. cbn [rbind].
  destruct (W <? pos + 8) eqn:E; [lia|]. unfold rmap. cbn [rbind].
  rewrite (IH (pos + 8)) by lia. cbn [rbind seq map]. f_equal. f_equal.
  - replace (pos + 8 * N.of_nat 0) with pos by lia.
    assert (L : field f pos 8 < 2 ^ 8) by (apply N.mod_lt; discriminate).
    rewrite (N.mod_small _ (2 ^ 64)) by (eapply N.lt_trans; [exact L|reflexivity]).
    change (2 ^ 8 - 1) with (N.ones 8). rewrite N.land_ones.
    cbn [bits]. rewrite (N.mod_small _ (2 ^ 8)) by (apply N.mod_lt; discriminate).
    apply N.mod_small, L.
  - rewrite <- seq_shift, map_map. apply map_ext. intros i. f_equal. lia.
Qed.
Lemma span_bits (g : nat -> bool) l : span (map (fun i => FB (g i)) l) = N.of_nat (length l).
Proof. induction l as [|x l IH]; [reflexivity|]. cbn [map span width length]. lia. Qed.
Lemma well_bits (g : nat -> bool) l : Forall well (map (fun i => FB (g i)) l).
Proof. induction l as [|x l IH]; constructor; [exact I|exact IH]. Qed.
Lemma matches_bits s (g : nat -> bool) l : forall n, n = length l ->
  Forall2 (matches s) (repeat RB n) (map (fun i => FB (g i)) l).
Proof. induction l as [|x l IH]; intros n ->; constructor; [exact I|now apply IH]. Qed.
Lemma vals_bits (g : nat -> bool) l : map isb (map val (map (fun i => FB (g i)) l)) = map g l.
Proof. rewrite !map_map. apply map_ext. intros i. apply isb_b2n. Qed.
Lemma span_app l m : span (l ++ m) = span l + span m.
Proof. induction l as [|x l IH]; [reflexivity|]. cbn [app span]. lia. Qed.
