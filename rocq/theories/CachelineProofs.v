From Verif Require Import Base BaseFacts TlmModel CachelineModel CachelineSpec.
Open Scope N_scope.

Definition wf (c : cline) : Prop := length (cl_data c) = LINE /\ length (cl_be c) = LINE.

Lemma set_at_length l i v : (i < length l)%nat -> length (set_at l i v) = length l.
Proof. intros H. unfold set_at. rewrite app_length, firstn_length. cbn [length]. rewrite skipn_length. lia. Qed.

Lemma set_at_nth l i v j : (i < length l)%nat ->
  nth j (set_at l i v) 0 = if (j =? i)%nat then v else nth j l 0.
Proof.
  intros H. unfold set_at.
  destruct (Nat.eqb_spec j i) as [->|Hj].
  - rewrite app_nth2; rewrite firstn_length; [|lia].
    replace (i - Nat.min i (length l))%nat with 0%nat by lia. reflexivity.
  - rewrite <- (firstn_skipn i l) at 3.
    destruct (Nat.lt_ge_cases j i).
    + rewrite !app_nth1 by (rewrite firstn_length; lia). reflexivity.
    + rewrite !app_nth2 by (rewrite firstn_length; lia). rewrite firstn_length.
      replace (j - Nat.min i (length l))%nat with (S (j - i - 1)) by lia.
      change (nth (S (j - i - 1)) (v :: skipn (S i) l) 0) with (nth (j - i - 1) (skipn (S i) l) 0).
      replace (S i) with (i + 1)%nat by lia. rewrite <- skipn_add.
      destruct (skipn i l) as [|x l'] eqn:E; [destruct (j - i - 1)%nat; reflexivity|]. reflexivity.
Qed.

Definition en_at (be : list N) (pos : N) (k : nat) : bool :=
  nth (N.to_nat ((pos + N.of_nat k) mod N.of_nat (length be))) be 0 =? BE_ON.

Lemma write_loop_spec be : forall src off pos d b,
  length d = length b -> (off + length src <= length d)%nat ->
  let '(d', b') := write_loop off src be pos d b in
  length d' = length d /\ length b' = length b /\
  forall j, let hit := (off <=? j)%nat && (j <? off + length src)%nat && en_at be pos (j - off) in
    nth j d' 0 = (if hit then nth (j - off) src 0 else nth j d 0) /\
    nth j b' 0 = (if hit then BE_ON else nth j b 0).
Proof.
  induction src as [|x src IH]; intros off pos d b Hl Hb.
  - cbn [write_loop length]. split; [reflexivity|]. split; [reflexivity|]. intros j. cbn zeta.
    replace ((off <=? j)%nat && (j <? off + 0)%nat) with false by lia. split; reflexivity.
  - cbn [write_loop length] in *.
    set (en := nth (N.to_nat (pos mod N.of_nat (length be))) be 0 =? BE_ON).
    assert (He0 : en_at be pos 0 = en) by (unfold en_at, en; rewrite N.add_0_r; reflexivity).
    set (d1 := if en then set_at d off x else d). set (b1 := if en then set_at b off BE_ON else b).
    assert (L1 : length d1 = length d) by (unfold d1; destruct en; [apply set_at_length; lia|reflexivity]).
    assert (L2 : length b1 = length b) by (unfold b1; destruct en; [apply set_at_length; lia|reflexivity]).
    specialize (IH (S off) (pos + 1) d1 b1).
    destruct (write_loop (S off) src be (pos + 1) d1 b1) as [d' b'].
    destruct IH as [I1 [I2 I3]]; [congruence|rewrite L1; lia|].
    split; [congruence|]. split; [congruence|]. intros j. cbn zeta. destruct (I3 j) as [E1 E2].
    rewrite E1, E2. clear E1 E2 I3.
    assert (He : forall k, en_at be (pos + 1) k = en_at be pos (S k)).
    { intros k. unfold en_at. replace (pos + 1 + N.of_nat k) with (pos + N.of_nat (S k)) by lia. reflexivity. }
    destruct (Nat.eq_dec j off) as [->|Hj].
    + replace ((S off <=? off)%nat) with false by lia. cbn [andb].
      rewrite Nat.sub_diag, He0. replace ((off <=? off)%nat && (off <? off + S (length src))%nat) with true by lia.
      cbn [andb nth]. unfold d1, b1. destruct en; [|split; reflexivity].
      rewrite !set_at_nth, Nat.eqb_refl by lia. split; reflexivity.
    + assert (Hd : nth j d1 0 = nth j d 0).
      { unfold d1. destruct en; [|reflexivity]. rewrite set_at_nth by lia.
        destruct (Nat.eqb_spec j off); [lia|reflexivity]. }
      assert (Hb' : nth j b1 0 = nth j b 0).
      { unfold b1. destruct en; [|reflexivity]. rewrite set_at_nth by lia.
        destruct (Nat.eqb_spec j off); [lia|reflexivity]. }
      rewrite Hd, Hb', He.
      destruct (Nat.lt_ge_cases j off) as [Hlt|Hge].
      * replace ((S off <=? j)%nat) with false by lia. replace ((off <=? j)%nat) with false by lia.
        split; reflexivity.
      * replace (S (j - S off)) with (j - off)%nat by lia.
        replace ((S off <=? j)%nat) with ((off <=? j)%nat) by lia.
        replace ((j <? S off + length src)%nat) with ((j <? off + S (length src))%nat) by lia.
        assert (Hn : nth (j - off) (x :: src) 0 = nth (j - S off) src 0).
        { replace (j - off)%nat with (S (j - S off)) by lia. reflexivity. }
        rewrite Hn. split; reflexivity.
Qed.

Lemma overlay_nth off d l j : (off + length d <= length l)%nat ->
  nth j (overlay off d l) 0 =
  if (off <=? j)%nat && (j <? off + length d)%nat then nth (j - off) d 0 else nth j l 0.
Proof.
  intros H. unfold overlay.
  destruct (Nat.lt_ge_cases j off).
  - rewrite app_nth1 by (rewrite firstn_length; lia).
    replace ((off <=? j)%nat) with false by lia. cbn [andb].
    rewrite <- (firstn_skipn off l) at 2. rewrite app_nth1 by (rewrite firstn_length; lia). reflexivity.
  - rewrite app_nth2 by (rewrite firstn_length; lia). rewrite firstn_length.
    replace (Nat.min off (length l)) with off by lia.
    destruct (Nat.lt_ge_cases j (off + length d)).
    + rewrite app_nth1 by lia. replace ((off <=? j)%nat && (j <? off + length d)%nat) with true by lia. reflexivity.
    + rewrite app_nth2 by lia. replace ((j <? off + length d)%nat) with false by lia. rewrite andb_false_r.
      rewrite <- (firstn_skipn (off + length d) l) at 2.
      rewrite app_nth2 by (rewrite firstn_length; lia). rewrite firstn_length. f_equal. lia.
Qed.

Lemma nth_repeat_lt (x : N) n j : (j < n)%nat -> nth j (repeat x n) 0 = x.
Proof.
  revert j; induction n as [|n IH]; intros j H; [lia|]. destruct j as [|j]; [reflexivity|]. apply IH. lia.
Qed.

(** One operation, byte by byte. *)
Lemma step_bytes c o : wf c -> in_line o ->
  exists c', cl_step c o = Ok c' /\ wf c' /\
  forall j, (j < LINE)%nat ->
    nth j (cl_data c') 0 = byte_value (nth j (cl_data c) 0) [o] j /\
    (nth j (cl_be c') 0 =? BE_ON) = byte_valid (nth j (cl_be c) 0 =? BE_ON) [o] j.
Proof.
  intros [W1 W2] Ho. destruct o as [off src be pos| | |v|v|v]; cbn [cl_step byte_value byte_valid stores].
  - cbn [in_line] in Ho. unfold cl_write. destruct (Nat.ltb_spec LINE (off + length src)); [lia|].
    destruct be as [|b0 be].
    + eexists. split; [reflexivity|]. split.
      { split; cbn [cl_data cl_be]; rewrite overlay_length; rewrite ?repeat_length; lia. }
      intros j Hj. cbn [cl_data cl_be]. rewrite !overlay_nth by (rewrite ?repeat_length; lia).
      rewrite repeat_length, andb_true_r.
      destruct ((off <=? j)%nat && (j <? off + length src)%nat) eqn:E; [|split; reflexivity].
      rewrite nth_repeat_lt by lia. split; reflexivity.
    + pose proof (write_loop_spec (b0 :: be) src off pos (cl_data c) (cl_be c)) as W.
      destruct (write_loop off src (b0 :: be) pos (cl_data c) (cl_be c)) as [d' b'].
      destruct W as [L1 [L2 W]]; [congruence|lia|].
      eexists. split; [reflexivity|]. split; [split; cbn [cl_data cl_be]; congruence|].
      intros j Hj. cbn [cl_data cl_be]. destruct (W j) as [-> ->]. unfold en_at.
      destruct ((off <=? j)%nat && (j <? off + length src)%nat && _); split; reflexivity.
  - eexists. split; [reflexivity|]. split; [split; apply repeat_length|]. intros j Hj.
    cbn [cl_disable_all cl_data cl_be]. rewrite !nth_repeat_lt by exact Hj. split; reflexivity.
  - eexists. split; [reflexivity|]. split; [split; [exact W1|apply repeat_length]|]. intros j Hj.
    cbn [cl_enable_all cl_data cl_be]. rewrite nth_repeat_lt by exact Hj. split; reflexivity.
  - eexists. split; [reflexivity|]. split; [split; assumption|]. intros j Hj. split; reflexivity.
  - eexists. split; [reflexivity|]. split; [split; assumption|]. intros j Hj. split; reflexivity.
  - eexists. split; [reflexivity|]. split; [split; assumption|]. intros j Hj. split; reflexivity.
Qed.

Lemma run_bytes : forall ops c, wf c -> Forall in_line ops ->
  exists c', cl_run c ops = Ok c' /\ wf c' /\
  forall j, (j < LINE)%nat ->
    nth j (cl_data c') 0 = byte_value (nth j (cl_data c) 0) ops j /\
    (nth j (cl_be c') 0 =? BE_ON) = byte_valid (nth j (cl_be c) 0 =? BE_ON) ops j.
Proof.
  induction ops as [|o ops IH]; intros c W F.
  - exists c. split; [reflexivity|]. split; [exact W|]. intros j Hj. split; reflexivity.
  - inversion F as [|? ? Ho F']; subst.
    destruct (step_bytes c o W Ho) as [c1 [E1 [W1 B1]]].
    destruct (IH c1 W1 F') as [c2 [E2 [W2 B2]]].
    exists c2. cbn [cl_run]. rewrite E1. cbn [rbind]. split; [exact E2|]. split; [exact W2|].
    intros j Hj. destruct (B1 j Hj) as [D1 V1]. destruct (B2 j Hj) as [D2 V2].
    rewrite D2, V2, D1, V1. split; reflexivity.
Qed.

Lemma filter_length_all {A} (f : A -> bool) l : length (filter f l) = length l <-> forall x, In x l -> f x = true.
Proof.
  induction l as [|x l IH]; cbn [filter length]; [split; [intros _ y []|reflexivity]|].
  assert (B : (length (filter f l) <= length l)%nat) by
    (clear; induction l as [|y l IH]; cbn [filter length]; [lia|]; destruct (f y); cbn [length]; lia).
  destruct (f x) eqn:E; cbn [length].
  - split.
    + intros H y [<-|Hy]; [exact E|]. apply IH; [lia|exact Hy].
    + intros H. f_equal. apply IH. intros y Hy. apply H. right. exact Hy.
  - split; [lia|]. intros H. rewrite H in E by (left; reflexivity). discriminate.
Qed.

Lemma filter_length_none {A} (f : A -> bool) l : length (filter f l) = 0%nat <-> forall x, In x l -> f x = false.
Proof.
  induction l as [|x l IH]; cbn [filter length]; [split; [intros _ y []|reflexivity]|].
  destruct (f x) eqn:E; cbn [length].
  - split; [discriminate|]. intros H. rewrite H in E by (left; reflexivity). discriminate.
  - rewrite IH. split.
    + intros H y [<-|Hy]; [exact E|apply H, Hy].
    + intros H y Hy. apply H. right. exact Hy.
Qed.

Definition all_on (c : cline) : Prop := forall j, (j < LINE)%nat -> (nth j (cl_be c) 0 =? BE_ON) = true.
Definition none_on (c : cline) : Prop := forall j, (j < LINE)%nat -> (nth j (cl_be c) 0 =? BE_ON) = false.

Lemma grade_full c : wf c -> fill_grade c = Full <-> all_on c.
Proof.
  intros [_ W]. unfold fill_grade, all_on. rewrite firstn_all2 by lia.
  destruct (Nat.eqb_spec (length (filter (fun b => b =? BE_ON) (cl_be c))) LINE) as [E|E].
  - split; [intros _|reflexivity]. rewrite <- W in E. rewrite filter_length_all in E.
    intros j Hj. apply E, nth_In. lia.
  - split; [destruct (0 <? _)%nat; discriminate|]. intros H. exfalso. apply E.
    rewrite <- W. apply filter_length_all. intros x Hx.
    destruct (In_nth _ _ 0 Hx) as [j [Hj <-]]. apply H. lia.
Qed.

Lemma grade_empty c : wf c -> fill_grade c = Empty <-> none_on c.
Proof.
  intros [_ W]. unfold fill_grade, none_on. rewrite firstn_all2 by lia.
  destruct (Nat.eqb_spec (length (filter (fun b => b =? BE_ON) (cl_be c))) LINE) as [E|E].
  - split; [discriminate|]. intros H. exfalso. rewrite <- W in E. rewrite filter_length_all in E.
    assert (H0 : (0 < LINE)%nat) by (unfold LINE; lia). specialize (H 0%nat H0). rewrite E in H; [discriminate|].
    apply nth_In. lia.
  - destruct (Nat.ltb_spec 0 (length (filter (fun b => b =? BE_ON) (cl_be c)))) as [L|L].
    + split; [discriminate|]. intros H. exfalso.
      assert (Z : length (filter (fun b => b =? BE_ON) (cl_be c)) = 0%nat); [|lia].
      apply filter_length_none. intros x Hx. destruct (In_nth _ _ 0 Hx) as [j [Hj <-]]. apply H. lia.
    + split; [intros _|reflexivity]. assert (Z : length (filter (fun b => b =? BE_ON) (cl_be c)) = 0%nat) by lia.
      rewrite filter_length_none in Z. intros j Hj. apply Z, nth_In. lia.
Qed.
