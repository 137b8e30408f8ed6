From Verif Require Import Base BaseFacts LeFacts TgModel TgSpec.
From Coq Require Import Lia ZifyN ZifyNat ZifyBool.
Open Scope N_scope.

Ltac dm := Z.div_mod_to_equations; lia.

Lemma sub64_small a b : b <= a -> a < 2 ^ 64 -> sub64 a b = a - b.
Proof.
  intros H1 H2. unfold sub64. change (2 ^ 64) with 18446744073709551616 in *.
  replace (a + 18446744073709551616 - b) with (a - b + 1 * 18446744073709551616) by lia.
  rewrite N.mod_add by discriminate. apply N.mod_small. lia.
Qed.
Lemma w32_small a : a < 2 ^ 32 -> w32 a = a.
Proof. intros H. apply N.mod_small. exact H. Qed.

Lemma mask_down a k : a < 2 ^ 64 -> k < 64 -> N.land a (aligned k) = a - a mod 2 ^ k.
Proof.
  intros Ha Hk.
  assert (E : aligned k = N.shiftl (N.ones (64 - k)) k).
  { unfold aligned. rewrite N.shiftl_mul_pow2, N.ones_equiv.
    assert (2 ^ 64 = 2 ^ (64 - k) * 2 ^ k) as -> 
      by (rewrite <- N.pow_add_r; replace (64 - k + k) with 64 by lia; reflexivity).
    pose proof (N.pow_nonzero 2 (64 - k) ltac:(discriminate)).
    rewrite <- N.sub_1_r, N.mul_sub_distr_r, N.mul_1_l. reflexivity. }
  assert (D : a - a mod 2 ^ k = N.shiftl (N.shiftr a k) k).
  { rewrite N.shiftl_mul_pow2, N.shiftr_div_pow2.
    pose proof (N.div_mod a (2 ^ k) ltac:(apply N.pow_nonzero; discriminate)) as Q.
    clear - Q. set (m := a mod 2 ^ k) in *. clearbody m. rewrite (N.mul_comm (a / _)).
    set (h := 2 ^ k * (a / 2 ^ k)) in *. clearbody h. lia. }
  rewrite E, D. apply N.bits_inj. intros i. rewrite N.land_spec.
  destruct (N.lt_ge_cases i k) as [L|L].
  - rewrite !N.shiftl_spec_low by exact L. apply andb_false_r.
  - rewrite !N.shiftl_spec_high' by exact L. rewrite N.shiftr_spec'.
    replace (i - k + k) with i by lia.
    destruct (N.lt_ge_cases (i - k) (64 - k)) as [M|M].
    + rewrite N.ones_spec_low by exact M. apply andb_true_r.
    + rewrite N.ones_spec_high by exact M. rewrite andb_false_r. symmetry.
      destruct (N.eq_dec a 0) as [-> |NZ]; [apply N.bits_0|].
      apply N.bits_above_log2. apply N.log2_lt_pow2; [lia|].
      eapply N.lt_le_trans; [exact Ha|]. apply N.pow_le_mono_r; lia.
Qed.

Lemma down_ge a m k : m <= a -> m mod 2 ^ k = 0 -> m <= a - a mod 2 ^ k.
Proof.
  intros H M. pose proof (N.pow_nonzero 2 k ltac:(discriminate)) as NZ.
  set (d := 2 ^ k) in *. clearbody d.
  pose proof (N.div_mod a d NZ) as A. pose proof (N.div_mod m d NZ) as B.
  pose proof (N.div_le_mono m a d NZ H) as C. rewrite M in B.
  apply (N.mul_le_mono_l _ _ d) in C. clear - A B C.
  set (x := d * (a / d)) in *. set (y := d * (m / d)) in *. set (z := a mod d) in *.
  clearbody x y z. lia.
Qed.
Lemma down_mod a k : (a - a mod 2 ^ k) mod 2 ^ k = 0.
Proof.
  pose proof (N.pow_nonzero 2 k ltac:(discriminate)) as NZ.
  set (d := 2 ^ k) in *. clearbody d. pose proof (N.div_mod a d NZ) as A.
  assert (a - a mod d = (a / d) * d) as ->.
  { rewrite (N.mul_comm (a / d)). set (x := d * (a / d)) in *. set (z := a mod d) in *.
    clearbody x z. lia. }
  apply N.mod_mul. exact NZ.
Qed.

Section R.
Variable rnd : N -> N * N.
Variables mn mx k minlen maxlen maxbe : N.
Notation p := (params mn mx (aligned k) minlen maxlen maxbe).
Hypothesis S : sensible mn mx k minlen maxlen maxbe.

(** The figures of a generated range. *)
Definition figures (a l b w : N) : Prop :=
  mn <= a /\ a + l <= mx /\ a mod 2 ^ k = 0 /\ 1 <= l <= maxlen /\
  (l < minlen -> l = maxlen \/ a + l = mx) /\ b <= maxbe /\ b <= l /\ 1 <= w <= l.

Lemma gen_ok r : r_init r = false ->
  exists r', gen rnd p r = Ok r' /\ r_left r' = r_left r /\ r_lastw r' = r_lastw r /\
    r_init r' = false /\ r_has r' = true /\
    figures (r_addr r') (r_len r') (r_be r') (r_sw r').
Proof.
  intros I. destruct S as (H1 & H2 & H3 & H4 & H5 & H6 & H7). unfold gen. rewrite I.
  unfold params, p_min, p_max, p_mask, p_minlen, p_maxlen, p_minsw, p_maxsw, p_maxbe.
  destruct (rnd (r_seed r)) as [v1 s1]. rewrite sub64_small by lia.
  unfold rmod at 1. destruct (mx - mn =? 0) eqn:Z; [lia|]. unfold rbind at 1.
  pose proof (N.mod_lt v1 (mx - mn) ltac:(lia)) as L1. set (off := v1 mod (mx - mn)) in *. clearbody off.
  assert (w64 (mn + off) = mn + off) as -> by (apply N.mod_small; lia).
  rewrite mask_down by lia.
  pose proof (down_ge (mn + off) mn k ltac:(clear; lia) H4) as G.
  pose proof (down_mod (mn + off) k) as DM.
  assert (LT : mn + off - (mn + off) mod 2 ^ k < mx).
  { eapply N.le_lt_trans; [apply N.le_sub_l|]. clear - L1 H1. lia. }
  set (a := mn + off - (mn + off) mod 2 ^ k) in *.
  clearbody a. rewrite (sub64_small mx a) by (clear - LT H2; lia). 
  rewrite (w32_small (N.min maxlen (mx - a)))
    by (clear - H6; change (2 ^ 32) with 4294967296 in *; lia).
  set (ml := N.min maxlen (mx - a)).
  assert (ML : 1 <= ml /\ ml <= maxlen /\ a + ml <= mx /\ (ml = maxlen \/ a + ml = mx))
    by (unfold ml; clear - LT H6; lia).
  clearbody ml. destruct (rnd s1) as [v2 s2].
  rewrite (w32_small (ml + 1)) by (clear - H6 ML; change (2 ^ 32) with 4294967296 in *; lia).
  unfold rmod at 1. destruct (ml + 1 =? 0) eqn:Z2; [lia|]. unfold rbind at 1.
  pose proof (N.mod_lt v2 (ml + 1) ltac:(lia)) as L2.
  set (q := v2 mod (ml + 1)) in *. clearbody q.
  set (l := if minlen <? q then q else N.min minlen ml).
  assert (LL : 1 <= l /\ l <= ml /\ (l < minlen -> l = ml)).
  { unfold l. clear - H5 ML L2. destruct (minlen <? q) eqn:E; lia. }
  clearbody l.
  assert (B : exists b s4,
    (if maxbe =? 0 then Ok (0, s2)
     else let (v3, s3) := rnd s2 in
          if N.odd v3 then let (v4, s4) := rnd s3 in
            rmap (fun b => (b, s4)) (rmod v4 (w32 (N.min maxbe l + 1)))
          else Ok (0, s3)) = Ok (b, s4) /\ b <= maxbe /\ b <= l).
  { destruct (maxbe =? 0); [exists 0, s2; split; [reflexivity|clear; lia]|].
    destruct (rnd s2) as [v3 s3]. destruct (N.odd v3); [|exists 0, s3; split; [reflexivity|clear; lia]].
    destruct (rnd s3) as [v4 s4]. cbv zeta.
    rewrite w32_small by (clear - H6 ML LL; change (2 ^ 32) with 4294967296 in *; lia).
    unfold rmod. destruct (N.min maxbe l + 1 =? 0) eqn:Z3; [lia|].
    pose proof (N.mod_lt v4 (N.min maxbe l + 1) ltac:(clear; lia)) as L4.
    eexists _, _. split; [reflexivity|]. set (z := v4 mod _) in *. clearbody z.
    clear - L4. lia. }
  destruct B as (b & s4 & -> & B1 & B2). unfold rbind at 1.
  destruct (rnd s4) as [v5 s5].
  assert (W : exists w s6,
    (if N.odd v5 then let (v6, s6) := rnd s5 in rmap (fun w => (w, s6)) (rmod v6 l)
     else Ok (l, s5)) = Ok (w, s6) /\ w <= l).
  { destruct (N.odd v5); [|exists l, s5; split; [reflexivity|lia]].
    destruct (rnd s5) as [v6 s6]. unfold rmod. destruct (l =? 0) eqn:Z3; [lia|].
    pose proof (N.mod_lt v6 l ltac:(clear - LL; lia)) as L6. eexists _, _.
    split; [reflexivity|]. set (z := v6 mod _) in *. clearbody z. clear - L6. lia. }
  destruct W as (w & s6 & -> & W). unfold rbind.
  destruct (w <? 0) eqn:E0; [clear - E0; lia|].
  destruct (maxlen <? w) eqn:E1; [clear - E1 W ML LL; lia|].
  eexists. split; [reflexivity|]. cbn [r_left r_lastw r_init r_has r_addr r_len r_be r_sw].
  assert (W2 : 1 <= (if w =? 0 then l else w) <= l)
    by (clear - W LL; destruct (w =? 0) eqn:E2; lia).
  do 4 (split; [first [reflexivity|assumption]|]). clear - G DM ML LL B1 B2 W2. unfold figures.
  split; [exact G|]. split; [lia|]. split; [exact DM|]. clear G DM. lia.
Qed.

Lemma fill_ok n : forall v s, length (fst (fill rnd n v s)) = n /\
  bytes_ok (fst (fill rnd n v s)).
Proof.
  induction n as [|n IH]; intros v s; [split; [reflexivity|constructor]|].
  cbn [fill]. destruct (if v =? 0 then rnd s else (v, s)) as [v' s'].
  specialize (IH (N.shiftr v' 8) s'). destruct (fill rnd n _ _) as [l s2].
  cbn [fst] in *. destruct IH as [A B]. split; [cbn [length]; lia|]. constructor; [|exact B].
  unfold is_byte. change 255 with (N.ones 8). rewrite N.land_ones. apply N.mod_lt. discriminate.
Qed.
Lemma enables_length n : forall v s, length (fst (enables rnd n v s)) = n.
Proof.
  induction n as [|n IH]; intros v s; [reflexivity|].
  cbn [enables]. destruct (if v =? 0 then rnd s else (v, s)) as [v' s'].
  specialize (IH (N.shiftr v' 1) s'). destruct (enables rnd n _ _) as [l s2].
  cbn [fst length] in *. lia.
Qed.

(** What stays when only the seed moves. *)
Definition like (r r' : rt) : Prop := exists s, r' = seeded r s.
Lemma get_data_ok r : r_init r = false -> exists s,
  snd (get_data rnd r) = seeded r s /\
  N.of_nat (length (fst (get_data rnd r))) = r_len r /\ bytes_ok (fst (get_data rnd r)).
Proof.
  intros I. unfold get_data. rewrite I. pose proof (fill_ok (N.to_nat (r_len r)) 0 (r_seed r)) as F.
  destruct (fill _ _ _ _) as [l s]. cbn [fst snd] in *. exists s. split; [reflexivity|].
  split; [lia|apply F].
Qed.
Lemma get_be_ok r : exists s, snd (get_be rnd r) = seeded r s /\
  N.of_nat (length (fst (get_be rnd r))) = r_be r.
Proof.
  unfold get_be. pose proof (enables_length (N.to_nat (r_be r)) 0 (r_seed r)) as F.
  destruct (enables _ _ _ _) as [l s]. cbn [fst snd] in *. exists s. split; [reflexivity|lia].
Qed.

Definition fresh (r : rt) : Prop :=
  r_lastw r = false /\ r_has r = false /\ r_init r = false.
Definition back (r : rt) (a l : N) : Prop :=
  r_lastw r = true /\ r_has r = true /\ r_init r = false /\ r_addr r = a /\ r_len r = l /\
  r_be r = 0 /\ r_sw r = l.

(** From the command on, with the range known. *)
Definition rest (c : cmd) (r : rt) : txn * rt :=
  let (d, r) := match c with Write => get_data rnd r | _ => ([], r) end in
  let (e, r) := get_be rnd r in
  let (e, r) := if r_be r =? 0 then (e, r) else get_be rnd r in
  (mkX c (r_addr r) (r_len r) d e (r_sw r), next r).
Lemma rest_ok c r : r_init r = false \/ c = Read -> c <> Ignore ->
  exists d e s, rest c r = (mkX c (r_addr r) (r_len r) d e (r_sw r), next (seeded r s)) /\
    N.of_nat (length e) = r_be r /\ carries (mkX c (r_addr r) (r_len r) d e (r_sw r)).
Proof.
  intros I NI. unfold rest.
  assert (D : exists d s, (match c with Write => get_data rnd r | _ => ([], r) end) = (d, seeded r s)
    /\ forall e, carries (mkX c (r_addr r) (r_len r) d e (r_sw r))).
  { destruct c; [exists [], (r_seed r); split; [destruct r; reflexivity|reflexivity]| |contradiction].
    destruct I as [I|I]; [|discriminate I].
    destruct (get_data_ok r I) as (s & A & B & C). destruct (get_data rnd r) as [d r'].
    cbn [fst snd] in *. subst r'. exists d, s. split; [reflexivity|]. intros e.
    split; assumption. }
  destruct D as (d & s1 & -> & D). set (r1 := seeded r s1).
  destruct (get_be_ok r1) as (s2 & A & B). destruct (get_be rnd r1) as [e r2].
  cbn [fst snd] in *. subst r2. set (r2 := seeded r1 s2).
  assert (E : exists e' s3, (if r_be r2 =? 0 then (e, r2) else get_be rnd r2) = (e', seeded r s3)
    /\ N.of_nat (length e') = r_be r).
  { destruct (r_be r2 =? 0); [exists e, s2; split; [reflexivity|exact B]|].
    destruct (get_be_ok r2) as (s3 & A & B'). destruct (get_be rnd r2) as [e' r3].
    cbn [fst snd] in *. subst r3. exists e', s3. split; [reflexivity|exact B']. }
  destruct E as (e' & s3 & -> & E). exists d, e', s3. split; [reflexivity|]. split; [exact E|].
  apply D.
Qed.
Lemma round_rest r : round rnd p r =
  rmap (rest (fst (get_cmd rnd r))) (need rnd p (snd (get_cmd rnd r))).
Proof.
  unfold round, rest. destruct (get_cmd rnd r) as [c r1]. cbn [fst snd].
  destruct (need rnd p r1) as [r2| | |]; try reflexivity.
  unfold rmap, rbind. destruct (match c with Write => get_data rnd r2 | _ => ([], r2) end) as [d r3].
  destruct (get_be rnd r3) as [e r4]. destruct (if r_be r4 =? 0 then _ else _) as [e' r5].
  reflexivity.
Qed.

Lemma round_back r a l : back r a l -> 0 < r_left r < 2 ^ 32 ->
  exists r', round rnd p r = Ok (mkX Read a l [] [] l, r') /\ fresh r' /\
    r_left r' = r_left r - 1.
Proof.
  intros (A & B & C & D & E & F & G) L. rewrite round_rest. unfold get_cmd. rewrite A.
  cbn [fst snd]. unfold need. cbn [r_has]. rewrite B. unfold rmap, rbind.
  set (r1 := mkRt _ _ _ _ _ _ _ _ _).
  destruct (rest_ok Read r1 (or_intror eq_refl) ltac:(discriminate)) as (d & e & s & -> & X & Y).
  cbn in Y. subst d. cbn in X. rewrite F in X. destruct e; [|discriminate X].
  eexists. split; [cbn [r1 r_addr r_len r_sw]; rewrite D, E, G; reflexivity|].
  split; [split; [reflexivity|split; reflexivity]|]. unfold next, seeded.
  cbn [r1 r_lastw r_left]. change (2 ^ 32) with 4294967296 in *. unfold w32.
  replace (r_left r + 4294967296 - 1) with (r_left r - 1 + 1 * 4294967296) by lia.
  rewrite N.mod_add by discriminate. apply N.mod_small. lia.
Qed.

Lemma round_fresh r : fresh r -> 0 < r_left r < 2 ^ 32 ->
  exists x r', round rnd p r = Ok (x, r') /\ within mn mx k minlen maxlen maxbe x /\
    carries x /\ r_left r' = r_left r - 1 /\
    (x_cmd x = Write /\ back r' (x_addr x) (x_len x) \/ x_cmd x = Read /\ fresh r').
Proof.
  intros (A & B & C) L. rewrite round_rest. unfold get_cmd. rewrite A.
  destruct (rnd (r_seed r)) as [v s]. cbn [fst snd]. rewrite C, orb_false_r.
  set (c := if N.odd v then Write else Read).
  unfold need. cbn [r_has]. rewrite B.
  set (r1 := mkRt _ _ _ _ _ _ _ _ _).
  destruct (gen_ok r1 eq_refl) as (r2 & -> & G1 & G2 & G3 & G5 & G4). unfold rmap, rbind.
  destruct (rest_ok c r2 (or_introl G3)) as (d & e & s' & -> & X & Y);
    [unfold c; destruct (N.odd v); discriminate|].
  set (x := mkX _ _ _ _ _ _) in *. exists x, (next (seeded r2 s')). split; [reflexivity|].
  split. { unfold within, figures in *. cbn [x x_addr x_len x_be x_sw] in *. rewrite X. exact G4. }
  split; [exact Y|].
  assert (LE : w32 (r_left r2 + 2 ^ 32 - 1) = r_left r - 1).
  { rewrite G1. cbn [r1 r_left]. change (2 ^ 32) with 4294967296 in *. unfold w32.
    change (2 ^ 32) with 4294967296.
    replace (r_left r + 4294967296 - 1) with (r_left r - 1 + 1 * 4294967296) by lia.
    rewrite N.mod_add by discriminate. apply N.mod_small. lia. }
  assert (G2' : r_lastw r2 = N.odd v) by exact G2.
  unfold next, seeded, back, fresh. cbn [r_lastw r_left x x_cmd x_addr x_len]. rewrite G2'.
  unfold c. destruct (N.odd v); cbn [r_left r_lastw r_has r_init r_addr r_len r_be r_sw].
  - split; [exact LE|]. left. repeat split; try reflexivity.
    exact G5.
  - split; [exact LE|]. right. repeat split; reflexivity.
Qed.

Lemma paired_cons w l : paired l ->
  (x_cmd w = Write -> forall r, nth_error l 0 = Some r -> reads_back w r) -> paired (w :: l).
Proof.
  intros P H [|i] a b A B C; cbn [nth_error] in *.
  - injection A as <-. apply (H C b B).
  - exact (P i a b A B C).
Qed.

Lemma paired_nil : paired [].
Proof. intros [|i] w y A; discriminate A. Qed.
Lemma nil_fresh r : r_left r = 0 -> @Ok (list txn * rt) ([], r) = Ok ([], r) /\
  N.of_nat (length (@nil txn)) = r_left r /\ r_left r = 0 /\
  Forall (within mn mx k minlen maxlen maxbe) [] /\ Forall carries [] /\ paired [].
Proof.
  intros Z. rewrite Z. do 5 (split; [first [reflexivity|constructor]|]). apply paired_nil.
Qed.
Lemma nil_back r a ln : r_left r = 0 -> @Ok (list txn * rt) ([], r) = Ok ([], r) /\
  N.of_nat (length (@nil txn)) = r_left r /\ r_left r = 0 /\
  (forall x, nth_error [] 0 = Some x -> x = mkX Read a ln [] [] ln) /\
  Forall (within mn mx k minlen maxlen maxbe) (tl []) /\ Forall carries [] /\ paired [].
Proof.
  intros Z. rewrite Z. do 3 (split; [reflexivity|]). split; [intros x A; discriminate A|].
  do 2 (split; [constructor|]). apply paired_nil.
Qed.

Lemma rounds_ok n : forall r, (r_left r <= N.of_nat n) -> r_left r < 2 ^ 32 ->
  (fresh r -> exists l r', rounds rnd p n r = Ok (l, r') /\
     N.of_nat (length l) = r_left r /\ r_left r' = 0 /\
     Forall (within mn mx k minlen maxlen maxbe) l /\ Forall carries l /\ paired l) /\
  (forall a ln, back r a ln -> exists l r', rounds rnd p n r = Ok (l, r') /\
     N.of_nat (length l) = r_left r /\ r_left r' = 0 /\
     (forall x, nth_error l 0 = Some x -> x = mkX Read a ln [] [] ln) /\
     Forall (within mn mx k minlen maxlen maxbe) (tl l) /\ Forall carries l /\ paired l).
Proof.
  induction n as [|n IH]; intros r N1 N2.
  - assert (Z : r_left r = 0) by lia. split; intros; exists [], r; cbn [rounds].
    + apply nil_fresh, Z.
    + apply nil_back, Z.
  - cbn [rounds]. destruct (r_left r =? 0) eqn:Z.
    + apply N.eqb_eq in Z. split; intros; exists [], r; [apply nil_fresh, Z|apply nil_back, Z].
    + apply N.eqb_neq in Z. split.
      * intros F. destruct (round_fresh r F ltac:(lia)) as (x & r1 & -> & W & C & L & D).
        cbn [rbind fst snd]. destruct (IH r1 ltac:(lia) ltac:(lia)) as [IH1 IH2].
        destruct D as [[D1 D2]|[D1 D2]].
        -- destruct (IH2 _ _ D2) as (l & r' & -> & Q1 & Q2 & Q3 & Q4 & Q5 & Q6).
           exists (x :: l), r'. unfold rmap, rbind; cbn [fst snd length]. split; [reflexivity|].
           split; [lia|]. split; [exact Q2|]. split.
           { constructor; [exact W|]. destruct l as [|y l]; [constructor|].
             constructor; [|exact Q4]. rewrite (Q3 y eq_refl).
             unfold within in *. cbn [x_addr x_len x_be x_sw length]. destruct W as (? & ? & ? & ? & ? & ?).
             repeat split; auto; try lia. }
           split; [constructor; assumption|]. apply paired_cons; [exact Q6|].
           intros _ y Y. rewrite (Q3 y Y). repeat split; reflexivity.
        -- destruct (IH1 D2) as (l & r' & -> & Q1 & Q2 & Q3 & Q4 & Q5).
           exists (x :: l), r'. unfold rmap, rbind; cbn [fst snd length]. split; [reflexivity|].
           split; [lia|]. split; [exact Q2|]. split; [constructor; assumption|].
           split; [constructor; assumption|]. apply paired_cons; [exact Q5|].
           intros E. rewrite E in D1. discriminate D1.
      * intros a ln B. destruct (round_back r a ln B ltac:(lia)) as (r1 & -> & F & L).
        cbn [rbind fst snd]. destruct (IH r1 ltac:(lia) ltac:(lia)) as [IH1 _].
        destruct (IH1 F) as (l & r' & -> & Q1 & Q2 & Q3 & Q4 & Q5).
        eexists (_ :: l), r'. unfold rmap, rbind; cbn [fst snd length]. split; [reflexivity|].
        split; [lia|]. split; [exact Q2|].
        split. { intros x X. injection X as <-. reflexivity. }
        split; [exact Q3|]. split; [constructor; [reflexivity|exact Q4]|].
        apply paired_cons; [exact Q5|]. intros E. discriminate E.
Qed.

Lemma round_init r : r_lastw r = false -> r_has r = false -> r_init r = true ->
  mx - mn < 2 ^ 32 -> 0 < r_left r < 2 ^ 32 ->
  exists x r', round rnd p r = Ok (x, r') /\ clears mn mx x /\
    back r' (x_addr x) (x_len x) /\ r_left r' = r_left r - 1.
Proof.
  intros A B C W L. destruct S as (H1 & H2 & _). unfold round, get_cmd. rewrite A.
  destruct (rnd (r_seed r)) as [v s]. cbn [fst snd]. rewrite C, orb_true_r.
  unfold need. cbn [r_has]. rewrite B. unfold gen. cbn [r_init].
  unfold params, p_min, p_max. rewrite sub64_small by lia. rewrite w32_small by exact W.
  cbn [rbind]. unfold get_data. cbn [r_init r_len r_be]. unfold get_be. cbn [r_be r_seed].
  change (enables rnd (N.to_nat 0) 0 s) with (@nil bool, s). cbn [seeded r_be].
  change (0 =? 0) with true. cbv iota beta.
  eexists _, _. split; [reflexivity|]. split; [repeat split|]. split; [repeat split|].
  cbn. unfold w32. change (2 ^ 32) with 4294967296 in *.
  replace (r_left r + 4294967296 - 1) with (r_left r - 1 + 1 * 4294967296) by lia.
  rewrite N.mod_add by discriminate. apply N.mod_small. lia.
Qed.
End R.

(** ** Lists of transfers *)
Section G.
Variable T : Type.
Variable target : T -> txn * option ext -> T * bool * list N.

Lemma td_asked t : (g_enabled (tr_attr t) = true -> g_region (tr_attr t) = g_qos (tr_attr t)) ->
  asked t (td_txn t, td_ext t).
Proof.
  intros H. unfold asked, td_txn, td_ext, named, td_cmd. cbn [fst snd x_addr x_len x_be x_sw x_cmd x_data].
  repeat (split; [reflexivity|]).
  split. { intros ->. split; reflexivity. }
  split. { intros ->. reflexivity. }
  split. { intros L. destruct (tr_cmd t =? 1) eqn:E; [lia|]. destruct (tr_cmd t =? 0) eqn:F; [lia|].
           reflexivity. }
  destruct (g_enabled (tr_attr t)) eqn:E; [|reflexivity]. specialize (H eq_refl).
  cbn. repeat split. symmetry. exact H.
Qed.

Lemma firstn_nth {A} n : forall (a b : list A), firstn n a = firstn n b <->
  forall i, (i < n)%nat -> nth_error a i = nth_error b i.
Proof.
  induction n as [|n IH]; intros a b; cbn [firstn].
  - split; [intros _ i L; lia|reflexivity].
  - destruct a as [|x a], b as [|y b].
    + split; [reflexivity|reflexivity].
    + split; [discriminate|]. intros H. specialize (H O ltac:(lia)). discriminate H.
    + split; [discriminate|]. intros H. specialize (H O ltac:(lia)). discriminate H.
    + split.
      * intros H. injection H as -> H. intros [|i] L; [reflexivity|]. cbn.
        apply (proj1 (IH a b) H). lia.
      * intros H. pose proof (H O ltac:(lia)) as H0. injection H0 as ->. f_equal.
        apply IH. intros i L. apply (H (Datatypes.S i)). lia.
Qed.

Lemma generate_ok l : forall s xs s' err, generate T target s l = (xs, s', err) ->
  Forall2 (fun t x => x = (td_txn t, td_ext t)) (firstn (length xs) l) xs /\
  (length xs <= length l)%nat /\ length (answers target s xs) = length xs /\
  (err = false -> length xs = length l) /\
  (err = true -> (0 < length xs)%nat) /\
  (forall i t a, nth_error l i = Some t -> nth_error (answers target s xs) i = Some a ->
     (fine t a <-> (err = false \/ (Datatypes.S i < length xs)%nat))).
Proof.
  induction l as [|t l IH]; intros s xs s' err H; cbn [generate] in H.
  - injection H as <- <- <-. cbn. repeat split; auto; try discriminate; try lia.
    all: try (intros; destruct i; discriminate).
  - destruct (target s (td_txn t, td_ext t)) as [[s1 ok] d] eqn:E.
    set (x := (td_txn t, td_ext t)) in *.
    set (bad := match tr_expect t with Some e => _ | None => _ end) in H.
    assert (F : fine t (ok, d) <-> (negb ok = false /\ bad = false)).
    { unfold fine, bad. cbn [fst snd]. destruct ok; [|cbn; split; [intros [A _]; discriminate A|intros [A _]; discriminate A]].
      cbn [negb]. destruct (tr_expect t) as [e|].
      - destruct (list_eq_dec N.eq_dec _ _) as [Q|Q]; cbn [negb].
        + split; [split; reflexivity|]. intros _. split; [reflexivity|]. intros e' [= <-].
          apply firstn_nth. exact Q.
        + split; [|intros [_ A]; discriminate A]. intros [_ A]. exfalso. apply Q.
          apply firstn_nth. apply A. reflexivity.
      - split; [split; reflexivity|]. intros _. split; [reflexivity|]. intros e' [=]. }
    clearbody bad.
    assert (Stop : (xs, s', err) = ([x], s1, true) -> negb ok = true \/ bad = true ->
      Forall2 (fun t x => x = (td_txn t, td_ext t)) (firstn (length xs) (t :: l)) xs /\
      (length xs <= length (t :: l))%nat /\ length (answers target s xs) = length xs /\
      (err = false -> length xs = length (t :: l)) /\
      (err = true -> (0 < length xs)%nat) /\
      (forall i t0 a, nth_error (t :: l) i = Some t0 -> nth_error (answers target s xs) i = Some a ->
         (fine t0 a <-> (err = false \/ (Datatypes.S i < length xs)%nat)))).
    { intros [= -> -> ->] NB. cbn [answers length firstn]. rewrite E. cbn [length].
      split; [constructor; [reflexivity|constructor]|]. split; [lia|]. split; [reflexivity|].
      split; [intros Q; discriminate Q|]. split; [lia|]. intros i t0 a X Y.
      destruct i as [|i]; [|destruct i; discriminate Y]. injection X as <-. injection Y as <-.
      rewrite F. split; [intros [Q1 Q2]; destruct NB; congruence|].
      intros [Q|Q]; [discriminate Q|lia]. }
    destruct (negb ok) eqn:NO; [apply Stop; [symmetry; exact H|left; reflexivity]|].
    destruct bad eqn:BD; [apply Stop; [symmetry; exact H|right; reflexivity]|]. clear Stop.
    destruct (generate T target s1 l) as [[ys s2] err'] eqn:G. injection H as <- <- <-.
    destruct (IH _ _ _ _ G) as (A & B & C & D & D' & Q). cbn [answers length firstn]. rewrite E.
    cbn [length]. split; [constructor; [reflexivity|exact A]|]. split; [lia|]. split; [lia|].
    split; [intros; f_equal; auto|]. split; [lia|].
    intros [|i] t0 a X Y; cbn [nth_error] in X, Y.
    + injection X as <-. injection Y as <-. split; [|intros _; apply F; split; reflexivity].
      intros _. destruct err'; [right; specialize (D' eq_refl); lia|left; reflexivity].
    + rewrite (Q i t0 a X Y). lia.
Qed.
End G.

(** ** Batches on a thread *)
Definition due (s : tg) : list (N * option N) :=
  match g_ph s, g_pend s with
  | Running b, _ => [(b, g_cb s)]
  | _, Some b => [(b, g_cb s)]
  | _, None => []
  end.
Definition sane (s : tg) : Prop :=
  match g_ph s with
  | Running _ => g_pend s = None
  | Waiting => g_pend s = None
  | Woken => g_pend s <> None
  | Delayed => g_pend s = None -> g_cb s = None
  end.

Lemma act_ok s a : sane s -> (match a with Add _ _ => free s | _ => True end) ->
  sane (fst (act s a)) /\
  flat_map served (due s ++ added s [a]) = snd (act s a) ++ flat_map served (due (fst (act s a))).
Proof.
  intros I P. destruct s as [pe cb ph]. unfold sane, free in *. cbn [g_pend g_cb g_ph] in *.
  destruct a as [b c| |re]; cbn [act added].
  - destruct P as [-> [-> | ->]]; cbn; (split; [discriminate|reflexivity]).
  - destruct ph as [| | |b]; cbn in *.
    + destruct pe; cbn; [split; [reflexivity|reflexivity]|]. rewrite (I eq_refl). split; reflexivity.
    + subst pe. cbn. split; reflexivity.
    + destruct pe; [|contradiction (I eq_refl)]. cbn. split; reflexivity.
    + subst pe. cbn. split; reflexivity.
  - destruct ph as [| | |b]; cbn in *.
    + split; [exact I|]. destruct re as [[b' c']|]; cbn; rewrite app_nil_r; reflexivity.
    + split; [exact I|]. destruct re as [[b' c']|]; cbn; rewrite app_nil_r; reflexivity.
    + split; [exact I|]. destruct re as [[b' c']|]; cbn; rewrite app_nil_r; reflexivity.
    + subst pe. destruct cb as [c|], re as [[b' c']|]; cbn; split; (reflexivity || discriminate).
Qed.

Lemma acts_ok l : forall s, sane s -> polite s l ->
  sane (fst (acts s l)) /\
  flat_map served (due s ++ added s l) = snd (acts s l) ++ flat_map served (due (fst (acts s l))).
Proof.
  induction l as [|a l IH]; intros s I P; cbn [acts added].
  - cbn. rewrite app_nil_r. split; [exact I|reflexivity].
  - destruct P as [P1 P2]. destruct (act_ok s a I P1) as [A B]. destruct (IH _ A P2) as [C D].
    cbn [added] in B. rewrite app_nil_r in B.
    destruct (act s a) as [s1 e1]. cbn [fst snd] in *. destruct (acts s1 l) as [s2 e2].
    cbn [fst snd] in *. split; [exact C|]. rewrite app_assoc, flat_map_app, B.
    rewrite <- !app_assoc. f_equal. rewrite <- flat_map_app. exact D.
Qed.

(** ** Streaming widths *)
Section Widths.
Variable rnd : N -> N * N.
Variable p : par.
Hypothesis Hsw : p_minsw p <= p_maxsw p.

Definition sw_fine (r : rt) : Prop :=
  r_has r = true -> r_sw r = r_len r \/ p_minsw p <= r_sw r <= p_maxsw p.

Lemma gen_sw r r' : gen rnd p r = Ok r' ->
  r_sw r' = r_len r' \/ p_minsw p <= r_sw r' <= p_maxsw p.
Proof.
  unfold gen. destruct (r_init r).
  { intros H. injection H as <-. left. reflexivity. }
  destruct (rnd (r_seed r)) as [v1 s1]. destruct (rmod v1 _) as [off| | |]; cbn [rbind]; try discriminate.
  destruct (rnd s1) as [v2 s2]. destruct (rmod v2 _) as [len0| | |]; cbn [rbind]; try discriminate.
  cbv zeta. set (len := if p_minlen p <? len0 then _ else _). clearbody len.
  match goal with |- rbind ?e _ = _ -> _ => destruct e as [[be s4]| | |] end;
    cbn [rbind]; try discriminate.
  destruct (rnd s4) as [v5 s5].
  match goal with |- rbind ?e _ = _ -> _ => destruct e as [[sw s6]| | |] end;
    cbn [rbind]; try discriminate.
  intros H. injection H as <-. cbn [r_sw r_len].
  destruct (N.ltb_spec sw (p_minsw p)) as [A|A].
  - destruct (N.ltb_spec (p_maxsw p) (p_minsw p)); [lia|].
    destruct (N.eqb_spec (p_minsw p) 0); [left; reflexivity|right; lia].
  - destruct (N.ltb_spec (p_maxsw p) sw).
    + destruct (N.eqb_spec (p_maxsw p) 0); [left; reflexivity|right; lia].
    + destruct (N.eqb_spec sw 0); [left; reflexivity|right; lia].
Qed.

Lemma get_cmd_keep r : r_has (snd (get_cmd rnd r)) = r_has r /\
  r_sw (snd (get_cmd rnd r)) = r_sw r /\ r_len (snd (get_cmd rnd r)) = r_len r.
Proof.
  unfold get_cmd. destruct (r_lastw r); [repeat split|].
  destruct (rnd (r_seed r)). repeat split.
Qed.

Lemma get_be_keep r : r_has (snd (get_be rnd r)) = r_has r /\
  r_sw (snd (get_be rnd r)) = r_sw r /\ r_len (snd (get_be rnd r)) = r_len r.
Proof. unfold get_be. destruct (enables rnd _ 0 _). repeat split. Qed.
Lemma get_data_keep r : r_has (snd (get_data rnd r)) = r_has r /\
  r_sw (snd (get_data rnd r)) = r_sw r /\ r_len (snd (get_data rnd r)) = r_len r.
Proof.
  unfold get_data. destruct (r_init r); [repeat split|].
  destruct (fill rnd _ 0 _). repeat split.
Qed.

Lemma round_sw r x r' : sw_fine r -> round rnd p r = Ok (x, r') ->
  in_limits (p_minsw p) (p_maxsw p) x /\ sw_fine r'.
Proof.
  intros Hr. unfold round. pose proof (get_cmd_keep r) as [A1 [A2 A3]].
  destruct (get_cmd rnd r) as [c r1]. cbn [snd] in A1, A2, A3.
  destruct (need rnd p r1) as [r2| | |] eqn:En; cbn [rbind]; try discriminate.
  assert (H2 : r_sw r2 = r_len r2 \/ p_minsw p <= r_sw r2 <= p_maxsw p).
  { unfold need in En. destruct (r_has r1) eqn:Eh.
    - injection En as <-. rewrite A2, A3. apply Hr. congruence.
    - exact (gen_sw r1 r2 En). }
  clear En A1 A2 A3 r1.
  assert (H3 : exists d r3, (match c with Write => get_data rnd r2 | _ => ([], r2) end) = (d, r3) /\
             r_sw r3 = r_sw r2 /\ r_len r3 = r_len r2).
  { destruct c; [eexists _, _; repeat split| |eexists _, _; repeat split].
    pose proof (get_data_keep r2) as [_ [B C]]. destruct (get_data rnd r2) as [d r3].
    exists d, r3. repeat split; assumption. }
  destruct H3 as [d [r3 [-> [B3 C3]]]].
  pose proof (get_be_keep r3) as [_ [B4 C4]]. destruct (get_be rnd r3) as [e r4].
  cbn [snd] in B4, C4.
  assert (H5 : exists e5 r5, (if r_be r4 =? 0 then (e, r4) else get_be rnd r4) = (e5, r5) /\
             r_sw r5 = r_sw r4 /\ r_len r5 = r_len r4).
  { destruct (r_be r4 =? 0); [eexists _, _; repeat split|].
    pose proof (get_be_keep r4) as [_ [B C]]. destruct (get_be rnd r4) as [e5 r5].
    exists e5, r5. repeat split; assumption. }
  destruct H5 as [e5 [r5 [-> [B5 C5]]]].
  intros H. injection H as <- <-. split.
  - unfold in_limits. cbn [x_sw x_len]. rewrite B5, C5, B4, C4, B3, C3. exact H2.
  - unfold sw_fine, next. destruct (r_lastw r5); cbn [r_has r_sw r_len].
    + intros _. left. reflexivity.
    + discriminate.
Qed.

Lemma rounds_sw n : forall r l r', sw_fine r -> rounds rnd p n r = Ok (l, r') ->
  Forall (in_limits (p_minsw p) (p_maxsw p)) l.
Proof.
  induction n as [|n IH]; intros r l r' Hr H; cbn [rounds] in H.
  - injection H as <- _. constructor.
  - destruct (r_left r =? 0); [injection H as <- _; constructor|].
    destruct (round rnd p r) as [[x r1]| | |] eqn:E; cbn [rbind fst snd] in H; try discriminate.
    destruct (round_sw r x r1 Hr E) as [Hx H1].
    destruct (rounds rnd p n r1) as [[l1 r2]| | |] eqn:E2; cbn in H; try discriminate.
    injection H as <- _. constructor; [exact Hx|]. apply (IH r1 l1 r2 H1 E2).
Qed.
End Widths.
