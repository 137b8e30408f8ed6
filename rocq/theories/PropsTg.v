(** C89-C91: the traffic generators. *)
From Verif Require Import Base BaseFacts LeFacts TgModel TgSpec TgProofs.
From Coq Require Import Lia ZifyN ZifyNat ZifyBool.
Open Scope N_scope.

(** ** C89: random traffic *)
Theorem C89_random_partial rnd mn mx k minlen maxlen maxbe num seed n :
  sensible mn mx k minlen maxlen maxbe -> num < 2 ^ 32 -> num <= N.of_nat n ->
  exists l r, rounds rnd (params mn mx (aligned k) minlen maxlen maxbe) n
                (rt0 num seed false) = Ok (l, r) /\
    N.of_nat (length l) = num /\
    Forall (within mn mx k minlen maxlen maxbe) l /\ Forall carries l /\ paired l.
Proof.
  intros S A B.
  destruct (rounds_ok rnd mn mx k minlen maxlen maxbe S n (rt0 num seed false) B A) as [H _].
  destruct H as (l & r & E & L & _ & W & C & P); [repeat split|].
  exists l, r. split; [exact E|]. split; [exact L|]. split; [exact W|]. split; [exact C|exact P].
Qed.

(** With initMemory the first transaction writes zeros over the window. *)
Theorem C89_init_partial rnd mn mx k minlen maxlen maxbe num seed n :
  sensible mn mx k minlen maxlen maxbe -> mx - mn < 2 ^ 32 ->
  0 < num < 2 ^ 32 -> num <= N.of_nat n ->
  exists x l r, rounds rnd (params mn mx (aligned k) minlen maxlen maxbe) n
                  (rt0 num seed true) = Ok (x :: l, r) /\
    N.of_nat (length (x :: l)) = num /\ clears mn mx x /\
    Forall (within mn mx k minlen maxlen maxbe) (tl l) /\ Forall carries l /\
    paired (x :: l).
Proof.
  intros S W A B. destruct n as [|n]; [lia|]. cbn [rounds].
  change (r_left (rt0 num seed true)) with num.
  destruct (num =? 0) eqn:Z; [lia|].
  destruct (round_init rnd mn mx k minlen maxlen maxbe S (rt0 num seed true) eq_refl eq_refl eq_refl W A)
    as (x & r1 & E & C & K & L).
  rewrite E. change (r_left (rt0 num seed true)) with num in L. cbn [rbind fst snd].
  destruct (rounds_ok rnd mn mx k minlen maxlen maxbe S n r1 ltac:(lia) ltac:(lia)) as [_ H].
  destruct (H _ _ K) as (l & r' & -> & Q1 & Q2 & Q3 & Q4 & Q5 & Q6).
  exists x, l, r'. unfold rmap, rbind. cbn [fst snd length]. split; [reflexivity|].
  split; [lia|]. split; [exact C|]. split; [exact Q4|]. split; [exact Q5|].
  apply paired_cons; [exact Q6|]. intros _ y Y. rewrite (Q3 y Y). repeat split; reflexivity.
Qed.

Example C89_case :
  exists w r x y s, rounds glibc (params 4096 8192 (aligned 2) 1 16 4) 10 (rt0 4 1 false)
    = Ok ([w; r; x; y], s) /\
  w = mkX Write 7672 14 [71; 60; 32; 55; 135; 154; 117; 70; 136; 168; 150; 53; 234; 102]
        [true; false] 2 /\
  r = mkX Read 7672 14 [] [] 14 /\ x = mkX Read 7988 4 [] [true; true; true] 4 /\
  y = mkX Write 5388 7 [112; 133; 111; 117; 143; 237; 11] [] 5.
Proof. do 5 eexists. split; [vm_compute; reflexivity|]. repeat split. Qed.

(** A window that does not start on the boundary of the mask: the address is below it. *)
Theorem C89_mask_refuted :
  exists x r, rounds glibc (params 4100 4104 (aligned 3) 1 4 0) 1 (rt0 1 1 false)
    = Ok ([x], r) /\ x_cmd x = Write /\ x_addr x < 4100.
Proof. do 2 eexists. split; [vm_compute; reflexivity|]. split; reflexivity. Qed.

(** A smallest length of 0, which the interface allows: a division by zero. *)
Theorem C89_zero_refuted :
  rounds glibc (params 0 4096 (aligned 0) 0 4 0) 1 (rt0 1 6 false) = UB.
Proof. vm_compute. reflexivity. Qed.

(** With limits for the streaming width: every width is within them or the whole
    length. *)
Theorem C89_limits_partial rnd p num seed init n l r : p_minsw p <= p_maxsw p ->
  rounds rnd p n (rt0 num seed init) = Ok (l, r) ->
  Forall (in_limits (p_minsw p) (p_maxsw p)) l.
Proof.
  intros Hs H. apply (rounds_sw rnd p Hs n (rt0 num seed init) l r); [|exact H].
  intros E. discriminate E.
Qed.

Example C89_limits_case :
  exists x y r, rounds glibc (mkPar 0 4096 (aligned 0) 1 8 0 2 0) 2 (rt0 2 5 false)
    = Ok ([x; y], r) /\ x_len x = 8 /\ x_sw x = 2 /\ x_len y = 8 /\ x_sw y = 2.
Proof. do 3 eexists. split; [vm_compute; reflexivity|]. repeat split. Qed.

(** The largest streaming width is not kept by the read after a write, nor when
    the width drawn is 0. *)
Theorem C89_limits_refuted :
  (exists w x r, rounds glibc (mkPar 0 4096 (aligned 0) 1 8 0 2 0) 2 (rt0 2 2 false)
    = Ok ([w; x], r) /\ x_cmd w = Write /\ x_cmd x = Read /\ 2 < x_sw x) /\
  (exists x r, rounds glibc (mkPar 0 4096 (aligned 0) 1 8 0 2 0) 1 (rt0 1 6 false)
    = Ok ([x], r) /\ 2 < x_sw x).
Proof.
  split.
  - do 3 eexists. split; [vm_compute; reflexivity|]. repeat split.
  - do 2 eexists. split; [vm_compute; reflexivity|]. reflexivity.
Qed.

(** A smallest streaming width: the width exceeds the length. *)
Theorem C89_width_refuted :
  exists x r, rounds glibc (mkPar 0 4096 (aligned 0) 1 4 8 16 0) 1 (rt0 1 1 false)
    = Ok ([x], r) /\ x_len x = 3 /\ x_sw x = 8.
Proof. do 2 eexists. split; [vm_compute; reflexivity|]. split; reflexivity. Qed.

(** initMemory over a window of 4 GB: nothing is written. *)
Theorem C89_init_refuted :
  exists x r, rounds glibc (params 0 (2 ^ 32) (aligned 0) 1 4 0) 1 (rt0 1 1 true)
    = Ok ([x], r) /\ x_len x = 0 /\ x_data x = [].
Proof. do 2 eexists. split; [vm_compute; reflexivity|]. split; reflexivity. Qed.

(** ** C90: lists of transfers *)
Theorem C90_list_partial T (target : T -> txn * option ext -> T * bool * list N) l s xs s' err :
  (forall t, In t l -> g_enabled (tr_attr t) = true ->
     g_region (tr_attr t) = g_qos (tr_attr t)) ->
  generate T target s l = (xs, s', err) ->
  Forall2 asked (firstn (length xs) l) xs /\
  (err = false -> length xs = length l).
Proof.
  intros H G. destruct (generate_ok T target l s xs s' err G) as (A & _ & _ & B & _).
  split; [|exact B]. clear - H A. revert A. generalize (length xs). intros n.
  assert (H' : forall t, In t (firstn n l) -> g_enabled (tr_attr t) = true ->
    g_region (tr_attr t) = g_qos (tr_attr t)).
  { intros t I. apply H. rewrite <- (firstn_skipn n l). apply in_or_app. left. exact I. }
  clear H. revert H'. generalize (firstn n l). clear. intros l H A.
  induction A as [|t x l xs E A IH]; constructor.
  - subst x. apply td_asked. apply H. left. reflexivity.
  - apply IH. intros t' I. apply H. right. exact I.
Qed.

(** The generator stops with an error at the first answer that is not as expected, and
    only there. *)
Theorem C90_checks T (target : T -> txn * option ext -> T * bool * list N) l s xs s' err :
  generate T target s l = (xs, s', err) ->
  (err = false ->
     length (answers target s xs) = length l /\
     forall i t a, nth_error l i = Some t -> nth_error (answers target s xs) i = Some a ->
       fine t a) /\
  (err = true -> exists i t a, nth_error l i = Some t /\
     nth_error (answers target s xs) i = Some a /\ length xs = S i /\ ~ fine t a /\
     forall j t' a', (j < i)%nat -> nth_error l j = Some t' ->
       nth_error (answers target s xs) j = Some a' -> fine t' a').
Proof.
  intros G. destruct (generate_ok T target l s xs s' err G) as (_ & A & B & C & D & E).
  split.
  - intros ->. split; [rewrite B; apply C; reflexivity|]. intros i t a X Y.
    apply (E i t a X Y). left. reflexivity.
  - intros ->. specialize (D eq_refl). set (i := Nat.pred (length xs)).
    destruct (nth_error l i) as [t|] eqn:X; [|apply nth_error_None in X; unfold i in X; lia].
    destruct (nth_error (answers target s xs) i) as [a|] eqn:Y;
      [|apply nth_error_None in Y; unfold i in Y; lia].
    exists i, t, a. split; [exact X|]. split; [exact Y|]. split; [unfold i; lia|]. split.
    + intros F. apply (E i t a X Y) in F. destruct F as [F|F]; [discriminate F|unfold i in F; lia].
    + intros j t' a' L X' Y'. apply (E j t' a' X' Y'). right. unfold i in L. lia.
Qed.

Definition plain : attr :=
  mkAttr false 0 false false false 0 0 false false false false false false 0 0 0 0 false false.
(** A memory of one cell. *)
Definition cell (s : N) (x : txn * option ext) : N * bool * list N :=
  match x_cmd (fst x), x_data (fst x) with
  | Write, v :: _ => (v, true, x_data (fst x))
  | Write, [] => (s, false, [])
  | _, _ => (s, true, [s])
  end.
Example C90_case :
  generate N cell 0
    [mkTr 16 1 [7] 1 [] 1 None plain; mkTr 16 0 [] 1 [true] 1 (Some [7]) plain;
     mkTr 16 0 [] 1 [] 1 (Some [8]) plain; mkTr 20 0 [] 1 [] 1 None plain]
  = ([(mkX Write 16 1 [7] [] 1, None); (mkX Read 16 1 [] [true] 1, None);
      (mkX Read 16 1 [] [] 1, None)], 7, true).
Proof. reflexivity. Qed.

Theorem C90_region_refuted :
  exists t x s, generate N cell 0 [t] = ([x], s, false) /\
    g_enabled (tr_attr t) = true /\ ~ asked t x.
Proof.
  exists (mkTr 16 1 [7] 1 [] 1 None
    (mkAttr true 0 false false false 0 0 false false false false false false 2 5 0 0 false false)).
  do 2 eexists. split; [reflexivity|]. split; [reflexivity|].
  intros (_ & _ & _ & _ & _ & _ & _ & N). unfold named in N. cbn in N.
  destruct N as (_ & _ & _ & _ & _ & _ & _ & _ & _ & _ & _ & _ & _ & _ & N & _). discriminate N.
Qed.

(** ** C91: batches and callbacks *)
Theorem C91_batches_partial l : polite tg0 l ->
  (exists later, flat_map served (added tg0 l) = snd (acts tg0 l) ++ later) /\
  (free (fst (acts tg0 l)) -> snd (acts tg0 l) = flat_map served (added tg0 l)).
Proof.
  intros P. destruct (acts_ok l tg0 ltac:(intros _; reflexivity) P) as [A B].
  cbn [due tg0 g_ph g_pend app] in B. split; [eexists; exact B|].
  intros [F1 F2]. rewrite B. unfold due. rewrite F1.
  destruct F2 as [-> | ->]; cbn; now rewrite app_nil_r.
Qed.

(** Left alone, the thread always gets there. *)
Theorem C91_ends l : polite tg0 l -> free (fst (acts tg0 (l ++ [Top; Finish None]))).
Proof.
  intros P. destruct (acts_ok l tg0 ltac:(intros _; reflexivity) P) as [A _].
  assert (S : forall l1 l2 s, fst (acts s (l1 ++ l2)) = fst (acts (fst (acts s l1)) l2)).
  { clear. induction l1 as [|a l1 IH]; intros l2 s; [reflexivity|]. cbn [app acts].
    destruct (act s a) as [s1 e1]. specialize (IH l2 s1). destruct (acts s1 (l1 ++ l2)) as [s2 e2].
    destruct (acts s1 l1) as [s3 e3]. cbn [fst] in *. exact IH. }
  rewrite S. destruct (fst (acts tg0 l)) as [pe cb ph]. unfold sane in A.
  cbn [g_ph g_pend g_cb] in A. unfold free. destruct ph as [| | |b]; cbn.
  - destruct pe; destruct cb; cbn; auto.
  - subst pe. cbn. auto.
  - destruct pe; [|contradiction (A eq_refl)]. destruct cb; cbn; auto.
  - subst pe. destruct cb; cbn; auto.
Qed.

Example C91_case :
  acts tg0 [Add 1 (Some 10); Top; Finish (Some (2, None)); Top; Finish None; Add 3 (Some 30);
            Top; Finish None]
  = (mkTg None (Some 30) Waiting, [Ran 1; Called 10; Ran 2; Ran 3; Called 30]).
Proof. reflexivity. Qed.

(** Two batches added before the thread gets to run: the first is lost with its
    callback. *)
Theorem C91_lost_refuted :
  exists l, added tg0 l = [(1, Some 10); (2, Some 20)] /\ free (fst (acts tg0 l)) /\
    snd (acts tg0 l) = [Ran 2; Called 20].
Proof.
  exists [Add 1 (Some 10); Add 2 (Some 20); Top; Finish None].
  split; [reflexivity|]. split; [|reflexivity]. split; [reflexivity|right; reflexivity].
Qed.

(** A batch added while another is in progress: its callback is called for both. *)
Theorem C91_callback_refuted :
  exists l, added tg0 l = [(1, Some 10); (2, Some 20)] /\ free (fst (acts tg0 l)) /\
    snd (acts tg0 l) = [Ran 1; Called 20; Ran 2; Called 20].
Proof.
  exists [Add 1 (Some 10); Top; Add 2 (Some 20); Finish None; Top; Finish None].
  split; [reflexivity|]. split; [|reflexivity]. split; [reflexivity|right; reflexivity].
Qed.

Print Assumptions C89_random_partial.
Print Assumptions C89_init_partial.
Print Assumptions C89_mask_refuted.
Print Assumptions C89_zero_refuted.
Print Assumptions C89_limits_partial.
Print Assumptions C89_limits_refuted.
Print Assumptions C89_width_refuted.
Print Assumptions C89_init_refuted.
Print Assumptions C90_list_partial.
Print Assumptions C90_checks.
Print Assumptions C90_region_refuted.
Print Assumptions C91_batches_partial.
Print Assumptions C91_ends.
Print Assumptions C91_lost_refuted.
Print Assumptions C91_callback_refuted.
