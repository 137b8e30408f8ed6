(** Requests one at a time, without direct cache transfer: every such execution
    is covered. *)
From Coq Require Import ZifyBool ZifyNat.
From Verif Require Import Base BaseFacts TlmModel TlmSpec AceSpec CachelineModel ChiModel ChiFacts ChiCoh ChiCohStep ChiCohHome ChiServed.
Open Scope N_scope.

Section Seq.
Context (f : cfg).
Notation Inv := (Inv f).

(** A request starts only when no other is under way. *)
Fixpoint one_by_one (s : state) (ls : list label) : Prop :=
  match ls with
  | [] => True
  | lb :: ls' =>
    match lb with L_Start _ o => op_ok f o /\ forall j, s_t s j = Idle | _ => True end /\
    forall s' e, step f s lb = Ok (s', e) -> one_by_one s' ls'
  end.

Definition single (s : state) : Prop := forall i j, s_t s i <> Idle -> s_t s j <> Idle -> i = j.
Definition cu_here (s : state) : Prop :=
  forall i r q n, s_t s i = Wait r q n -> q_op q = CleanUnique -> s_h s = None ->
    in_cache (slot f s i (q_addr q)) (q_addr q) = true.

Lemma one_allowed s G lb :
  f_dct f = false -> Inv s G -> single s -> cu_here s ->
  match lb with L_Start _ o => op_ok f o /\ forall j, s_t s j = Idle | _ => True end ->
  (lb = lb -> match step f s lb with Unmodelled => True | _ => allowed f s lb end).
Proof.
  intros Hd I Hs Hc Hl _. destruct lb as [i o|i c|i|j junk|]; cbn [step allowed].
  - destruct Hl as [Hl _]. destruct (s_t s i); auto. destruct (_ <? _)%nat; auto.
  - destruct (match s_t s i with Run r _ => thread f s i r c | Inval r m => quiet (inval2 f s i r m c) | _ => Unmodelled end); exact Logic.I.
  - destruct (s_h s) eqn:Hh; [exact Logic.I|]. destruct (s_t s i) as [| | |r q n] eqn:Ht; try exact Logic.I.
    intro Ho. eapply Hc; eauto.
  - destruct (s_h s) as [w|] eqn:Hh; [|exact Logic.I].
    assert (X : ~ hot_on s j (q_addr (w_q w)) /\
        (in_cache (slot f s j (q_addr (w_q w))) (q_addr (w_q w)) = true ->
         l_dirty (slot f s j (q_addr (w_q w))) = true -> w_fwd w = true ->
         snp_of (q_op (w_q w)) true <> snp_of (q_op (w_q w)) false -> fwd_dirty_ok (q_op (w_q w)) = true)).
    { pose proof (iv_work _ _ _ I w Hh) as K. destruct (wk_thr _ _ _ _ _ K) as (r & n & Ht). split.
      - intros (r0 & X & _). assert (E : j = w_i w) by (apply Hs; [rewrite X|rewrite Ht]; discriminate).
        rewrite E, Ht in X. discriminate.
      - intros _ _ X. destruct (wk_fwd _ _ _ _ _ K X). congruence. }
    destruct (existsb _ _); [|exact Logic.I]. destruct (snoop f s w j junk); try exact X. exact Logic.I.
  - destruct (match s_h s with Some w => match w_todo w with [] => finish f s w | _ => Unmodelled end | None => Unmodelled end); exact Logic.I.
Qed.

(** Which process a step concerns. *)
Lemma thread_moves s i r c s' es :
  thread f s i r c = Ok (s', es) -> s_h s' = s_h s /\ (forall j, j <> i -> s_t s' j = s_t s j).
Proof.
  unfold thread. cbv zeta.
  assert (X : forall s1 p e, s_h s1 = s_h s -> s_t s1 = s_t s -> Ok (goto s1 i p, e) = Ok (s', es) ->
     s_h s' = s_h s /\ (forall j, j <> i -> s_t s' j = s_t s j)).
  { intros s1 p e A B E. injection E as <- _. split; [exact A|]. intros j Hj. rewrite off_goto by exact Hj. now rewrite B. }
  assert (Y : forall m, quiet (issue f s i r m c) = Ok (s', es) ->
     s_h s' = s_h s /\ (forall j, j <> i -> s_t s' j = s_t s j)).
  { intros m E. unfold quiet, rmap in E. destruct (issue f s i r m c) as [s1| | |] eqn:Is; try discriminate E.
    injection E as <- <-. destruct (issue_moves f _ _ _ _ _ _ Is) as (A & B & _). auto. }
  destruct (o_len (r_op r) <=? r_pos r); [now apply X|].
  destruct (o_kind (r_op r)); try discriminate.
  - destruct (in_cache _ _ && _); [now apply X|apply Y].
  - destruct (in_cache _ _); [destruct (negb _); now apply X|]. destruct (rbool f (c_store c)); [now apply X|apply Y].
Qed.

Lemma finish_moves s G w s' es : Inv s G -> s_h s = Some w -> w_todo w = [] -> finish f s w = Ok (s', es) ->
  s_h s' = None /\ (forall j, j <> w_i w -> s_t s' j = s_t s j) /\
  (forall r q n, s_t s' (w_i w) = Wait r q n -> exists q0, s_t s (w_i w) = Wait r q0 (N_Issue q)).
Proof.
  intros I Hw Htd E. pose proof (iv_work _ _ _ I w Hw) as K.
  destruct (wk_thr _ _ _ _ _ K) as (r & n & Ht).
  unfold finish in E. cbv zeta in E. change (s_t (st_h s None) (w_i w)) with (s_t s (w_i w)) in E. rewrite Ht in E.
  set (P := s_h s' = None /\ (forall j, j <> w_i w -> s_t s' j = s_t s j) /\
    (forall r1 q n1, s_t s' (w_i w) = Wait r1 q n1 -> exists q0, Wait r (w_q w) n = Wait r1 q0 (N_Issue q))).
  assert (HP : P -> s_h s' = None /\ (forall j, j <> w_i w -> s_t s' j = s_t s j) /\
    (forall r1 q n1, s_t s' (w_i w) = Wait r1 q n1 -> exists q0, s_t s (w_i w) = Wait r1 q0 (N_Issue q))) by (now rewrite Ht).
  apply HP. clear HP.
  assert (X : forall s1 p, s_h s1 = None -> s_t s1 = s_t s -> (forall r1 q n1, p = Wait r1 q n1 -> exists q0, Wait r (w_q w) n = Wait r1 q0 (N_Issue q)) ->
     goto s1 (w_i w) p = s' -> P).
  { intros s1 p A B D <-. split; [exact A|]. split; [|now rewrite at_goto]. intros j Hj. rewrite off_goto by exact Hj. now rewrite B. }
  assert (Hcd : forall s0 rs d be sn ev, s_h s0 = None -> s_t s0 = s_t s -> comp_data f s0 (w_i w) r (w_q w) rs d be sn ev = Ok (s', es) -> P).
  { intros s0 rs d be sn ev A B E0. unfold comp_data in E0. cbv zeta in E0. destruct (filter_t s0 (w_i w) (w_q w)) as [F1 F2].
    destruct (non_coherent (q_op (w_q w))).
    - destruct (sn && _); [discriminate E0|]. injection E0 as E0 _. eapply X; [| | |exact E0]; try congruence; discriminate.
    - injection E0 as E0 _. eapply X; [| | |exact E0]; cbn [put_slot s_h s_t]; try congruence; discriminate. }
  assert (Hpr : forall s0 rs ev, s_h s0 = None -> s_t s0 = s_t s -> process_req f s0 (w_i w) r (w_q w) n rs ev = Ok (s', es) -> P).
  { intros s0 rs ev A B E0. destruct (filter_t s0 (w_i w) (w_q w)) as [F1 F2].
    assert (Hco : forall r1 q n1, continue r n = Wait r1 q n1 -> exists q0, Wait r (w_q w) n = Wait r1 q0 (N_Issue q)).
    { intros r1 q n1 Q. destruct n; try discriminate Q. cbn in Q. injection Q as <- <- <-. eauto. }
    unfold process_req in E0. cbv zeta in E0. destruct (q_op (w_q w)) eqn:Ho;
      try (eapply Hcd; [| |exact E0]; assumption);
      injection E0 as E0 _; (eapply X; [| | |exact E0]); try exact Hco; try discriminate;
      try destruct (wb_pd _); cbn [put_slot st_mem s_h s_t]; congruence. }
  destruct (w_comp w) as [[[rs d] be]|]; [eapply Hcd; [| |exact E]; reflexivity|].
  destruct (w_resp w) as [|x xs]; [eapply Hpr; [| |exact E]; reflexivity|].
  destruct (w_got w && is_read (q_op (w_q w)) && negb (w_ptl w)).
  - eapply Hcd; [| |exact E]; destruct (_ && negb (allows_pd _ _)); reflexivity.
  - eapply Hpr; [| |exact E]; destruct (_ && negb (allows_pd _ _)); reflexivity.
Qed.

Lemma not_cu s G i r q n m : Inv s G -> s_t s i = Wait r q n -> n = N_Issue m \/ n = N_Inval m -> q_op m <> CleanUnique.
Proof.
  intros I Ht Hn E. pose proof (iv_thr _ _ _ I i) as X. rewrite Ht in X. destruct X as (_ & _ & X).
  assert (M : main_ok f r m) by (destruct Hn as [-> | ->]; apply X).
  destruct M as (_ & [[A _]|[A _]]); rewrite E in A; discriminate.
Qed.
Lemma main_not_cu r m : main_ok f r m -> q_op m <> CleanUnique.
Proof. intros (_ & [[A _]|[A _]]) E; rewrite E in A; discriminate. Qed.

Lemma issue_not_cu s i r m c s' r1 q n : (q_op m <> CleanUnique) ->
  (issue f s i r m c = Ok s' \/ inval2 f s i r m c = Ok s') -> s_t s' i = Wait r1 q n -> q_op q <> CleanUnique.
Proof.
  intros Hm E Hw.
  assert (X : forall s1 p, (forall r q n, p = Wait r q n -> q_op q <> CleanUnique) -> Ok (goto s1 i p) = Ok s' -> q_op q <> CleanUnique).
  { intros s1 p A B. injection B as <-. rewrite at_goto in Hw. eauto. }
  assert (Y : inval2 f s i r m c = Ok s' -> q_op q <> CleanUnique).
  { unfold inval2. cbv zeta. destruct (l_valid _); [destruct (grade_of _), (l_dirty _); try discriminate; try destruct (rbool f (c_evict c))|];
      (apply X; intros r2 q2 n2 Z; injection Z as <- <- <-; (discriminate || exact Hm)). }
  destruct E as [E|E]; [|now apply Y]. unfold issue in E. cbv zeta in E. destruct (l_valid _).
  - destruct (_ && rbool f (c_clean c)); [|now apply Y]. revert E. apply X. intros r2 q2 n2 Z. injection Z as <- <- <-. discriminate.
  - revert E. apply X. intros r2 q2 n2 Z. injection Z as <- <- <-. exact Hm.
Qed.

Lemma one_step s G lb s' es :
  Inv s G -> single s -> cu_here s ->
  match lb with L_Start _ o => op_ok f o /\ forall j, s_t s j = Idle | _ => True end ->
  step f s lb = Ok (s', es) -> single s' /\ cu_here s'.
Proof.
  intros I Hs Hc Hl E.
  assert (Hm : forall i, s_t s i <> Idle -> (forall j, j <> i -> s_t s' j = s_t s j) -> single s' /\ forall j, s_t s' j <> Idle -> j = i).
  { intros i Hi Ho. assert (X : forall j, s_t s' j <> Idle -> j = i).
    { intros j Hj. destruct (Nat.eq_dec j i) as [|Hn]; [auto|]. rewrite (Ho j Hn) in Hj. now apply Hs. }
    split; [|exact X]. intros a b Ha Hb. now rewrite (X a Ha), (X b Hb). }
  destruct lb as [i o|i c|i|j junk|]; cbn [step] in E.
  - destruct Hl as [_ Hl]. destruct (s_t s i) eqn:Ht; try discriminate E. destruct (i <? f_n f)%nat; [|discriminate E]. injection E as <- <-.
    split.
    + assert (X : forall j, s_t (goto s i (Run (mkRun o 0 []) false)) j <> Idle -> j = i).
      { intros j Hj. destruct (Nat.eq_dec j i) as [|Hn]; [auto|]. rewrite off_goto in Hj by exact Hn. now rewrite Hl in Hj. }
      intros a b Ha Hb. now rewrite (X a Ha), (X b Hb).
    + intros j r q n X. destruct (Nat.eq_dec j i) as [->|Hn]; [rewrite at_goto in X; discriminate|].
      rewrite off_goto in X by exact Hn. rewrite Hl in X. discriminate.
  - destruct (s_t s i) as [|r h|r m|] eqn:Ht; try discriminate E.
    + destruct (thread_moves s i r c s' es E) as (Eh & Ho).
      destruct (Hm i) as [S1 S2]; [rewrite Ht; discriminate|exact Ho|]. split; [exact S1|].
      intros j r1 q n Hw Hcu Hh. assert (j = i) as -> by (apply S2; rewrite Hw; discriminate).
      pose proof (iv_thr _ _ _ I i) as Hth. rewrite Ht in Hth.
      unfold thread in E. cbv zeta in E.
      assert (X : forall s1 p e, Ok (goto s1 i p, e) = Ok (s', es) -> (forall r q n, p <> Wait r q n) -> False).
      { intros s1 p e Q Z. injection Q as <- _. rewrite at_goto in Hw. now apply Z in Hw. }
      assert (Y : forall m, q_op m <> CleanUnique -> quiet (issue f s i r m c) = Ok (s', es) -> False).
      { intros m Z Q. unfold quiet, rmap in Q. destruct (issue f s i r m c) as [s1| | |] eqn:Is; try discriminate Q.
        injection Q as <- <-. eapply issue_not_cu; [exact Z|left; exact Is|exact Hw|exact Hcu]. }
      destruct (o_len (r_op r) <=? r_pos r); [exfalso; eapply X; [exact E|discriminate]|].
      destruct (o_kind (r_op r)); try discriminate E.
      * destruct (in_cache _ _ && _); [exfalso; eapply X; [exact E|discriminate]|].
        exfalso. revert E. apply Y. cbn. destruct (if f_rnd f then c_read c else 0) as [|p]; [discriminate|].
        do 3 (destruct p as [p|p|]; try discriminate).
      * destruct (in_cache (slot f s i (cur_addr r)) (cur_addr r)) eqn:C.
        -- destruct (negb _); [exfalso; eapply X; [exact E|discriminate]|].
           injection E as <- <-. rewrite at_goto in Hw. injection Hw as <- <- <-. cbn [plain q_addr].
           apply in_cache_spec in C as [V T]. unfold slot in *. cbn [s_c goto]. rewrite T, align_align.
           apply in_cache_spec. rewrite align_align. auto.
        -- destruct (rbool f (c_store c)).
           ++ injection E as <- <-. rewrite at_goto in Hw. injection Hw as <- <- <-. cbn in Hcu. destruct (all_enabled _); discriminate.
           ++ exfalso. revert E. apply Y. cbn. destruct (_ =? 64); discriminate.
    + unfold quiet, rmap in E. destruct (inval2 f s i r m c) as [s1| | |] eqn:X; try discriminate E. injection E as <- <-.
      destruct (inval2_moves f _ _ _ _ _ _ X) as (X1 & X2 & X3).
      destruct (Hm i) as [S1 S2]; [rewrite Ht; discriminate|exact X2|]. split; [exact S1|].
      intros j r1 q n Hw Hcu Hh. assert (j = i) as -> by (apply S2; rewrite Hw; discriminate).
      pose proof (iv_thr _ _ _ I i) as Hth. rewrite Ht in Hth. destruct Hth as (_ & _ & Hth).
      exfalso. eapply issue_not_cu; [eapply main_not_cu; exact Hth|right; exact X|exact Hw|exact Hcu].
  - destruct (s_h s) eqn:Hh; [discriminate E|]. destruct (s_t s i) as [| | |r q n] eqn:Ht; try discriminate E. injection E as <- <-.
    split; [exact Hs|]. intros j r1 q1 n1 _ _ X. discriminate X.
  - destruct (s_h s) as [w|] eqn:Hh; [|discriminate E]. destruct (existsb (Nat.eqb j) (w_todo w)); [|discriminate E].
    unfold snoop in E. destruct (snp_of _ _) as [sq|]; [|discriminate E]. cbv zeta in E.
    destruct (if in_cache _ _ then _ else _) as [[l' p]| | |]; cbn [rbind] in E; try discriminate E. injection E as <- _.
    match goal with |- single ?x /\ _ => set (s2 := x) end.
    assert (T2 : s_t s2 = s_t s).
    { unfold s2. cbn [st_h s_t]. destruct ((r_resp p =? 0) || (r_resp p =? 4)), (in_cache (slot f s j (q_addr (w_q w))) (q_addr (w_q w))); reflexivity. }
    split; [unfold single; now rewrite T2|]. intros k r1 q1 n1 _ _ X. discriminate X.
  - destruct (s_h s) as [w|] eqn:Hh; [|discriminate E]. destruct (w_todo w) eqn:Htd; [|discriminate E].
    destruct (finish_moves s G w s' es I Hh Htd E) as (F1 & F2 & F3).
    destruct (wk_thr _ _ _ _ _ (iv_work _ _ _ I w Hh)) as (r0 & n0 & Ht).
    destruct (Hm (w_i w)) as [S1 S2]; [rewrite Ht; discriminate|exact F2|]. split; [exact S1|].
    intros k r1 q1 n1 Hw Hcu _. assert (k = w_i w) as -> by (apply S2; rewrite Hw; discriminate).
    destruct (F3 _ _ _ Hw) as (q0 & X). exfalso. eapply not_cu; [exact I|exact X|left; reflexivity|exact Hcu].
Qed.

Lemma one_all ls : forall s G,
  cfg_ok f -> f_dct f = false -> Inv s G -> single s -> cu_here s -> one_by_one s ls ->
  exec f s ls <> Unmodelled -> all_allowed f s ls.
Proof.
  induction ls as [|lb ls IH]; intros s G Hc Hd I Hs Hcu Ho E; [exact Logic.I|].
  destruct Ho as [Hl Hn]. cbn [exec] in E. cbn [all_allowed].
  pose proof (one_allowed s G lb Hd I Hs Hcu Hl eq_refl) as Ha.
  destruct (step f s lb) as [[s1 es]| | |] eqn:St; cbn [rbind fst snd] in E; try (split; [exact Ha|discriminate]).
  - split; [exact Ha|]. intros s2 e2 St2. injection St2 as <- <-.
    pose proof (step_good f s G lb Hc I Ha) as X. rewrite St in X.
    assert (I1 : exists G1, Inv s1 G1).
    { cbn [good] in X. destruct es as [|e [|]]; [eauto| |destruct X]. destruct X as (_ & _ & X). eauto. }
    destruct I1 as (G1 & I1). destruct (one_step s G lb s1 es I Hs Hcu Hl St) as [S1 C1].
    eapply IH; eauto. intro Ex. apply E. now rewrite Ex.
  - congruence.
Qed.
End Seq.
