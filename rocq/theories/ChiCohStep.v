(** Every allowed step keeps the invariant of ChiCoh.v. *)
From Coq Require Import ZifyBool ZifyNat.
From Verif Require Import Base BaseFacts TlmModel TlmSpec AceSpec CachelineModel ChiModel ChiFacts ChiCoh.
Open Scope N_scope.

Section Steps.
Context (f : cfg).
Notation index := (index f).
Notation Inv := (Inv f).
Notation hd := (hd f).
Notation Ln := (Ln f).

Lemma thr_lt s G i : Inv s G -> s_t s i <> Idle -> (i < f_n f)%nat.
Proof.
  intros I Hn. destruct (Nat.lt_ge_cases i (f_n f)) as [X|X]; [exact X|].
  now destruct (iv_n _ _ _ I i X).
Qed.

(** ** The processes of the caches *)
(** A clean line is dropped. *)
Lemma inv_drop s G i a p :
  Inv s G -> s_t s i <> Idle -> tnot (s_t s) i -> (forall r q n, s_t s i <> Wait r q n) ->
  l_dirty (slot f s i a) = false ->
  thr_ok f (updN (s_c s i) (index (align a)) (set_valid (slot f s i a) false)) p ->
  Inv (goto (put_slot f s i a (set_valid (slot f s i a) false)) i p) G.
Proof.
  intros I Hne Hh Hw Hd Hp. pose proof (thr_lt _ _ _ I Hne) as Hi.
  assert (HC : forall j t, j <> i -> Ln (s_c (put_slot f s i a (set_valid (slot f s i a) false))) j t = Ln (s_c s) j t).
  { intros j t Hn. unfold ChiCoh.Ln, put_slot. cbn. now rewrite updn_other. }
  assert (HI : forall t, hd (s_c (put_slot f s i a (set_valid (slot f s i a) false))) i t ->
             index t <> index (align a) /\ Ln (s_c (put_slot f s i a (set_valid (slot f s i a) false))) i t = Ln (s_c s) i t).
  { intro t. unfold ChiCoh.hd, ChiCoh.Ln, put_slot. cbn. rewrite updn_same.
    destruct (N.eq_dec (index t) (index (align a))) as [E|E].
    - rewrite E, updN_same. cbn. intros [X _]. discriminate.
    - rewrite updN_other by exact E. auto. }
  constructor.
  - intros j Hj. cbn. rewrite !updn_other by lia. now apply (iv_n _ _ _ I).
  - intros j x. cbn. destruct (Nat.eq_dec j i) as [->|Hn].
    + rewrite updn_same. destruct (N.eq_dec x (index (align a))) as [->|E].
      * rewrite updN_same. discriminate.
      * rewrite updN_other by exact E. apply (iv_tag _ _ _ I).
    + rewrite updn_other by exact Hn. apply (iv_tag _ _ _ I).
  - intro j. cbn. destruct (Nat.eq_dec j i) as [->|Hn]; [rewrite !updn_same; exact Hp|].
    rewrite !updn_other by exact Hn. apply (iv_thr _ _ _ I).
  - intros t Ht. pose proof (iv_line _ _ _ I t Ht) as L.
    eapply LI_weaken; [exact L|intros r X _; now apply Hh in X|intros j Hn; apply HC; exact Hn| |auto| |].
    + intro X. destruct (HI t X) as [A B]. cbn [s_c goto] in *. unfold ChiCoh.hd in *. rewrite B in *. auto.
    + intros j r X _. cbn. rewrite updn_other; [exact X|]. intros ->. now apply Hh in X.
    + destruct (li_mem _ _ _ _ _ _ _ _ L) as [X|[(j & X & Y)|[(j & r & X & Y)|X]]]; [now left| | |now right; right; right].
      * right; left. exists j. destruct (Nat.eq_dec j i) as [->|Hn].
        -- unfold ChiCoh.hd, ChiCoh.Ln. cbn. rewrite updn_same.
           destruct (N.eq_dec (index t) (index (align a))) as [E|E].
           ++ exfalso. unfold ChiCoh.Ln in Y. rewrite E in Y. unfold slot in Hd. congruence.
           ++ rewrite updN_other by exact E. auto.
        -- unfold ChiCoh.hd in *. change (s_c (goto ?s _ _)) with (s_c s). rewrite HC by exact Hn. auto.
      * right; right; left. exists j, r. split; [|exact Y]. cbn. rewrite updn_other; [exact X|]. intros ->. now apply Hh in X.
  - intros w Hw0. cbn in Hw0. pose proof (iv_work _ _ _ I w Hw0) as K.
    assert (Hwi : w_i w <> i).
    { destruct K as [(r & n & X) _ _ _ _ _ _ _ _ _ _ _ _]. intro E. rewrite E in X. now apply Hw in X. }
    assert (Hsub : forall j t, hd (s_c (put_slot f s i a (set_valid (slot f s i a) false))) j t ->
       hd (s_c s) j t /\ Ln (s_c (put_slot f s i a (set_valid (slot f s i a) false))) j t = Ln (s_c s) j t).
    { intros j t X. destruct (Nat.eq_dec j i) as [->|Hn].
      - destruct (HI t X) as [_ B]. split; [|exact B]. unfold ChiCoh.hd in *. now rewrite <- B.
      - pose proof (HC j t Hn) as B. split; [|exact B]. unfold ChiCoh.hd in *. now rewrite <- B. }
    change (s_c (goto (put_slot f s i a (set_valid (slot f s i a) false)) i p))
      with (s_c (put_slot f s i a (set_valid (slot f s i a) false))).
    set (C' := s_c (put_slot f s i a (set_valid (slot f s i a) false))) in *.
    constructor; try apply K.
    + cbn. destruct (wk_thr _ _ _ _ _ K) as (r & n & X). exists r, n. now rewrite updn_other.
    + intros Hc j Hj X Hin. destruct (Hsub _ _ X) as [X0 ->]. now apply (wk_seen _ _ _ _ _ K Hc j).
    + intros Hc j Hj X. apply (wk_inval _ _ _ _ _ K Hc j Hj). now apply Hsub.
    + intros Ho. unfold ChiCoh.hd. rewrite (HC _ (q_addr (w_q w)) Hwi). now apply (wk_cu _ _ _ _ _ K).
    + intros Hg. destruct (wk_got _ _ _ _ _ K Hg) as (B & [[D E]|[D E]]).
      * split; [exact B|]. left. split; [exact D|]. intros j Hj X.
        destruct (Hsub _ _ X) as [X0 ->]. now apply E.
      * split; [exact B|]. right. split; [exact D|]. intros j Hj X. apply (E j Hj). now apply Hsub.
Qed.

Lemma main_ok_index r m : main_ok f r m -> align (q_addr m) = q_addr m.
Proof. intros [-> _]. apply align_align. Qed.

Lemma inval2_good s G i r m c :
  Inv s G -> (s_t s i = Inval r m \/ s_t s i = Run r false) -> run_ok f r -> r_pos r < o_len (r_op r) -> main_ok f r m ->
  good f (quiet (inval2 f s i r m c)) G.
Proof.
  intros I Ht Hr Hl Hm. pose proof (main_ok_index _ _ Hm) as Al.
  assert (Hn : tnot (s_t s) i) by (intros r0; destruct Ht as [->| ->]; discriminate).
  assert (Hnw : forall r q n, s_t s i <> Wait r q n) by (intros; destruct Ht as [->| ->]; discriminate).
  assert (Hne : s_t s i <> Idle) by (destruct Ht as [->| ->]; discriminate).
  pose proof (thr_lt _ _ _ I Hne) as Hi.
  unfold inval2. cbv zeta. set (l := slot f s i (q_addr m)) in *.
  assert (El : l = s_c s i (index (q_addr m))) by (unfold l, slot; now rewrite Al).
  destruct (l_valid l) eqn:V.
  - destruct (inv_copy f s G i (index (q_addr m)) I Hn) as [Fu Sa]; [now rewrite <- El|].
    destruct (iv_tag _ _ _ I i (index (q_addr m))) as [Ta Ti]; [now rewrite <- El|].
    rewrite <- El in *.
    assert (Gf : grade_of l = Full) by now apply grade_full. rewrite Gf.
    assert (Hcb : forall o, cb_ok f (s_c s i) (wb_req o l)).
    { intro o. split; [exact Ta|]. cbn. intros _. rewrite Ti. rewrite <- El. auto. }
    destruct (l_dirty l) eqn:D.
    + apply inv_goto; auto. refine (conj Hr (conj Hl (conj Hm (conj (Hcb _) (conj _ (or_introl (conj eq_refl _))))))).
      { exact Ti. } { discriminate. }
    + destruct (rbool f (c_evict c)).
      * apply inv_goto; auto. refine (conj Hr (conj Hl (conj Hm (conj (Hcb _) (conj _ (or_introl (conj eq_refl _))))))).
      { exact Ti. } { discriminate. }
      * apply inv_drop; auto. cbn [thr_ok continue]. split; [exact Hr|]. split; [exact Hl|]. split; [exact Hm|].
        change (q_op (plain Evict (l_tag l))) with Evict. change (q_addr (plain Evict (l_tag l))) with (l_tag l).
        rewrite Al. rewrite Ti. split; [|split; [reflexivity|right; split; [reflexivity|]]].
        -- split; [exact Ta|]. change (q_addr (plain Evict (l_tag l))) with (l_tag l). rewrite Ti, updN_same. discriminate.
        -- rewrite updN_same. reflexivity.
  - apply inv_goto; auto. cbn. split; [exact Hr|]. split; [exact Hl|]. left. split; [exact Hm|]. now rewrite <- El.
Qed.

Lemma issue_good s G i r m c :
  Inv s G -> s_t s i = Run r false -> run_ok f r -> r_pos r < o_len (r_op r) -> main_ok f r m ->
  good f (quiet (issue f s i r m c)) G.
Proof.
  intros I Ht Hr Hl Hm. pose proof (main_ok_index _ _ Hm) as Al.
  assert (Hn : tnot (s_t s) i) by (intros r0; rewrite Ht; discriminate).
  assert (Hnw : forall r q n, s_t s i <> Wait r q n) by (intros; rewrite Ht; discriminate).
  assert (Hne : s_t s i <> Idle) by (rewrite Ht; discriminate).
  pose proof (thr_lt _ _ _ I Hne) as Hi.
  unfold issue. cbv zeta. set (l := slot f s i (q_addr m)) in *.
  assert (El : l = s_c s i (index (q_addr m))) by (unfold l, slot; now rewrite Al).
  destruct (l_valid l) eqn:V.
  - destruct (is_full l && l_dirty l && rbool f (c_clean c)).
    + destruct (iv_tag _ _ _ I i (index (q_addr m))) as [Ta Ti]; [now rewrite <- El|]. rewrite <- El in *.
      apply inv_goto; auto. refine (conj Hr (conj Hl (conj Hm (conj (conj Ta _) (conj eq_refl Ti))))).
      cbn. intros _. rewrite Ti, <- El. auto.
    + apply inval2_good; auto.
  - apply inv_goto; auto. cbn. split; [exact Hr|]. split; [exact Hl|]. left. split; [exact Hm|]. now rewrite <- El.
Qed.

(** ** Runs *)
Lemma run_ok_advance r n l : run_ok f r -> n = seg_len r -> run_ok f (advance r n l).
Proof.
  intros (Ho & Hp & _) ->. unfold run_ok, advance. cbn. split; [exact Ho|].
  pose proof (seg_len_rest r) as A. unfold rest in A.
  split; [lia|]. right. unfold seg_len, rest in *. unfold cur_addr in *. cbn [r_op r_pos] in *.
  destruct (N.le_gt_cases (o_len (r_op r) - r_pos r) (64 - line_off (o_addr (r_op r) + r_pos r))) as [X|X]; [right; lia|left].
  rewrite N.min_r by lia. set (x := o_addr (r_op r) + r_pos r) in *. pose proof (align_off x). pose proof (off_lt x).
  replace (o_addr (r_op r) + (r_pos r + (64 - line_off x))) with (64 * (x / 64 + 1)) by (unfold align in *; lia).
  unfold line_off. rewrite N.mul_comm. apply N.mod_mul. lia.
Qed.

(** A store into a line held unique. *)
Lemma store_good s G i r h :
  Inv s G -> s_t s i = Run r h -> run_ok f r -> r_pos r < o_len (r_op r) -> o_kind (r_op r) = O_Store ->
  in_cache (slot f s i (cur_addr r)) (cur_addr r) = true -> l_shared (slot f s i (cur_addr r)) = false ->
  Inv (goto (put_slot f s i (cur_addr r) (write_line (slot f s i (cur_addr r)) r)) i
         (Run (advance r (seg_len r) (write_piece r)) false))
      (fold_left put (write_piece r) G).
Proof.
  intros I Ht Hr Hl Hk Hc Hs.
  apply in_cache_spec in Hc as [V Tg]. set (t := align (cur_addr r)) in *.
  assert (Al : align t = t) by apply align_align.
  assert (Hi : (i < f_n f)%nat) by (apply (thr_lt _ _ _ I); rewrite Ht; discriminate).
  change (slot f s i (cur_addr r)) with (Ln (s_c s) i t) in *. set (l := Ln (s_c s) i t) in *.
  pose proof (iv_line _ _ _ I t Al) as L.
  assert (Hhd : hd (s_c s) i t) by (split; assumption).
  assert (Hon : forall j, j <> i -> ~ hd (s_c s) j t).
  { intros j Hn X. pose proof (li_uniq _ _ _ _ _ _ _ _ L i j (not_eq_sym Hn) Hhd X) as Y. fold l in Y. congruence. }
  pose proof (li_copy _ _ _ _ _ _ _ _ L i Hhd) as Hcp. fold l in Hcp.
  assert (Hw : full (write_line l r) /\ same (l_data (write_line l r)) (fold_left put (write_piece r) G) t /\
               l_valid (write_line l r) = true /\ l_tag (write_line l r) = t /\ l_shared (write_line l r) = false /\
               l_dirty (write_line l r) = true).
  { assert (Fu : forall k, k < 64 -> hits r k || l_be l k = true).
    { intros k Hk0. destruct Hcp as [[X _]|(r0 & X & Y & Em & _ & S)].
      - rewrite (X k Hk0). apply Bool.orb_true_r.
      - rewrite Ht in X. injection X as <- ->. rewrite hits_all; auto.
        destruct Hr as ((_ & _ & Ho) & _). destruct (Ho Hk) as [Ho1 _]. destruct (seg_64 r S) as [S1 S2]. unfold rest in S2.
        intros j Hj. apply Ho1; auto. lia. }
    assert (Sd : forall k, k < 64 -> (if hits r k then byte_for r k else l_data l k) = fold_left put (write_piece r) G (t + k)).
    { intros k Hk0. unfold t. rewrite piece_line by exact Hk0. destruct (hits r k) eqn:Hh; [reflexivity|].
      destruct Hcp as [[_ X]|(r0 & X & Y & Em & _)]; [now apply X|].
      specialize (Fu k Hk0). rewrite Hh in Fu. rewrite (Em k Hk0) in Fu. discriminate. }
    unfold write_line. cbv zeta.
    match goal with |- context [grade_of ?x] => set (l1 := x) end.
    assert (G1 : grade_of l1 = Full) by (apply grade_full; intros k Hk0; apply Fu, Hk0).
    rewrite G1. split; [intros k Hk0; apply Fu, Hk0|]. split; [intros k Hk0; apply Sd, Hk0|].
    split; [exact V|]. split; [exact Tg|]. split; [exact Hs|reflexivity]. }
  destruct Hw as (W1 & W2 & W3 & W4 & W5 & W6). set (l' := write_line l r) in *. clearbody l'.
  assert (E : s_c (put_slot f s i (cur_addr r) l') = updn (s_c s) i (updN (s_c s i) (index t) l')) by reflexivity.
  assert (HLi : Ln (updn (s_c s) i (updN (s_c s i) (index t) l')) i t = l').
  { unfold ChiCoh.Ln. now rewrite updn_same, updN_same. }
  assert (HLj : forall j u, j <> i -> Ln (updn (s_c s) i (updN (s_c s i) (index t) l')) j u = Ln (s_c s) j u).
  { intros j u Hn. unfold ChiCoh.Ln. now rewrite updn_other. }
  constructor.
  - intros j Hj. cbn. rewrite !updn_other by lia. now apply (iv_n _ _ _ I).
  - intros j x. cbn. destruct (Nat.eq_dec j i) as [->|Hn].
    + rewrite updn_same. fold t. destruct (N.eq_dec x (index t)) as [->|Ex].
      * rewrite updN_same, W4. auto.
      * rewrite updN_other by exact Ex. apply (iv_tag _ _ _ I).
    + rewrite updn_other by exact Hn. apply (iv_tag _ _ _ I).
  - intro j. cbn. destruct (Nat.eq_dec j i) as [->|Hn].
    + rewrite !updn_same. cbn. split; [now apply run_ok_advance|discriminate].
    + rewrite !updn_other by exact Hn. apply (iv_thr _ _ _ I).
  - intros u Hu. change (s_c (goto ?x _ _)) with (s_c x). rewrite E. destruct (N.eq_dec u t) as [->|Hut].
    + constructor.
      * intros j Hj. destruct (Nat.eq_dec j i) as [->|Hn].
        -- left. rewrite HLi. auto.
        -- exfalso. apply (Hon j Hn). unfold ChiCoh.hd in *. now rewrite HLj in Hj.
      * intros j k Hn Hj Hk0. exfalso. destruct (Nat.eq_dec j i) as [->|Hn1].
        -- apply (Hon k (not_eq_sym Hn)). unfold ChiCoh.hd in *. now rewrite HLj in Hk0 by auto.
        -- apply (Hon j Hn1). unfold ChiCoh.hd in *. now rewrite HLj in Hj.
      * intros j Hj. destruct (Nat.eq_dec j i) as [->|Hn].
        -- apply (li_filter _ _ _ _ _ _ _ _ L i Hhd).
        -- exfalso. apply (Hon j Hn). unfold ChiCoh.hd in *. now rewrite HLj in Hj.
      * right; left. exists i. unfold ChiCoh.hd. rewrite HLi. auto.
    + eapply LI_frame; [apply (iv_line _ _ _ I u Hu)| | | | | |]; auto.
      * intros j Hj. destruct (Nat.eq_dec j i) as [->|Hn]; [|now apply HLj].
        unfold ChiCoh.Ln in *. rewrite updn_same. destruct (N.eq_dec (index u) (index t)) as [Ei|Ei]; [|now rewrite updN_other].
        exfalso. unfold ChiCoh.hd, ChiCoh.Ln in Hj. rewrite updn_same, Ei, updN_same in Hj.
        destruct Hj as [[_ X]|[_ X]]; [|congruence]. change (s_c s i (index t)) with (ChiCoh.Ln f (s_c s) i t) in X.
        destruct Hhd as [_ Y]. congruence.
      * intros k Hk0. now apply piece_other.
      * intros j r0 X Y. cbn. rewrite updn_other; [exact X|]. intros ->. rewrite Ht in X. injection X as <- _. now symmetry in Y.
  - intros w Hw. cbn in Hw. pose proof (iv_work _ _ _ I w Hw) as K. change (s_c (goto ?x _ _)) with (s_c x). rewrite E.
    set (C' := updn (s_c s) i (updN (s_c s i) (index t) l')) in *.
    assert (Hwi : w_i w <> i).
    { destruct (wk_thr _ _ _ _ _ K) as (r0 & n & X). intro Y. rewrite Y in X. congruence. }
    set (a := q_addr (w_q w)) in *.
    assert (Aa : align a = a).
    { destruct (wk_thr _ _ _ _ _ K) as (r0 & n & X). pose proof (iv_thr _ _ _ I (w_i w)) as Y. rewrite X in Y.
      destruct Y as (_ & _ & Y). destruct n.
      - destruct Y as [[Y _]|[(_ & Y & _)|(_ & Y & _)]].
        + now apply main_ok_index in Y.
        + unfold a. rewrite Y. apply align_align.
        + unfold a. rewrite Y. apply align_align.
      - apply Y.
      - apply Y. }
    (* holders of the home's line *)
    assert (Hsub : forall j, hd C' j a <-> hd (s_c s) j a).
    { intro j. destruct (Nat.eq_dec j i) as [->|Hn]; [|unfold ChiCoh.hd; now rewrite HLj].
      destruct (N.eq_dec a t) as [->|Hat]; [unfold ChiCoh.hd at 1; rewrite HLi; tauto|].
      unfold ChiCoh.hd, ChiCoh.Ln. unfold C'. rewrite updn_same.
      destruct (N.eq_dec (index a) (index t)) as [Ei|Ei]; [|now rewrite updN_other].
      rewrite Ei, updN_same. split; intros [X Y]; [congruence|].
      change (s_c s i (index t)) with (ChiCoh.Ln f (s_c s) i t) in Y. destruct Hhd. congruence. }
    assert (Hsh : forall j, hd (s_c s) j a -> l_shared (Ln (s_c s) j a) = true -> l_shared (Ln C' j a) = true).
    { intros j X Y. destruct (Nat.eq_dec j i) as [->|Hn]; [|now rewrite HLj].
      destruct (N.eq_dec a t) as [Eat|Hat].
      - exfalso. rewrite Eat in Y. fold l in Y. congruence.
      - unfold C', ChiCoh.Ln. rewrite updn_same. destruct (N.eq_dec (index a) (index t)) as [Ei|Ei]; [|now rewrite updN_other].
        exfalso. destruct X as [_ X]. unfold ChiCoh.Ln in X. rewrite Ei in X.
        change (s_c s i (index t)) with (ChiCoh.Ln f (s_c s) i t) in X. destruct Hhd. congruence. }
    (* buffered data stays the latest unless the request is a ReadOnce *)
    assert (Hbuf : forall d, same d G a -> (a = t -> False) -> same d (fold_left put (write_piece r) G) a).
    { intros d Hd Hne k Hk0. rewrite piece_other; auto. }
    constructor; try apply K.
    + cbn. destruct (wk_thr _ _ _ _ _ K) as (r0 & n & X). exists r0, n. now rewrite updn_other.
    + intros Hcl j Hj X Hin. apply Hsub in X. destruct (wk_seen _ _ _ _ _ K Hcl j Hj X Hin) as [A B]. auto.
    + intros Hcl j Hj X. apply Hsub in X. now apply (wk_inval _ _ _ _ _ K Hcl j Hj).
    + intro Ho. apply Hsub. now apply (wk_cu _ _ _ _ _ K).
    + intro Hg. destruct (wk_got _ _ _ _ _ K Hg) as (B & D). split; [exact B|].
      destruct (N.eq_dec a t) as [Eat|Hat].
      * right. assert (Hni : forall j, In j (w_todo w) -> ~ hd (s_c s) j a).
        { intros j Hj X. destruct (Nat.eq_dec j i) as [->|Hn]; [|rewrite Eat in X; now apply (Hon j Hn)].
          destruct D as [[_ D]|[_ D]]; [|now apply (D i)].
          specialize (D i Hj X). fold a in D. rewrite Eat in D. fold l in D. congruence. }
        split; [|intros j Hj X; apply Hsub in X; now apply (Hni j)].
        destruct D as [_|[D _]]; [|exact D].
        rewrite Eat in *. destruct (cls_of (q_op (w_q w))) eqn:Kc; [exfalso|reflexivity|exfalso|exfalso].
        -- destruct (wk_seen _ _ _ _ _ K) with (j := i) as [X _]; auto.
           ++ fold a. now rewrite Eat.
           ++ intro Y. now apply (Hni i Y).
           ++ fold a in X. rewrite Eat in X. specialize (X Kc). fold l in X. congruence.
        -- apply (Hni i); [|exact Hhd]. apply (wk_inval _ _ _ _ _ K Kc); auto. fold a. now rewrite Eat.
        -- destruct (wk_none _ _ _ _ _ K Kc) as (_ & _ & _ & Y). congruence.
      * destruct D as [[D1 D2]|[D1 D2]].
        -- left. split; [now apply Hbuf|]. intros j Hj X. apply Hsub in X. auto.
        -- right. split; [exact D1|]. intros j Hj X. apply Hsub in X. now apply (D2 j).
    + intros rs d be Hcm. destruct (wk_comp _ _ _ _ _ K rs d be Hcm) as (A & B & D & E1 & E2 & E3).
      repeat split; auto; try apply E3. intro Hno. apply Hbuf; [now apply E2|]. intro Eat.
      destruct (cls_of (q_op (w_q w))) eqn:Kc.
      * destruct (wk_seen _ _ _ _ _ K) with (j := i) as [X _]; auto.
        -- fold a. now rewrite Eat.
        -- rewrite B. auto.
        -- fold a in X. rewrite Eat in X. specialize (X Kc). fold l in X. congruence.
      * congruence.
      * assert (X : In i (w_todo w)) by (apply (wk_inval _ _ _ _ _ K Kc); auto; fold a; now rewrite Eat).
        rewrite B in X. exact X.
      * destruct (wk_none _ _ _ _ _ K Kc) as (_ & _ & Y & _). congruence.
Qed.



Lemma wait_align c r q n : thr_ok f c (Wait r q n) -> align (q_addr q) = q_addr q.
Proof.
  intros (_ & _ & Y). destruct n.
  - destruct Y as [[Y _]|[(_ & Y & _)|(_ & Y & _)]].
    + now apply main_ok_index in Y.
    + rewrite Y. apply align_align.
    + rewrite Y. apply align_align.
  - apply Y.
  - apply Y.
Qed.

Lemma thread_good s G i r h c :
  Inv s G -> s_t s i = Run r h -> good f (thread f s i r c) G.
Proof.
  intros I Ht. pose proof (iv_thr _ _ _ I i) as Hth. rewrite Ht in Hth. destruct Hth as [Hr Hh].
  assert (Hnw : forall r q n, s_t s i <> Wait r q n) by (intros; rewrite Ht; discriminate).
  assert (Hne : s_t s i <> Idle) by (rewrite Ht; discriminate).
  pose proof (thr_lt _ _ _ I Hne) as Hi.
  unfold thread. cbv zeta.
  destruct (N.leb_spec (o_len (r_op r)) (r_pos r)) as [Hd|Hl].
  - assert (Hf : h = false) by (destruct h; [destruct (Hh eq_refl) as (_ & X & _); lia|reflexivity]). subst h.
    cbn. split; [exact Logic.I|]. split; [exact Logic.I|]. apply inv_goto; auto.
    + exact Logic.I.
    + intros r0. rewrite Ht. discriminate.
  - pose proof Hr as (Ho & Hp & Hpos). destruct Ho as (Hkind & Hex & Hst).
    destruct (o_kind (r_op r)) eqn:Kd; try (destruct Hkind; discriminate).
    + assert (Hf : h = false) by (destruct h; [destruct (Hh eq_refl); congruence|reflexivity]). subst h.
      assert (Hn : tnot (s_t s) i) by (intros r0; rewrite Ht; discriminate).
      destruct (in_cache (slot f s i (cur_addr r)) (cur_addr r) && is_full (slot f s i (cur_addr r))) eqn:C.
      * apply andb_prop in C as [C1 C2]. apply in_cache_spec in C1 as [V Tg].
        destruct (inv_copy f s G i (index (align (cur_addr r))) I Hn V) as [_ Sa].
        cbn. split; [reflexivity|]. split.
        -- apply (read_piece_ok (l_data (slot f s i (cur_addr r))) r G i). unfold slot. rewrite <- Tg at 2. exact Sa.
        -- apply inv_goto; auto. cbn. split; [now apply run_ok_advance|discriminate].
      * apply issue_good; auto. split; [reflexivity|]. left.
        destruct (f_rnd f) eqn:Rn.
        -- destruct (c_read c) as [|[p|p|]]; cbn; auto; destruct p; cbn; auto; try destruct p; cbn; auto.
        -- cbn. split; [reflexivity|discriminate].
    + destruct (Hst eq_refl) as [Hst1 Hst2]. set (l := slot f s i (cur_addr r)) in *.
      destruct (in_cache l (cur_addr r)) eqn:C.
      * destruct (l_shared l) eqn:Sh; cbn [negb].
        -- assert (Hf : h = false).
           { destruct h; [|reflexivity]. destruct (Hh eq_refl) as (_ & _ & X). cbv zeta in X.
             change (s_c s i (index (align (cur_addr r)))) with l in X. destruct X as (_ & _ & X). congruence. }
           subst h. apply inv_goto; auto; [|intros r0; rewrite Ht; discriminate].
           apply in_cache_spec in C as [V Tg].
           refine (conj Hr (conj Hl (or_intror (or_introl (conj eq_refl (conj Tg Kd)))))).
        -- cbn. split; [reflexivity|]. split; [exact Logic.I|]. eapply store_good; eauto.
      * assert (Hf : h = false).
        { destruct h; [|reflexivity]. destruct (Hh eq_refl) as (_ & _ & X). cbv zeta in X.
          change (s_c s i (index (align (cur_addr r)))) with l in X. destruct X as (X1 & X2 & _).
          unfold in_cache in C. rewrite X1, X2, N.eqb_refl in C. discriminate. }
        subst h. destruct (rbool f (c_store c)) eqn:Rb.
        -- apply inv_goto; auto; [|intros r0; rewrite Ht; discriminate].
           assert (Rn : f_rnd f = true) by (unfold rbool in Rb; now apply andb_prop in Rb).
           refine (conj Hr (conj Hl (or_intror (or_intror _)))).
           split; [destruct (all_enabled (r_op r)); cbn; auto|]. split; [reflexivity|]. split; [exact Kd|]. split; [exact Rn|].
           unfold write_req. cbn [q_addr]. change (s_c s i (index (align (cur_addr r)))) with l. intros [X1 X2].
           unfold in_cache in C. rewrite X1, X2, N.eqb_refl in C. discriminate.
        -- apply issue_good; auto. split; [reflexivity|].
           destruct (N.eqb_spec (seg_len r) 64) as [E|E]; cbn; [right; auto|left]. split; [reflexivity|discriminate].
Qed.

(** ** The home *)
Lemma start_good s G i r q n :
  Inv s G -> s_h s = None -> s_t s i = Wait r q n ->
  (q_op q = CleanUnique -> in_cache (slot f s i (q_addr q)) (q_addr q) = true) ->
  Inv (start f s i q) G.
Proof.
  intros I Hh Ht Hcu. pose proof (iv_thr _ _ _ I i) as Hth. rewrite Ht in Hth.
  pose proof (wait_align _ _ _ _ Hth) as Al.
  constructor; cbn.
  - apply (iv_n _ _ _ I).
  - apply (iv_tag _ _ _ I).
  - apply (iv_thr _ _ _ I).
  - intros t Hta. eapply LI_frame; [apply (iv_line _ _ _ I t Hta)| | | | | |]; auto.
    rewrite Hh. intros (w & X & _). discriminate.
  - intros w E. injection E as <-. constructor; cbn; try discriminate.
    + exists r, n. exact Ht.
    + unfold targets. destruct (snp_of (q_op q) false); [|auto]. rewrite filter_In.
      intros [_ X]. rewrite Nat.eqb_refl in X. discriminate.
    + intro Kc. repeat split. unfold targets. destruct (q_op q); try discriminate; reflexivity.
    + intros Kc j Hj Hd Hin. exfalso. apply Hin. unfold targets.
      assert (X : snp_of (q_op q) false <> None) by (destruct (q_op q); destruct Kc; discriminate).
      destruct (snp_of (q_op q) false); [|congruence]. apply filter_In. split.
      * apply in_seq. destruct (Nat.lt_ge_cases j (f_n f)) as [Y|Y]; [lia|].
        destruct (iv_n _ _ _ I j Y) as [_ Z]. destruct Hd as [Hd _]. unfold ChiCoh.Ln in Hd. rewrite Z in Hd. discriminate.
      * apply andb_true_intro. split; [now apply Bool.negb_true_iff, Nat.eqb_neq|].
        apply (li_filter _ _ _ _ _ _ _ _ (iv_line _ _ _ I _ Al) j Hd).
    + intros Kc j Hj Hd. unfold targets.
      assert (X : snp_of (q_op q) false <> None) by (destruct (q_op q); discriminate).
      destruct (snp_of (q_op q) false); [|congruence]. apply filter_In. split.
      * apply in_seq. destruct (Nat.lt_ge_cases j (f_n f)) as [Y|Y]; [lia|].
        destruct (iv_n _ _ _ I j Y) as [_ Z]. destruct Hd as [Hd _]. unfold ChiCoh.Ln in Hd. rewrite Z in Hd. discriminate.
      * apply andb_true_intro. split; [now apply Bool.negb_true_iff, Nat.eqb_neq|].
        apply (li_filter _ _ _ _ _ _ _ _ (iv_line _ _ _ I _ Al) j Hd).
    + intro Ho. apply hd_slot; auto.
    + intro Hf. apply andb_prop in Hf as [Hf0 Hf]. apply Nat.eqb_eq in Hf. split; [exact Hf0|lia].
    + reflexivity.
    + now rewrite Bool.andb_false_r.
    + auto.
Qed.

Lemma nz_app l x : nz (l ++ [x]) = nz l || nzb x.
Proof. unfold nz. rewrite existsb_app. cbn. now rewrite Bool.orb_false_r. Qed.
Lemma pd_app l x : pd (l ++ [x]) = pd l || pdb x.
Proof. unfold pd. rewrite existsb_app. cbn. now rewrite Bool.orb_false_r. Qed.


Lemma thr_weaken (c c' : N -> line) x p :
  thr_ok f c p -> (forall y, y <> x -> c' y = c y) ->
  l_tag (c' x) = l_tag (c x) -> l_data (c' x) = l_data (c x) -> l_be (c' x) = l_be (c x) ->
  (l_valid (c' x) = true -> l_valid (c x) = true) ->
  (forall r, p = Run r true -> index (align (cur_addr r)) <> x) ->
  thr_ok f c' p.
Proof.
  intros Hp Hy E1 E2 E3 E4 Hh.
  assert (V : forall y, l_valid (c' y) = true -> l_valid (c y) = true).
  { intro y. destruct (N.eq_dec y x) as [->|Hn]; [exact E4|now rewrite Hy]. }
  assert (Vf : forall y, l_valid (c y) = false -> l_valid (c' y) = false).
  { intros y Y. destruct (l_valid (c' y)) eqn:Z; [|reflexivity]. rewrite (V y Z) in Y. discriminate. }
  assert (Tg : forall y, l_tag (c' y) = l_tag (c y)).
  { intro y. destruct (N.eq_dec y x) as [->|Hn]; [exact E1|now rewrite Hy]. }
  assert (Cb : forall q, cb_ok f c q -> cb_ok f c' q).
  { intros q [A B]. split; [exact A|]. intro Y. apply V in Y. destruct (B Y) as (B1 & B2 & B3). rewrite Tg.
    destruct (N.eq_dec (index (q_addr q)) x) as [Ex|Hn]; [rewrite Ex in *; rewrite E2, E3; auto|rewrite Hy by exact Hn; auto]. }
  destruct p as [|r h|r m|r q n]; cbn [thr_ok] in *.
  - exact Logic.I.
  - destruct Hp as [A B]. split; [exact A|]. intro Eh. subst h. specialize (Hh r eq_refl). cbv zeta in *. rewrite Hy by exact Hh. auto.
  - exact Hp.
  - destruct Hp as (A & B & D). split; [exact A|]. split; [exact B|]. destruct n.
    + destruct D as [[D1 D2]|[D|(D1 & D2 & D3 & D4 & D5)]]; [left; split; auto|right; left; exact D|right; right].
      repeat (split; auto). intros [X Y]. apply D5. split; [now apply V|]. now rewrite <- Tg.
    + destruct D as (D1 & D2 & D3). auto.
    + destruct D as (D1 & D2 & D3 & [D4|[D4 D5]]); auto. repeat (split; auto).
Qed.

Lemma non_coherent_addr s G i r q n :
  Inv s G -> s_t s i = Wait r q n -> non_coherent (q_op q) = true ->
  q_addr q = align (cur_addr r) /\ o_kind (r_op r) = O_Load /\ f_rnd f = true.
Proof.
  intros I Ht Hn. pose proof (iv_thr _ _ _ I i) as Hth. rewrite Ht in Hth. destruct Hth as (_ & _ & Y).
  destruct n.
  - destruct Y as [[(Y1 & Y2) _]|[(Y & _)|([Y|[Y _]] & _)]]; try (rewrite Y in Hn; discriminate).
    destruct Y2 as [[_ Y2]|[Y2 _]]; [|rewrite Y2 in Hn; discriminate]. destruct (Y2 Hn). auto.
  - destruct Y as (_ & _ & Y & _). rewrite Y in Hn. discriminate.
  - destruct Y as (_ & _ & _ & [[Y _]|[Y _]]); destruct (q_op q); discriminate.
Qed.

Lemma snoop_good s G w j junk :
  cfg_ok f -> Inv s G -> s_h s = Some w -> In j (w_todo w) -> allowed f s (L_Snoop j junk) ->
  good f (snoop f s w j junk) G.
Proof.
  intros Hcfg I Hw Hin Hal. cbn in Hal. rewrite Hw in Hal. destruct Hal as [Hhot Hdirty].
  pose proof (iv_work _ _ _ I w Hw) as K.
  destruct (wk_thr _ _ _ _ _ K) as (r & n & Hwt).
  set (i := w_i w) in *. set (q := w_q w) in *. set (a := q_addr q) in *.
  pose proof (iv_thr _ _ _ I i) as Hth. rewrite Hwt in Hth.
  assert (Al : align a = a) by (eapply wait_align; exact Hth).
  assert (Hji : j <> i) by (intros ->; now apply (wk_todo _ _ _ _ _ K)).
  assert (Hcomp : w_comp w = None).
  { destruct (w_comp w) as [[[rs d] be]|] eqn:E; [|reflexivity].
    destruct (wk_comp _ _ _ _ _ K _ _ _ E) as (_ & X & _). rewrite X in Hin. destruct Hin. }
  assert (Hjn : (j < f_n f)%nat \/ (f_n f <= j)%nat) by lia.
  set (l := Ln (s_c s) j a).
  assert (Esl : slot f s j a = l) by (unfold slot, l, ChiCoh.Ln; now rewrite Al).
  unfold snoop. fold q. fold a. cbv zeta. rewrite Esl in *.
  destruct (snp_of (q_op q) (w_fwd w)) as [sq|] eqn:Sq; [|exact Logic.I].
  assert (Hcase : exists l' p,
    (if in_cache l a then handle_snp sq true l else Ok (l, resp S_INV)) = Ok (l', p) /\
    ((in_cache l a = false /\ ~ hd (s_c s) j a /\ l' = l /\ p = resp S_INV) \/
     (in_cache l a = true /\ hd (s_c s) j a /\ full l /\ same (l_data l) G a /\ snooped (q_op q) (w_fwd w) l l' p))).
  { destruct (in_cache l a) eqn:C.
    - assert (Hd : hd (s_c s) j a) by (apply hd_slot; [exact Al|now rewrite Esl]).
      destruct (li_copy _ _ _ _ _ _ _ _ (iv_line _ _ _ I a Al) j Hd) as [[X Y]|(r0 & X & Y & _)].
      + destruct (handle_snp_spec (q_op q) (w_fwd w) sq l Sq X) as (l' & p & E & S).
        * apply Hd.
        * intros Ef Ed. destruct (snp_of (q_op q) false) as [sq0|] eqn:S0.
          -- assert (Dec : sq0 = sq \/ sq0 <> sq) by (destruct sq0, sq; auto; right; discriminate).
             destruct Dec as [->|Dn]; [now right|left]. apply Hdirty; auto. rewrite Ef in Sq. rewrite Sq. congruence.
          -- exfalso. destruct (q_op q); cbn in S0; try discriminate; cbn in Sq; discriminate.
        * exists l', p. split; [exact E|]. right. auto.
      + exfalso. apply Hhot. now exists r0.
    - exists l, (resp S_INV). split; [reflexivity|]. left. repeat split; auto.
      intro Hd. apply hd_slot in Hd; [|exact Al]. rewrite Esl in Hd. congruence. }
  destruct Hcase as (l' & p & -> & Hcase). cbn [rbind].
  (* the caches afterwards *)
  set (s1 := if in_cache l a then put_slot f s j a l' else s).
  assert (H1 : s_mem s1 = s_mem s /\ s_t s1 = s_t s /\ s_f s1 = s_f s /\
    (forall k, k <> j -> s_c s1 k = s_c s k) /\ (forall x, x <> index a -> s_c s1 j x = s_c s j x) /\ Ln (s_c s1) j a = l').
  { unfold s1. destruct Hcase as [(-> & _ & -> & _)|(-> & _)].
    - repeat split; auto.
    - unfold put_slot. cbn [s_c s_mem s_t s_f]. repeat split; auto.
      + intros k Hk. now rewrite updn_other.
      + intros x Hx. rewrite updn_same, Al, updN_other by exact Hx. reflexivity.
      + unfold ChiCoh.Ln. rewrite updn_same, Al, updN_same. reflexivity. }
  destruct H1 as (Em & Et & Ef & Ek & Ex & Ea).
  assert (Hl : l_tag l' = l_tag l /\ l_data l' = l_data l /\ l_be l' = l_be l /\
    (l_valid l' = true -> l_valid l = true) /\ (hd (s_c s) j a -> l_valid l' = true -> l_shared l = true -> l_shared l' = true)).
  { destruct Hcase as [(_ & _ & -> & _)|(_ & Hd & _ & _ & S)]; [auto|].
    repeat split; try apply S.
    - intros _. apply Hd.
    - intros _ V' Sh. destruct (cls_of (q_op q)) eqn:Kc.
      + now apply (sn_share _ _ _ _ _ S).
      + now rewrite (sn_once _ _ _ _ _ S Kc).
      + rewrite (sn_valid _ _ _ _ _ S), Kc in V'. discriminate.
      + destruct (wk_none _ _ _ _ _ K Kc) as (X & _). rewrite X in Hin. destruct Hin. }
  destruct Hl as (Ltag & Ldata & Lbe & Lval & Lsh).
  assert (Hsub : forall k, hd (s_c s1) k a -> hd (s_c s) k a).
  { intros k X. unfold ChiCoh.hd in *. destruct (Nat.eq_dec k j) as [->|Hn].
    - rewrite Ea in X. destruct X as [X1 X2]. rewrite Ltag in X2. split; [now apply Lval|exact X2].
    - unfold ChiCoh.Ln in *. now rewrite Ek in X. }
  assert (Hkeep : forall k, k <> j -> Ln (s_c s1) k a = Ln (s_c s) k a).
  { intros k Hk. unfold ChiCoh.Ln. now rewrite Ek. }
  set (s2 := if (r_resp p =? 0) || (r_resp p =? 4) then st_f s1 j a false else s1).
  assert (H2 : s_c s2 = s_c s1 /\ s_mem s2 = s_mem s /\ s_t s2 = s_t s /\
    (forall k u, (k <> j \/ u <> a) -> s_f s2 k u = s_f s k u) /\ (hd (s_c s1) j a -> s_f s2 j a = s_f s j a)).
  { unfold s2. destruct ((r_resp p =? 0) || (r_resp p =? 4)) eqn:Z; cbn; rewrite ?Ef.
    - repeat split; auto.
      + intros k u Hku. unfold updn. destruct (Nat.eqb_spec k j) as [->|]; [|reflexivity].
        rewrite updN_other; [reflexivity|]. destruct Hku; congruence.
      + intro X. exfalso. destruct Hcase as [(_ & Y & _)|(_ & _ & _ & _ & S)]; [apply Y, Hsub, X|].
        rewrite (sn_zero _ _ _ _ _ S) in Z. unfold ChiCoh.hd in X. rewrite Ea in X. destruct X as [X _]. rewrite X in Z. discriminate.
    - repeat split; auto. }
  destruct H2 as (E2c & E2m & E2t & E2f & E2fj). clearbody s2.
  fold i. rewrite Hwt.
  (* the work record afterwards *)
  match goal with |- good _ (Ok (st_h s2 (Some ?x), _)) _ => set (w' := x) end.
  assert (Hrm : forall k, In k (w_todo w') <-> In k (w_todo w) /\ k <> j).
  { intro k. unfold w'. cbn. split.
    - intro X. now apply in_remove in X.
    - intros [X Y]. now apply in_in_remove. }
  assert (Hfw1 : w_fwd w = true -> w_todo w' = [] /\ w_resp w = []).
  { intro X. destruct (wk_fwd _ _ _ _ _ K X) as [_ Y]. unfold w'. cbn [w_todo].
    destruct (w_todo w) as [|j0 [|? ?]]; [destruct Hin| |cbn in Y; lia].
    destruct Hin as [->|[]]. cbn. destruct (Nat.eq_dec j j); [|congruence]. split; [reflexivity|].
    cbn in Y. destruct (w_resp w); [reflexivity|cbn in Y; lia]. }
  assert (Inv' : Inv (st_h s2 (Some w')) G).
  { constructor.
    - intros k Hk. cbn. rewrite E2c, E2t. destruct (Nat.eq_dec k j) as [->|Hn].
      + destruct (iv_n _ _ _ I j Hk) as [A B]. split; [exact A|]. intro x.
        destruct (N.eq_dec x (index a)) as [->|Hx]; [|rewrite Ex by exact Hx; apply B].
        destruct (l_valid (s_c s1 j (index a))) eqn:V; [|reflexivity]. change (s_c s1 j (index a)) with (Ln (s_c s1) j a) in V.
        rewrite Ea in V. apply Lval in V. unfold l, ChiCoh.Ln in V. rewrite B in V. discriminate.
      + rewrite Ek by exact Hn. now apply (iv_n _ _ _ I).
    - intros k x. cbn. rewrite E2c. destruct (Nat.eq_dec k j) as [->|Hn].
      + destruct (N.eq_dec x (index a)) as [->|Hx]; [|rewrite Ex by exact Hx; apply (iv_tag _ _ _ I)].
        change (s_c s1 j (index a)) with (Ln (s_c s1) j a). rewrite Ea, Ltag. intro V. apply Lval in V.
        now apply (iv_tag _ _ _ I) in V.
      + rewrite Ek by exact Hn. apply (iv_tag _ _ _ I).
    - intro k. cbn. rewrite E2c, E2t. destruct (Nat.eq_dec k j) as [->|Hn]; [|rewrite Ek by exact Hn; apply (iv_thr _ _ _ I)].
      destruct Hcase as [(C & Hnd & El' & _)|(C & Hd & _)].
      + assert (Es : s_c s1 j = s_c s j) by (unfold s1; now rewrite C). rewrite Es. apply (iv_thr _ _ _ I).
      + apply thr_weaken with (c := s_c s j) (x := index a); auto.
        * apply (iv_thr _ _ _ I).
        * change (s_c s1 j (index a)) with (Ln (s_c s1) j a). now rewrite Ea.
        * change (s_c s1 j (index a)) with (Ln (s_c s1) j a). now rewrite Ea.
        * change (s_c s1 j (index a)) with (Ln (s_c s1) j a). now rewrite Ea.
        * change (s_c s1 j (index a)) with (Ln (s_c s1) j a). now rewrite Ea.
        * intros r0 Hr0 Hx. pose proof (iv_thr _ _ _ I j) as X. rewrite Hr0 in X. destruct X as [_ X].
          destruct (X eq_refl) as (_ & _ & X1). cbv zeta in X1. rewrite Hx in X1. destruct X1 as (_ & X1 & _).
          apply Hhot. exists r0. split; [exact Hr0|]. fold q. fold a. destruct Hd as [_ Hd]. unfold ChiCoh.Ln in Hd. congruence.
    - intros t Ht. cbn. rewrite E2c, E2m, E2t. pose proof (iv_line _ _ _ I t Ht) as L.
      destruct (N.eq_dec t a) as [->|Hta].
      + eapply LI_weaken with (i := j); [exact L| |exact Hkeep| | | |].
        * intros r0 X Y. apply Hhot. now exists r0.
        * intro X. pose proof (Hsub j X) as X0. rewrite Ea. fold l. split; [exact X0|]. split; [exact Ldata|]. split; [exact Lbe|].
          intro Sh. apply Lsh; auto. destruct X as [X _]. now rewrite Ea in X.
        * intros k X Y. destruct (Nat.eq_dec k j) as [->|Hn]; [now rewrite E2fj|rewrite E2f; auto].
        * auto.
        * destruct (li_mem _ _ _ _ _ _ _ _ L) as [X|[(k & X & Y)|[X|X]]].
          -- now left.
          -- destruct (Nat.eq_dec k j) as [->|Hn].
             ++ destruct Hcase as [(_ & Hnd & _)|(_ & Hd & Hfull & Hsame & S)]; [now apply Hnd in X|].
                fold l in Y. destruct (sn_pd_need _ _ _ _ _ S Y) as [Z|[Z|[Z|[Z|[Z1 Z2]]]]].
                ** right; left. exists j. unfold ChiCoh.hd. rewrite Ea, (sn_once _ _ _ _ _ S Z). auto.
                ** right; right; right. exists w'. cbn. fold q. auto.
                ** right; right; right. exists w'. cbn. fold q. auto.
                ** right; right; right. exists w'. split; [reflexivity|]. split; [reflexivity|]. right; right; left.
                   unfold w'. cbn [w_comp w_resp]. rewrite pd_app, Z, Bool.orb_true_r. split; [|reflexivity].
                   destruct (sn_pd _ _ _ _ _ S Z) as [Z1 _]. pose proof (sn_comp _ _ _ _ _ S) as Z2. rewrite Z1 in Z2.
                   destruct (r_comp p); [discriminate|exact Hcomp].
                ** right; right; right. exists w'. split; [reflexivity|]. split; [reflexivity|]. right; right; right.
                   split; [exact Z1|]. unfold w'. cbn [w_comp]. rewrite Z2.
                   pose proof (sn_comp _ _ _ _ _ S) as Z3. rewrite Z2 in Z3. cbn in Z3. rewrite <- Z3. eauto.
             ++ right; left. exists k. unfold ChiCoh.hd in *. rewrite Hkeep by exact Hn. auto.
          -- now right; right; left.
          -- right; right; right. destruct X as (w0 & X0 & X1 & X2). rewrite Hw in X0. injection X0 as <-.
             exists w'. split; [reflexivity|]. split; [reflexivity|].
             destruct X2 as [X2|[X2|[[X2 X3]|(X2 & d & be & X3)]]]; [now left|now right; left| |congruence].
             right; right; left. unfold w'. cbn [w_comp w_resp]. rewrite pd_app, X3. split; [|reflexivity].
             destruct Hcase as [(_ & _ & _ & ->)|(_ & _ & _ & _ & S)]; [exact Hcomp|].
             destruct (r_comp p) as [c0|] eqn:Rc; [|exact Hcomp]. exfalso.
             destruct (sn_comp_val _ _ _ _ _ S c0 Rc) as (Z & _). destruct (Hfw1 Z) as [_ Z1]. rewrite Z1 in X3. discriminate.
      + eapply LI_frame; [exact L| | | | | |]; auto.
        * intros k Hk. destruct (Nat.eq_dec k j) as [->|Hn]; [|unfold ChiCoh.Ln; now rewrite Ek].
          destruct (N.eq_dec (index t) (index a)) as [E|E]; [|unfold ChiCoh.Ln; now rewrite Ex].
          destruct Hcase as [(C & _ & El' & _)|(C & Hd & _)].
          -- unfold ChiCoh.Ln, s1. now rewrite C.
          -- exfalso. destruct Hd as [_ Hd]. destruct Hk as [[_ Hk]|[_ Hk]]; unfold ChiCoh.Ln in *; rewrite E in Hk.
             ++ congruence.
             ++ rewrite Ea, Ltag in Hk. unfold l, ChiCoh.Ln in Hk. congruence.
        * intros k _ X. rewrite E2f; auto.
        * intros (w0 & X0 & X1 & _). rewrite Hw in X0. injection X0 as <-. exfalso. now apply Hta.
    - intros w0 E0. cbn in E0. injection E0 as <-. cbn [s_c s_t st_h]. rewrite E2c, E2t.
      change (w_i w') with i. 
      constructor; change (w_i w') with i; change (w_q w') with q; fold a.
      + exists r, n. exact Hwt.
      + rewrite Hrm. intros [X _]. now apply (wk_todo _ _ _ _ _ K).
      + intro Kc. exfalso. destruct (wk_none _ _ _ _ _ K Kc) as (X & _). rewrite X in Hin. destruct Hin.
      + intros Kc k Hk X Hnin. destruct (Nat.eq_dec k j) as [->|Hn].
        * destruct Hcase as [(_ & Hnd & _)|(_ & Hd & _ & _ & S)]; [exfalso; now apply Hnd, Hsub|].
          assert (V' : l_valid l' = true) by (destruct X as [X _]; now rewrite Ea in X).
          rewrite Ea. split; [apply (sn_share _ _ _ _ _ S)|]. left. unfold w'. cbn [w_resp].
          rewrite nz_app, (sn_nz _ _ _ _ _ S), V'. apply Bool.orb_true_r.
        * rewrite Hkeep by exact Hn. destruct (wk_seen _ _ _ _ _ K Kc k Hk (Hsub k X)) as [A [B|B]].
          -- intro Y. apply Hnin. apply Hrm. auto.
          -- split; [exact A|]. left. unfold w'. cbn [w_resp]. now rewrite nz_app, B.
          -- congruence.
      + intros Kc k Hk X. apply Hrm. split; [now apply (wk_inval _ _ _ _ _ K Kc k Hk), Hsub|].
        intros ->. destruct Hcase as [(_ & Hnd & _)|(_ & Hd & _ & _ & S)]; [now apply Hnd, Hsub|].
        destruct X as [X _]. rewrite Ea, (sn_valid _ _ _ _ _ S), Kc in X. discriminate.
      + intro Ho. unfold ChiCoh.hd. rewrite Hkeep by auto. now apply (wk_cu _ _ _ _ _ K).
      + unfold w'. cbn [w_got w_be w_data]. intro Hg.
        destruct (has_data (r_rop p)) eqn:Dt.
        * destruct Hcase as [(_ & _ & _ & ->)|(_ & Hd & Hfull & Hsame & S)]; [discriminate|].
          split; [exact Hfull|]. left. split.
          -- intros k Hk. rewrite (Hfull k Hk). now apply Hsame.
          -- intros k Hk X. apply Hrm in Hk as [Hk Hn]. rewrite Hkeep by exact Hn.
             apply (li_uniq _ _ _ _ _ _ _ _ (iv_line _ _ _ I a Al) k j Hn (Hsub k X) Hd).
        * rewrite Bool.orb_false_r in Hg. destruct (wk_got _ _ _ _ _ K Hg) as [A [[B D]|[B D]]].
          -- split; [exact A|]. left. split; [exact B|]. intros k Hk X. apply Hrm in Hk as [Hk Hn]. rewrite Hkeep by exact Hn. auto.
          -- split; [exact A|]. right. split; [exact B|]. intros k Hk X. apply Hrm in Hk as [Hk Hn]. now apply (D k Hk), Hsub.
      + intros Hrd. unfold w'. cbn [w_resp w_got w_comp]. rewrite nz_app. intro Hz.
        destruct (nz (w_resp w)) eqn:Nz.
        * destruct (wk_nz _ _ _ _ _ K Hrd Nz) as [X|X]; [left; now rewrite X|congruence].
        * destruct Hcase as [(_ & _ & _ & ->)|(_ & Hd & Hfull & Hsame & S)]; [discriminate|].
          destruct (r_comp p) as [c0|] eqn:Rc.
          -- right. pose proof (sn_comp _ _ _ _ _ S) as X. rewrite Rc in X. cbn in X. rewrite <- X. discriminate.
          -- left. rewrite (sn_fwd _ _ _ _ _ S Hrd Rc). apply Bool.orb_true_r.
      + unfold w'. cbn [w_resp w_got]. rewrite pd_app. intro Hz. destruct (pd (w_resp w)) eqn:Pd.
        * destruct (wk_pd _ _ _ _ _ K Pd) as [X Y]. rewrite X. auto.
        * destruct Hcase as [(_ & _ & _ & ->)|(_ & Hd & Hfull & Hsame & S)]; [discriminate|].
          destruct (sn_pd _ _ _ _ _ S Hz) as [X Y]. rewrite X, Bool.orb_true_r. auto.
      + intro Hf0. change (w_fwd w') with (w_fwd w) in Hf0. destruct (Hfw1 Hf0) as [X Y].
        split; [apply (wk_fwd _ _ _ _ _ K Hf0)|]. rewrite X. unfold w'. cbn [w_resp]. rewrite Y. cbn. lia.
      + unfold w'. cbn [w_ptl]. rewrite (wk_ptl _ _ _ _ _ K).
        destruct Hcase as [(_ & _ & _ & ->)|(_ & Hd & Hfull & Hsame & S)]; [reflexivity|].
        pose proof (sn_ptl _ _ _ _ _ S). destruct (r_rop p); try reflexivity. congruence.
      + unfold w'. cbn [w_ev w_got w_comp]. rewrite (wk_ev _ _ _ _ _ K), Hcomp. fold q. rewrite Bool.orb_false_r.
        destruct Hcase as [(_ & _ & _ & ->)|(_ & Hd & Hfull & Hsame & S)].
        * cbn. rewrite !Bool.orb_false_r. rewrite !Bool.andb_false_r, Bool.orb_false_r. reflexivity.
        * pose proof (sn_ptl _ _ _ _ _ S) as P1. pose proof (sn_comp _ _ _ _ _ S) as P2.
          destruct (r_rop p), (r_comp p), (non_coherent (q_op q)), (w_got w); cbn in *; congruence || reflexivity.
      + intros rs d be Hc0. unfold w' in Hc0. cbn [w_comp] in Hc0.
        destruct (r_comp p) as [c0|] eqn:Rc; [|congruence].
        destruct Hcase as [(_ & _ & _ & ->)|(_ & Hd & Hfull & Hsame & S)]; [discriminate|].
        pose proof (sn_comp _ _ _ _ _ S) as X. rewrite Rc in X. cbn in X. rewrite <- X in Hc0. injection Hc0 as <- <- <-.
        destruct (sn_comp_val _ _ _ _ _ S _ Rc) as (A & B & D & E1 & E2). destruct (Hfw1 A) as [F1 F2].
        split; [exact B|]. split; [exact F1|]. split.
        * intros k Hk. unfold fwd_be. destruct (r_rop p); try now apply Hfull.
          destruct Hcfg as [-> |[Y _]]; [reflexivity|]. destruct (wk_fwd _ _ _ _ _ K A). congruence.
        * split; [unfold w'; cbn [w_resp]; rewrite F2; cbn; now rewrite D|].
          split; [intros _; exact Hsame|]. split; [exact E1|exact E2].
      + unfold w'. cbn [w_resp]. intro X. symmetry in X. now apply app_cons_not_nil in X. }
  destruct (non_coherent (q_op q) && negb (w_ev w) && _) eqn:Now; cbn [good]; [|exact Inv'].
  split; [reflexivity|]. split; [|exact Inv'].
  apply andb_prop in Now as [Now Now3]. apply andb_prop in Now as [Now1 _].
  destruct (non_coherent_addr s G i r q n I Hwt Now1) as (Ha & _).
  apply read_piece_ok. rewrite <- Ha. fold a.
  destruct Hcase as [(_ & _ & _ & ->)|(_ & Hd & Hfull & Hsame & S)]; [discriminate|].
  destruct (is_fwded (r_rop p)); [exact Hsame|]. intros k Hk. rewrite (Hfull k Hk). now apply Hsame.
Qed.

End Steps.
