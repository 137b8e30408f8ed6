(** The end of a request keeps the invariant of ChiCoh.v. *)
From Coq Require Import ZifyBool ZifyNat.
From Verif Require Import Base BaseFacts TlmModel TlmSpec AceSpec CachelineModel ChiModel ChiFacts ChiCoh ChiCohStep.
Open Scope N_scope.

Section Home.
Context (f : cfg).
Notation index := (index f).
Notation Inv := (Inv f).
Notation hd := (hd f).
Notation Ln := (Ln f).

Lemma receive_spec l a rs d be :
  (rs = 1 \/ rs = 2 \/ rs = 6 \/ rs = 7) -> (forall k, k < 64 -> be k = true) ->
  let l' := receive l a rs d be in
  l_valid l' = true /\ l_tag l' = a /\ l_shared l' = ((rs =? 1) || (rs =? 7)) /\
  l_dirty l' = ((rs =? 6) || (rs =? 7)) /\ full l' /\ (forall k, k < 64 -> l_data l' k = d k).
Proof.
  intros Hrs Hbe. unfold receive. destruct Hrs as [->|[->|[->| ->]]]; cbn.
  all: repeat split; auto; intros k Hk; cbn; try reflexivity; now rewrite Hbe.
Qed.

(** Everything about the request at the home once all caches have been snooped. *)
Record at_end (s : state) (G : mem) (w : work) (r : run) (n : next) (M' : mem) : Prop := {
  ae_inv : Inv s G;
  ae_h : s_h s = Some w;
  ae_t : s_t s (w_i w) = Wait r (w_q w) n;
  ae_todo : w_todo w = [];
  ae_mem : forall t k, align t = t -> t <> q_addr (w_q w) -> k < 64 -> M' (t + k) = s_mem s (t + k) }.
Definition base (s : state) (M' : mem) : state := mkState (s_c s) M' (s_f s) (s_t s) None.

Section End_.
Context (s : state) (G : mem) (w : work) (r : run) (n : next) (M' : mem) (A : at_end s G w r n M').
Notation i := (w_i w).
Notation q := (w_q w).
Notation a := (q_addr (w_q w)).

Lemma ae_thr : thr_ok f (s_c s i) (Wait r q n).
Proof. pose proof (iv_thr _ _ _ (ae_inv _ _ _ _ _ _ A) i) as X. now rewrite (ae_t _ _ _ _ _ _ A) in X. Qed.
Lemma ae_al : align a = a.
Proof. eapply wait_align. exact ae_thr. Qed.
Lemma ae_work : work_ok f (s_c s) (s_t s) G w.
Proof. apply (iv_work _ _ _ (ae_inv _ _ _ _ _ _ A)), (ae_h _ _ _ _ _ _ A). Qed.
Lemma ae_line : LI f (s_c s) (s_mem s) (s_f s) (s_t s) (s_h s) G a.
Proof. apply (iv_line _ _ _ (ae_inv _ _ _ _ _ _ A)), ae_al. Qed.
Lemma ae_not_hot : forall r0, s_t s i <> Run r0 true.
Proof. intro r0. rewrite (ae_t _ _ _ _ _ _ A). discriminate. Qed.
(** A process just after CleanUnique/MakeUnique has the line for itself. *)
Lemma hot_hd j r0 : s_t s j = Run r0 true -> align (cur_addr r0) = a -> hd (s_c s) j a /\ l_shared (Ln (s_c s) j a) = false.
Proof.
  intros Ht E. pose proof (iv_thr _ _ _ (ae_inv _ _ _ _ _ _ A) j) as X. rewrite Ht in X. destruct X as [_ X].
  destruct (X eq_refl) as (_ & _ & Y). cbv zeta in Y. rewrite E in Y. unfold ChiCoh.hd, ChiCoh.Ln. tauto.
Qed.

(** CompData of a read that allocates. *)
Lemma fill_good rs d be sn ev :
  l_valid (s_c s i (index a)) = false ->
  non_coherent (q_op q) = false -> is_read (q_op q) = true ->
  same d G a -> (forall k, k < 64 -> be k = true) ->
  (rs = 1 \/ rs = 2 \/ rs = 6 \/ rs = 7) ->
  (forall j, j <> i -> hd (s_c s) j a -> (rs = 1 \/ rs = 7) /\ l_shared (Ln (s_c s) j a) = true) ->
  (memG M' G a \/ (exists j, hd (s_c s) j a /\ l_dirty (Ln (s_c s) j a) = true) \/ rs = 6 \/ rs = 7) ->
  good f (comp_data f (base s M') i r q rs d be sn ev) G.
Proof.
  intros Hv Hnc Hrd Hd Hbe Hrs Hsh Hm. unfold comp_data. rewrite Hnc. cbv zeta.
  assert (Hf : upd_filter (base s M') i q = st_f (base s M') i a true).
  { unfold upd_filter. destruct (q_op q); try discriminate; reflexivity. }
  rewrite Hf. set (l' := receive _ a rs d be).
  destruct (receive_spec (slot f (st_f (base s M') i a true) i a) a rs d be Hrs Hbe) as (R1 & R2 & R3 & R4 & R5 & R6).
  fold l' in R1, R2, R3, R4, R5, R6. clearbody l'. cbn [good].
  unfold put_slot, goto, st_f, base. cbn [s_c s_mem s_f s_t s_h]. rewrite ae_al.
  pose proof ae_line as L.
  assert (Hnh : ~ hd (s_c s) i a) by (intros [X _]; unfold ChiCoh.Ln in X; congruence).
  assert (Ei : Ln (updn (s_c s) i (updN (s_c s i) (index a) l')) i a = l') by (unfold ChiCoh.Ln; now rewrite updn_same, updN_same).
  assert (Ej : forall j, j <> i -> Ln (updn (s_c s) i (updN (s_c s i) (index a) l')) j a = Ln (s_c s) j a)
    by (intros j Hn; unfold ChiCoh.Ln; now rewrite updn_other).
  eapply inv_done; try exact (ae_inv _ _ _ _ _ _ A); try exact (ae_h _ _ _ _ _ _ A); try exact ae_al.
  - intros j Hn. now rewrite updn_other.
  - intros x Hx. now rewrite updn_same, updN_other.
  - right. split; [congruence|]. rewrite updn_same, updN_same. auto.
  - intros j t Ht. unfold updn. destruct (Nat.eqb_spec j i) as [->|]; [|reflexivity]. now rewrite updN_other.
  - intros t k Ht Hta Hk. now apply (ae_mem _ _ _ _ _ _ A).
  - auto.
  - cbn. destruct ae_thr as (X & _). split; [exact X|discriminate].
  - constructor.
    + intros j Hj. destruct (Nat.eq_dec j i) as [->|Hn].
      * left. rewrite Ei. split; [exact R5|]. intros k Hk. rewrite R6 by exact Hk. now apply Hd.
      * unfold ChiCoh.hd in Hj. rewrite Ej in * by exact Hn.
        destruct (li_copy _ _ _ _ _ _ _ _ L j Hj) as [X|(r0 & X & Y)]; [now left|right].
        exists r0. split; [now rewrite updn_other|exact Y].
    + intros j k Hn Hj Hk. destruct (Nat.eq_dec j i) as [->|Hnj].
      * rewrite Ei, R3. unfold ChiCoh.hd in Hk. rewrite Ej in Hk by auto.
        destruct (Hsh k (not_eq_sym Hn) Hk) as [[->| ->] _]; reflexivity.
      * unfold ChiCoh.hd in Hj. rewrite Ej in * by exact Hnj. now apply Hsh.
    + intros j Hj. destruct (Nat.eq_dec j i) as [->|Hn].
      * unfold updn. now rewrite Nat.eqb_refl, updN_same.
      * rewrite updn_other by exact Hn. unfold ChiCoh.hd in Hj. rewrite Ej in Hj by exact Hn.
        apply (li_filter _ _ _ _ _ _ _ _ L j Hj).
    + destruct Hm as [X|[(j & X & Y)|X]].
      * now left.
      * right; left. exists j. assert (Hn : j <> i) by (intros ->; now apply Hnh).
        unfold ChiCoh.hd. rewrite Ej by exact Hn. auto.
      * right; left. exists i. unfold ChiCoh.hd. rewrite Ei, R4. repeat split; auto. destruct X as [->| ->]; reflexivity.
Qed.

(** Data of a read that does not allocate. *)
Lemma once_good rs d be sn ev :
  l_valid (s_c s i (index a)) = false -> non_coherent (q_op q) = true ->
  (sn = true -> f_flits f = true) ->
  (ev = true \/ same d G a) ->
  (memG M' G a \/ (exists j, hd (s_c s) j a /\ l_dirty (Ln (s_c s) j a) = true) \/
   (exists j r0, s_t s j = Run r0 true /\ align (cur_addr r0) = a)) ->
  good f (comp_data f (base s M') i r q rs d be sn ev) G.
Proof.
  intros Hv Hnc Hsn Hev Hm. unfold comp_data. rewrite Hnc. cbv zeta.
  replace (sn && negb (f_flits f)) with false by (destruct sn; [rewrite Hsn; reflexivity|reflexivity]).
  assert (Hf : upd_filter (base s M') i q = st_f (base s M') i a false).
  { unfold upd_filter. destruct (q_op q); try discriminate; reflexivity. }
  rewrite Hf.
  destruct (non_coherent_addr f s G i r q n (ae_inv _ _ _ _ _ _ A) (ae_t _ _ _ _ _ _ A) Hnc) as (Ha & Hld & _).
  assert (Hnh : ~ hd (s_c s) i a) by (intros [X _]; unfold ChiCoh.Ln in X; congruence).
  pose proof ae_line as L.
  assert (I' : Inv (goto (st_f (base s M') i a false) i (Run (advance r (seg_len r) (read_piece d r)) false)) G).
  { unfold goto, st_f, base. cbn [s_c s_mem s_f s_t s_h].
    eapply inv_done; try exact (ae_inv _ _ _ _ _ _ A); try exact (ae_h _ _ _ _ _ _ A); try exact ae_al; auto.
    - intros j t Ht. unfold updn. destruct (Nat.eqb_spec j i) as [->|]; [|reflexivity]. now rewrite updN_other.
    - intros t k Ht Hta Hk. now apply (ae_mem _ _ _ _ _ _ A).
    - cbn. destruct ae_thr as (X & _). split; [now apply run_ok_advance|discriminate].
    - eapply LI_weaken with (i := i); [exact L| | | | | |]; auto.
      + intros r0 X. now apply ae_not_hot in X.
      + intros j Hj X. rewrite updn_other; [exact X|]. intros ->. now apply Hnh.
      + intros j r0 X _. rewrite updn_other; [exact X|]. intros ->. now apply ae_not_hot in X.
      + destruct Hm as [X|[X|(j & r0 & X & Y)]]; [now left|now right; left|].
        right; right; left. exists j, r0. split; [|exact Y]. rewrite updn_other; [exact X|]. intros ->. now apply ae_not_hot in X. }
  destruct ev; cbn [good]; [exact I'|].
  split; [reflexivity|]. split; [|exact I']. apply read_piece_ok. rewrite <- Ha.
  destruct Hev as [X|X]; [discriminate|exact X].
Qed.

(** After the last snoop: what other caches hold, and the memory. *)
Lemma others_share j : j <> i -> hd (s_c s) j a -> cls_of (q_op q) = K_Share ->
  l_shared (Ln (s_c s) j a) = true.
Proof.
  intros Hn Hj Kc. destruct (wk_seen _ _ _ _ _ ae_work (or_introl Kc) j Hn Hj) as [X _]; auto.
  rewrite (ae_todo _ _ _ _ _ _ A). auto.
Qed.
Lemma others_inval j : j <> i -> cls_of (q_op q) = K_Inval -> ~ hd (s_c s) j a.
Proof.
  intros Hn Kc Hj. pose proof (wk_inval _ _ _ _ _ ae_work Kc j Hn Hj) as X. rewrite (ae_todo _ _ _ _ _ _ A) in X. exact X.
Qed.
Lemma hot_class j r0 : s_t s j = Run r0 true -> align (cur_addr r0) = a ->
  cls_of (q_op q) = K_Once \/ cls_of (q_op q) = K_None.
Proof.
  intros Ht E. destruct (hot_hd j r0 Ht E) as [X Y].
  assert (Hn : j <> i) by (intros ->; now apply ae_not_hot in Ht).
  destruct (cls_of (q_op q)) eqn:Kc; auto.
  - rewrite others_share in Y by auto. discriminate.
  - exfalso. now apply (others_inval j Hn Kc).
Qed.
Lemma slot_invalid : is_read (q_op q) = true \/ q_op q = MakeUnique -> l_valid (s_c s i (index a)) = false /\ n = N_Main /\ main_ok f r q.
Proof.
  intro Ho. destruct ae_thr as (_ & _ & Y). destruct n.
  - destruct Y as [[Y1 Y2]|[(Y & _)|([Y|[Y _]] & _)]]; [auto| | |]; rewrite Y in Ho; destruct Ho; discriminate.
  - destruct Y as (_ & _ & Y & _). rewrite Y in Ho. destruct Ho; discriminate.
  - destruct Y as (_ & _ & _ & [[Y _]|[Y _]]); destruct (q_op q); destruct Ho; discriminate.
Qed.


(** The memory as it is when the home turns to the slave node: [M'] differs from
    the memory before only if passed-on dirty data has been written. *)
Definition mem_cond : Prop :=
  memG M' G a \/ (exists j, hd (s_c s) j a /\ l_dirty (Ln (s_c s) j a) = true) \/
  (exists j r0, s_t s j = Run r0 true /\ align (cur_addr r0) = a) \/
  q_op q = MakeUnique \/ q_op q = WriteUniqueFull.

Lemma no_holder_mem : mem_cond -> (forall j, ~ hd (s_c s) j a) -> q_op q <> MakeUnique -> q_op q <> WriteUniqueFull -> memG M' G a.
Proof.
  intros Hm Hn H1 H2. destruct Hm as [X|[(j & X & _)|[(j & r0 & X & Y)|[X|X]]]]; auto; try congruence.
  - exfalso. now apply (Hn j).
  - exfalso. destruct (hot_hd j r0 X Y) as [Z _]. now apply (Hn j).
Qed.

Lemma copy_back_good rs ev :
  M' = s_mem s -> copy_back (q_op q) = true -> mem_cond ->
  good f (process_req f (base s M') i r q n rs ev) G.
Proof.
  intros EM Hcb Hm. pose proof ae_thr as Hth. pose proof ae_al as Al. pose proof ae_line as L.
  assert (Hns : exists m, main_ok f r m /\ cb_ok f (s_c s i) q /\ index a = index (q_addr m) /\
     ((q_op q = WriteCleanFull /\ n = N_Inval m) \/ (q_op q <> WriteCleanFull /\ n = N_Issue m))).
  { destruct Hth as (_ & _ & Y). destruct n.
    - destruct Y as [[(_ & [[Y _]|[Y _]]) _]|[(Y & _)|([Y|[Y _]] & _)]]; try (rewrite Y in Hcb; discriminate).
      destruct (q_op q); discriminate.
    - destruct Y as (Y1 & Y2 & Y3 & Y4). exists main. split; [exact Y1|]. split; [exact Y2|]. auto.
    - destruct Y as (Y1 & Y2 & Y3 & [[Y4 Y5]|[Y4 _]]); [|rewrite Y4 in Hcb; discriminate].
      exists main. split; [exact Y1|]. split; [exact Y2|]. split; [exact Y3|]. auto. }
  destruct Hns as (m & Hmain & [_ Hcbk] & Hidx & Hn).
  assert (Hproc : process_req f (base s M') i r q n rs ev =
    let l := slot f (base s M') i a in
    let be := if l_valid l then q_be q else fun _ => false in
    let s1 := upd_filter (base s M') i q in
    let s2 := if wb_pd l then st_mem s1 (put_mem (s_mem s1) a (fun k => if be k then q_data q k else 0) be) else s1 in
    let l' := match q_op q with WriteCleanFull => set_dirty l false | _ => set_valid l false end in
    Ok (goto (put_slot f s2 i a l') i (continue r n), [])).
  { unfold process_req. cbv zeta. destruct (q_op q); try discriminate; reflexivity. }
  rewrite Hproc. clear Hproc. cbv zeta.
  set (l := s_c s i (index a)) in *.
  assert (El : slot f (base s M') i a = l) by (unfold slot, base; cbn [s_c]; now rewrite Al).
  rewrite El. set (be := if l_valid l then q_be q else fun _ => false).
  set (l' := match q_op q with WriteCleanFull => set_dirty l false | _ => set_valid l false end).
  set (F' := s_f (upd_filter (base s M') i q)).
  set (M2 := if wb_pd l then put_mem M' a (fun k => if be k then q_data q k else 0) be else M').
  assert (Es : goto (put_slot f (if wb_pd l then st_mem (upd_filter (base s M') i q)
       (put_mem (s_mem (upd_filter (base s M') i q)) a (fun k => if be k then q_data q k else 0) be)
       else upd_filter (base s M') i q) i a l') i (continue r n) =
       mkState (updn (s_c s) i (updN (s_c s i) (index a) l')) M2 F' (updn (s_t s) i (continue r n)) None).
  { unfold F', M2, upd_filter. destruct (wb_pd l), (filter_req (q_op q)); unfold goto, put_slot, st_mem, st_f, base;
      cbn [s_c s_mem s_f s_t s_h]; rewrite Al; reflexivity. }
  cbn [good]. rewrite Es.
  assert (HF : forall j t, (j <> i \/ t <> a \/ q_op q = WriteCleanFull) -> F' j t = s_f s j t).
  { intros j t Hjt. unfold F', upd_filter. destruct (filter_req (q_op q)) eqn:Fr; [|reflexivity]. cbn.
    unfold updn. destruct (Nat.eqb_spec j i) as [->|]; [|reflexivity]. destruct Hjt as [X|[X|X]]; [congruence| |rewrite X in Fr; discriminate].
    now rewrite updN_other. }
  assert (Hl' : l_tag l' = l_tag l /\ l_data l' = l_data l /\ l_be l' = l_be l /\ l_shared l' = l_shared l /\
     (l_valid l' = true -> l_valid l = true /\ q_op q = WriteCleanFull)).
  { unfold l'. destruct (q_op q); try discriminate Hcb; cbn; repeat split; auto; try discriminate. }
  destruct Hl' as (T1 & T2 & T3 & T4 & T5).
  eapply inv_done; try exact (ae_inv _ _ _ _ _ _ A); try exact (ae_h _ _ _ _ _ _ A); try exact ae_al.
  - intros j Hj. now rewrite updn_other.
  - intros x Hx. now rewrite updn_same, updN_other.
  - right. rewrite updn_same, updN_same. fold l. split; [intro V; now apply Hcbk|].
    intro V. destruct (T5 V) as [V0 _]. rewrite T1. now apply Hcbk.
  - intros j t Ht. apply HF. auto.
  - intros t k Ht Hta Hk. unfold M2. destruct (wb_pd l); [rewrite put_mem_other by auto|]; now apply (ae_mem _ _ _ _ _ _ A).
  - auto.
  - rewrite updn_same. destruct Hth as (X1 & X2 & _).
    destruct Hn as [[Ho ->]|[Ho ->]]; cbn [continue thr_ok].
    + auto.
    + split; [exact X1|]. split; [exact X2|]. left. split; [exact Hmain|]. rewrite <- Hidx, updN_same.
      unfold l'. destruct (q_op q); try discriminate Hcb; try reflexivity. congruence.
  - eapply LI_weaken with (i := i); [exact L| | | | | |].
    + intros r0 X. now apply ae_not_hot in X.
    + intros j Hj. unfold ChiCoh.Ln. now rewrite updn_other.
    + unfold ChiCoh.hd, ChiCoh.Ln. rewrite updn_same, updN_same. fold l. rewrite T1, T2, T3, T4. intros [V Tg].
      destruct (T5 V). auto.
    + intros j Hj X. rewrite HF; [exact X|]. destruct (Nat.eq_dec j i) as [->|]; [|auto]. right; right.
      unfold ChiCoh.hd, ChiCoh.Ln in Hj. rewrite updn_same, updN_same in Hj. destruct Hj as [Hj _]. now apply T5 in Hj.
    + intros j r0 X _. rewrite updn_other; [exact X|]. intros ->. now apply ae_not_hot in X.
    + destruct (wb_pd l) eqn:Wp.
      * left. unfold M2. intros k Hk. rewrite put_mem_line by exact Hk.
        unfold wb_pd in Wp. apply andb_prop in Wp as [V D]. destruct (Hcbk V) as (Tg & Dt & Bt).
        assert (Hd : hd (s_c s) i a) by (split; assumption).
        destruct (li_copy _ _ _ _ _ _ _ _ L i Hd) as [[X Y]|(r0 & X & _)]; [|now apply ae_not_hot in X].
        unfold be. rewrite V, Bt. change (l_be l k) with (l_be (Ln (s_c s) i a) k). rewrite (X k Hk), Dt. now apply Y.
      * unfold M2. destruct Hm as [X|[(j & X & Y)|[(j & r0 & X & Y)|[X|X]]]].
        -- now left.
        -- right; left. exists j. destruct (Nat.eq_dec j i) as [->|Hj].
           ++ exfalso. unfold wb_pd in Wp. destruct X as [X _]. unfold ChiCoh.Ln in X, Y. fold l in X, Y. rewrite X, Y in Wp. discriminate.
           ++ unfold ChiCoh.hd, ChiCoh.Ln. rewrite updn_other by exact Hj. auto.
        -- right; right; left. exists j, r0. split; [|exact Y]. rewrite updn_other; [exact X|]. intros ->. now apply ae_not_hot in X.
        -- rewrite X in Hcb. discriminate.
        -- rewrite X in Hcb. discriminate.
Qed.

Lemma evict_good rs ev :
  M' = s_mem s -> q_op q = Evict -> mem_cond ->
  good f (process_req f (base s M') i r q n rs ev) G.
Proof.
  intros EM Ho Hm. pose proof ae_thr as Hth. pose proof ae_al as Al. pose proof ae_line as L.
  destruct Hth as (X1 & X2 & Y).
  assert (Hns : exists m, main_ok f r m /\ index a = index (q_addr m) /\ n = N_Issue m /\ l_valid (s_c s i (index a)) = false).
  { destruct n.
    - destruct Y as [[(_ & [[Y _]|[Y _]]) _]|[(Y & _)|([Y|[Y _]] & _)]]; rewrite ?Ho in Y; discriminate.
    - destruct Y as (_ & _ & Y & _). congruence.
    - destruct Y as (Y1 & Y2 & Y3 & [[Y4 Y5]|[Y4 Y5]]); [rewrite Ho in Y4; discriminate|]. exists main. auto. }
  destruct Hns as (m & Hmain & Hidx & Hn & Hv).
  unfold process_req. rewrite Ho. cbv zeta. unfold upd_filter. rewrite Ho. cbn [filter_req good].
  unfold slot, goto, put_slot, st_f, base. cbn [s_c s_mem s_f s_t s_h]. rewrite Al.
  set (l := s_c s i (index a)) in *.
  eapply inv_done; try exact (ae_inv _ _ _ _ _ _ A); try exact (ae_h _ _ _ _ _ _ A); try exact ae_al.
  - intros j Hj. now rewrite updn_other.
  - intros x Hx. now rewrite updn_same, updN_other.
  - right. rewrite updn_same, updN_same. fold l. split; [congruence|discriminate].
  - intros j t Ht. unfold updn. destruct (Nat.eqb_spec j i) as [->|]; [|reflexivity]. now rewrite updN_other.
  - intros t k Ht Hta Hk. now apply (ae_mem _ _ _ _ _ _ A).
  - auto.
  - rewrite updn_same, Hn. cbn [continue thr_ok]. split; [exact X1|]. split; [exact X2|]. left. split; [exact Hmain|].
    rewrite <- Hidx, updN_same. reflexivity.
  - assert (Hnh : ~ hd (s_c s) i a) by (intros [X _]; unfold ChiCoh.Ln in X; fold l in X; congruence).
    eapply LI_weaken with (i := i); [exact L| | | | | |].
    + intros r0 X. now apply ae_not_hot in X.
    + intros j Hj. unfold ChiCoh.Ln. now rewrite updn_other.
    + unfold ChiCoh.hd, ChiCoh.Ln. rewrite updn_same, updN_same. intros [V _]. discriminate.
    + intros j Hj X. destruct (Nat.eq_dec j i) as [->|Hnj]; [|now rewrite updn_other].
      unfold ChiCoh.hd, ChiCoh.Ln in Hj. rewrite updn_same, updN_same in Hj. destruct Hj as [Hj _]. discriminate.
    + intros j r0 X _. rewrite updn_other; [exact X|]. intros ->. now apply ae_not_hot in X.
    + destruct Hm as [X|[(j & X & Z)|[(j & r0 & X & Z)|[X|X]]]]; [now left| | |congruence|congruence].
      * right; left. exists j. assert (Hj : j <> i) by (intros ->; now apply Hnh).
        unfold ChiCoh.hd, ChiCoh.Ln. rewrite updn_other by exact Hj. auto.
      * right; right; left. exists j, r0. split; [|exact Z]. rewrite updn_other; [exact X|]. intros ->. now apply ae_not_hot in X.
Qed.

(** CleanUnique and MakeUnique. *)
Lemma unique_good rs ev :
  q_op q = CleanUnique \/ q_op q = MakeUnique ->
  good f (process_req f (base s M') i r q n rs ev) G.
Proof.
  intros Ho. pose proof ae_thr as Hth. pose proof ae_al as Al. pose proof ae_line as L.
  assert (Kc : cls_of (q_op q) = K_Inval) by (destruct Ho as [-> | ->]; reflexivity).
  assert (Hr : run_ok f r /\ r_pos r < o_len (r_op r) /\ a = align (cur_addr r) /\ o_kind (r_op r) = O_Store /\
    (q_op q = MakeUnique -> seg_len r = 64)).
  { destruct Hth as (X1 & X2 & Y). split; [exact X1|]. split; [exact X2|]. destruct n.
    - destruct Y as [[(Y1 & [[Y2 _]|[Y2 Y3]]) _]|[(Y1 & Y2 & Y3)|([Y1|[Y1 _]] & _)]].
      + destruct Ho as [Ho|Ho]; rewrite Ho in Y2; discriminate.
      + destruct Y3 as [Y3 Y4]. auto.
      + split; [exact Y2|]. split; [exact Y3|]. intro Z. congruence.
      + destruct Ho; congruence.
      + destruct Ho; congruence.
    - destruct Y as (_ & _ & Y & _). destruct Ho; congruence.
    - destruct Y as (_ & _ & _ & [[Y _]|[Y _]]); destruct Ho as [Ho|Ho]; rewrite Ho in Y; discriminate. }
  destruct Hr as (Hr & Hl & Ha & Hk & Hseg).
  set (l := s_c s i (index a)) in *.
  set (l1 := set_dirty (set_shared (set_tag (set_valid l true) a) false) false).
  set (l2 := match q_op q with MakeUnique => set_bytes l1 no_data (fun _ => false) | _ => l1 end).
  assert (Hp : process_req f (base s M') i r q n rs ev =
    Ok (mkState (updn (s_c s) i (updN (s_c s i) (index a) l2)) M' (updn (s_f s) i (updN (s_f s i) a true))
          (updn (s_t s) i (Run r true)) None, [])).
  { unfold process_req, upd_filter. destruct Ho as [Ho|Ho]; unfold l2; rewrite Ho; cbv zeta; cbn [filter_req];
      unfold slot, goto, put_slot, st_f, base; cbn [s_c s_mem s_f s_t s_h]; rewrite Al; reflexivity. }
  rewrite Hp. cbn [good]. clear Hp.
  assert (E2 : l_valid l2 = true /\ l_tag l2 = a /\ l_shared l2 = false /\ l_dirty l2 = false).
  { unfold l2. destruct Ho as [-> | ->]; cbn; auto. }
  destruct E2 as (V2 & T2 & S2 & D2).
  assert (Ei : Ln (updn (s_c s) i (updN (s_c s i) (index a) l2)) i a = l2) by (unfold ChiCoh.Ln; now rewrite updn_same, updN_same).
  assert (Hno : forall j, j <> i -> ~ hd (updn (s_c s) i (updN (s_c s i) (index a) l2)) j a).
  { intros j Hn X. apply (others_inval j Hn Kc). unfold ChiCoh.hd, ChiCoh.Ln in *. now rewrite updn_other in X. }
  eapply inv_done; try exact (ae_inv _ _ _ _ _ _ A); try exact (ae_h _ _ _ _ _ _ A); try exact ae_al.
  - intros j Hj. now rewrite updn_other.
  - intros x Hx. now rewrite updn_same, updN_other.
  - right. rewrite updn_same, updN_same. fold l. split; [|auto].
    destruct Ho as [Ho|Ho].
    + intros _. apply (wk_cu _ _ _ _ _ ae_work Ho).
    + destruct (slot_invalid (or_intror Ho)) as [X _]. fold l in X. congruence.
  - intros j t Ht. unfold updn. destruct (Nat.eqb_spec j i) as [->|]; [|reflexivity]. now rewrite updN_other.
  - intros t k Ht Hta Hk0. now apply (ae_mem _ _ _ _ _ _ A).
  - auto.
  - rewrite updn_same. cbn [thr_ok]. split; [exact Hr|]. intros _. split; [exact Hk|]. split; [exact Hl|]. cbv zeta.
    rewrite <- Ha, updN_same. auto.
  - constructor.
    + intros j Hj. destruct (Nat.eq_dec j i) as [->|Hn]; [|exfalso; now apply (Hno j)]. rewrite Ei.
      destruct Ho as [Ho|Ho].
      * left. pose proof (wk_cu _ _ _ _ _ ae_work Ho) as Hd.
        destruct (li_copy _ _ _ _ _ _ _ _ L i Hd) as [[X Y]|(r0 & X & _)]; [|now apply ae_not_hot in X].
        unfold l2. rewrite Ho. split; [exact X|exact Y].
      * right. exists r. rewrite updn_same. split; [reflexivity|]. split; [now symmetry|]. unfold l2. rewrite Ho. cbn.
        split; [intros k Hk0; reflexivity|]. auto.
    + intros j k Hn Hj Hk0. exfalso. destruct (Nat.eq_dec j i) as [->|Hn1]; [apply (Hno k); auto|now apply (Hno j)].
    + intros j Hj. destruct (Nat.eq_dec j i) as [->|Hn]; [|exfalso; now apply (Hno j)].
      unfold updn. now rewrite Nat.eqb_refl, updN_same.
    + right; right; left. exists i, r. rewrite updn_same. auto.
Qed.

(** WriteUniqueFull and WriteUniquePtl: the piece is what the cache takes as sent. *)
Lemma write_unique_len :
  q_op q = WriteUniqueFull \/ q_op q = WriteUniquePtl ->
  (q = write_req (q_op q) r /\ o_kind (r_op r) = O_Store /\ ~ hd (s_c s) i a) /\
  (match q_op q with WriteUniqueFull => 64 | _ => N.min (rest r) 64 end) = seg_len r /\
  (q_op q = WriteUniqueFull -> line_off (cur_addr r) = 0 /\ seg_len r = 64).
Proof.
  intros Ho. pose proof ae_thr as Hth.
  destruct Hth as (Hr & Hl & Y).
  assert (Hw : q = write_req (q_op q) r /\ o_kind (r_op r) = O_Store /\ f_rnd f = true /\ ~ hd (s_c s) i a /\
     (q_op q = WriteUniqueFull -> all_enabled (r_op r) = true)).
  { destruct n.
    - destruct Y as [[(Y1 & [[Y2 _]|[Y2 Y3]]) _]|[(Y1 & Y2 & Y3)|(Y1 & Y2 & Y3 & Y4 & Y5)]].
      + destruct Ho as [Ho|Ho]; rewrite Ho in Y2; discriminate.
      + destruct Ho; congruence.
      + destruct Ho; congruence.
      + repeat split; auto. intro Z. destruct Y1 as [Y1|[_ Y1]]; [congruence|exact Y1].
    - destruct Y as (_ & _ & Y & _). destruct Ho; congruence.
    - destruct Y as (_ & _ & _ & [[Y _]|[Y _]]); destruct Ho as [Ho|Ho]; rewrite Ho in Y; discriminate. }
  destruct Hw as (Hq & Hk & Rn & Hni & Hall).
  pose proof Hr as ((_ & _ & Hst) & Hp & Hpos). destruct (Hst Hk) as [Hst1 Hst2]. destruct (Hst2 Rn) as [Hst3 Hst4].
  assert (Hbeg : line_off (cur_addr r) = 0 \/ line_off (cur_addr r) + rest r <= 64).
  { destruct Hpos as [Z|[Z|Z]]; [|now left|lia]. unfold cur_addr, rest. rewrite Z, N.add_0_r, N.sub_0_r.
    destruct Hst3 as [W|W]; [left; exact W|right; lia]. }
  assert (Hfull : all_enabled (r_op r) = true -> line_off (cur_addr r) = 0 /\ seg_len r = 64).
  { intro E. destruct (Hst4 E) as [Z1 Z2].
    assert (Z0 : line_off (cur_addr r) = 0).
    { destruct Hpos as [Z|[Z|Z]]; [|exact Z|lia]. unfold cur_addr. now rewrite Z, N.add_0_r. }
    assert (Zr : rest r mod 64 = 0).
    { unfold rest, line_off, cur_addr in *. pose proof (N.div_mod (o_addr (r_op r)) 64).
      pose proof (N.div_mod (o_addr (r_op r) + r_pos r) 64). pose proof (N.div_mod (o_len (r_op r)) 64).
      replace (o_len (r_op r) - r_pos r)
        with ((o_len (r_op r) / 64 + o_addr (r_op r) / 64 - (o_addr (r_op r) + r_pos r) / 64) * 64) by lia.
      apply N.mod_mul. lia. }
    split; [exact Z0|]. unfold seg_len. rewrite Z0.
    pose proof (N.div_mod (rest r) 64). assert (0 < rest r) by (unfold rest; lia). lia. }
  split; [auto|]. split.
  - destruct Ho as [Ho|Ho]; rewrite Ho.
    + symmetry. now apply Hfull, Hall.
    + unfold seg_len. lia.
  - intro X. now apply Hfull, Hall.
Qed.

Lemma write_unique_eq rs ev :
  q_op q = WriteUniqueFull \/ q_op q = WriteUniquePtl ->
  process_req f (base s M') i r q n rs ev =
    Ok (goto (st_mem (base s M') (put_mem M' a (q_data q) (q_be q))) i (Run (advance r (seg_len r) (write_piece r)) false),
        [Ev_Write i false (write_piece r)]).
Proof.
  intro Ho. destruct (write_unique_len Ho) as (_ & E & _). rewrite <- E. unfold process_req.
  destruct Ho as [Ho|Ho]; rewrite Ho; reflexivity.
Qed.

Lemma write_unique_good rs ev :
  q_op q = WriteUniqueFull \/ q_op q = WriteUniquePtl -> mem_cond ->
  good f (process_req f (base s M') i r q n rs ev) G.
Proof.
  intros Ho Hm. pose proof ae_thr as Hth. pose proof ae_al as Al. pose proof ae_line as L.
  assert (Kc : cls_of (q_op q) = K_Inval) by (destruct Ho as [-> | ->]; reflexivity).
  destruct Hth as (Hr & Hl & _).
  destruct (write_unique_len Ho) as ((Hq & Hk & Hni) & _ & Hfull).
  assert (Ha : a = align (cur_addr r)) by (rewrite Hq; reflexivity).
  assert (Hqd : q_data q = fun k => if hits r k then byte_for r k else 0) by (rewrite Hq; reflexivity).
  assert (Hqb : q_be q = hits r) by (rewrite Hq; reflexivity).
  clear Hq.
  pose proof Hr as ((_ & _ & Hst) & Hp & Hpos). destruct (Hst Hk) as [Hst1 _].
  rewrite (write_unique_eq rs ev Ho). cbn [good]. split; [reflexivity|]. split; [exact Logic.I|]. cbn [G_ev].
  unfold goto, st_mem, base. cbn [s_c s_mem s_f s_t s_h].
  assert (Hno : forall j, ~ hd (s_c s) j a).
  { intros j X. destruct (Nat.eq_dec j i) as [->|Hn]; [now apply Hni|now apply (others_inval j Hn Kc)]. }
  eapply inv_done; try exact (ae_inv _ _ _ _ _ _ A); try exact (ae_h _ _ _ _ _ _ A); try exact ae_al; auto.
  - intros t k Ht Hta Hk0. rewrite put_mem_other by auto. now apply (ae_mem _ _ _ _ _ _ A).
  - intros t k Ht Hta Hk0. apply piece_other; auto. now rewrite <- Ha.
  - cbn [thr_ok]. split; [now apply run_ok_advance|discriminate].
  - constructor.
    + intros j Hj. exfalso. now apply (Hno j).
    + intros j k _ Hj. exfalso. now apply (Hno j).
    + intros j Hj. exfalso. now apply (Hno j).
    + left. intros k Hk0. rewrite put_mem_line by exact Hk0. rewrite Hqb, Hqd. rewrite Ha, piece_line by exact Hk0.
      destruct (hits r k) eqn:Hh; [reflexivity|]. rewrite <- Ha.
      destruct Ho as [Ho|Ho].
      * exfalso. destruct (Hfull Ho) as (Z0 & Z2). rewrite hits_all in Hh; auto; [discriminate|].
        intros j Hj. apply Hst1; auto. destruct (seg_64 r Z2) as [_ Z3]. unfold rest in Z3. lia.
      * apply no_holder_mem; auto; rewrite Ho; discriminate.
Qed.

Lemma read_mem_good rs ev :
  cfg_ok f -> is_read (q_op q) = true -> w_got w = false -> w_comp w = None -> nz (w_resp w) = false ->
  mem_cond -> (rs = 0 \/ rs = 2) ->
  good f (process_req f (base s M') i r q n rs ev) G.
Proof.
  intros Hcfg Hrd Hgot Hcomp Hnz Hm Hrs.
  destruct (slot_invalid (or_introl Hrd)) as (Hv & _ & Hmain).
  assert (Hno : forall j, ~ hd (s_c s) j a).
  { intros j X. destruct (Nat.eq_dec j i) as [->|Hn].
    - destruct X as [X _]. unfold ChiCoh.Ln in X. congruence.
    - destruct (cls_of (q_op q)) eqn:Kc.
      + destruct (wk_seen _ _ _ _ _ ae_work (or_introl Kc) j Hn X) as [_ [Z|Z]]; [|congruence|congruence].
        rewrite (ae_todo _ _ _ _ _ _ A). auto.
      + destruct (wk_seen _ _ _ _ _ ae_work (or_intror Kc) j Hn X) as [_ [Z|Z]]; [|congruence|congruence].
        rewrite (ae_todo _ _ _ _ _ _ A). auto.
      + now apply (others_inval j Hn Kc).
      + destruct (q_op q); discriminate. }
  assert (Hmem : memG M' G a) by (apply no_holder_mem; auto; intro E; rewrite E in Hrd; discriminate).
  assert (Hp : process_req f (base s M') i r q n rs ev = comp_data f (base s M') i r q 2 (mem_line M' a) all_on true ev).
  { unfold process_req. replace ((rs =? 0) || (rs =? 2)) with true by (destruct Hrs as [-> | ->]; reflexivity).
    destruct (q_op q); try discriminate Hrd; reflexivity. }
  rewrite Hp. destruct (non_coherent (q_op q)) eqn:Nc.
  - apply once_good; auto.
    intros _. destruct (non_coherent_addr f s G i r q n (ae_inv _ _ _ _ _ _ A) (ae_t _ _ _ _ _ _ A) Nc) as (_ & _ & Rn).
    destruct Hcfg as [X|[_ X]]; [exact X|congruence].
  - apply fill_good; auto.
    intros j Hj X. exfalso. now apply (Hno j).
Qed.

End End_.

Lemma finish_good s G w :
  cfg_ok f -> Inv s G -> s_h s = Some w -> w_todo w = [] -> good f (finish f s w) G.
Proof.
  intros Hcfg I Hw Htd. pose proof (iv_work _ _ _ I w Hw) as K.
  destruct (wk_thr _ _ _ _ _ K) as (r & n & Ht).
  unfold finish. cbv zeta. change (s_t (st_h s None) (w_i w)) with (s_t s (w_i w)). rewrite Ht.
  assert (A0 : at_end s G w r n (s_mem s)) by (constructor; auto).
  pose proof (ae_line _ _ _ _ _ _ A0) as L. pose proof (ae_al _ _ _ _ _ _ A0) as Al.
  assert (Hmem0 : pd (w_resp w) = false -> w_comp w = None -> mem_cond s G w (s_mem s)).
  { intros Hpd Hc. destruct (li_mem _ _ _ _ _ _ _ _ L) as [X|[X|[X|(w0 & X0 & _ & X)]]]; unfold mem_cond; auto.
    rewrite Hw in X0. injection X0 as <-. destruct X as [X|[X|[[_ X]|(_ & d & be & X)]]]; auto 6; congruence. }
  destruct (w_comp w) as [[[rs d] be]|] eqn:Hc.
  - destruct (wk_comp _ _ _ _ _ K rs d be Hc) as (Hrd & _ & Hbe & Hpd & Hsame & Hsh & Hru).
    destruct (slot_invalid _ _ _ _ _ _ A0 (or_introl Hrd)) as (Hv & _ & _).
    change (st_h s None) with (base s (s_mem s)).
    destruct (non_coherent (q_op (w_q w))) eqn:Nc.
    + eapply once_good; eauto; [discriminate| |].
      * left. rewrite (wk_ev _ _ _ _ _ K), Nc, Hc. apply Bool.orb_true_r.
      * destruct (li_mem _ _ _ _ _ _ _ _ L) as [X|[X|[X|(w0 & X0 & _ & X)]]]; auto.
        rewrite Hw in X0. injection X0 as <-. exfalso.
        destruct X as [X|[X|[[X _]|(X & _)]]]; try congruence; rewrite X in Nc; discriminate.
    + assert (Kc : cls_of (q_op (w_q w)) = K_Share \/ q_op (w_q w) = ReadUnique)
        by (destruct (q_op (w_q w)); try discriminate; auto).
      eapply fill_good; eauto.
      * apply Hsame. destruct Kc as [Kc|Kc]; rewrite Kc; discriminate.
      * destruct Kc as [Kc|Kc]; [rewrite (Hsh Kc); auto|destruct (Hru Kc) as [-> | ->]; auto].
      * intros j Hn Hj. destruct Kc as [Kc|Kc].
        -- rewrite (Hsh Kc). split; [auto|]. eapply others_share; eauto.
        -- exfalso. eapply (others_inval _ _ _ _ _ _ A0 j); eauto. now rewrite Kc.
      * destruct (li_mem _ _ _ _ _ _ _ _ L) as [X|[X|[(j & r0 & X & Y)|(w0 & X0 & _ & X)]]]; auto.
        -- exfalso. destruct (hot_class _ _ _ _ _ _ A0 j r0 X Y) as [Z|Z]; destruct Kc as [Kc|Kc]; rewrite Kc in Z; discriminate.
        -- rewrite Hw in X0. injection X0 as <-. destruct X as [X|[X|[[X _]|(X & d0 & be0 & X1)]]].
           ++ rewrite X in Hrd. discriminate.
           ++ rewrite X in Hrd. discriminate.
           ++ congruence.
           ++ rewrite Hc in X1. injection X1 as -> _ _. auto.
  - (* no forwarded data *)
    set (wr := w_got w && ((parse (w_resp w) =? 6) || (parse (w_resp w) =? 7)) && negb (allows_pd (q_op (w_q w)) (w_ptl w))).
    set (M' := if wr then put_mem (s_mem s) (q_addr (w_q w)) (w_data w) (w_be w) else s_mem s).
    assert (A : at_end s G w r n M').
    { constructor; auto. intros t k Hta Hne Hk. unfold M'. destruct wr; [|reflexivity]. now apply put_mem_other. }
    set (rs1 := if wr then clear_pd (parse (w_resp w)) else parse (w_resp w)).
    assert (Hgoal : good f (if w_got w && is_read (q_op (w_q w)) && negb (w_ptl w)
        then comp_data f (base s M') (w_i w) r (w_q w) (if non_coherent (q_op (w_q w)) then 0 else rs1) (w_data w) (w_be w) false (w_ev w)
        else process_req f (base s M') (w_i w) r (w_q w) n rs1 (w_ev w)) G /\
       (w_resp w = [] -> good f (process_req f (base s (s_mem s)) (w_i w) r (w_q w) n 0 (w_ev w)) G)).
    { assert (Hpar : parse (w_resp w) = 6 \/ parse (w_resp w) = 7 <-> pd (w_resp w) = true).
      { rewrite parse_spec. destruct (nz (w_resp w)), (pd (w_resp w)); split; intro X; auto; try discriminate X; destruct X; discriminate. }
      assert (Hwr : wr = true -> pd (w_resp w) = true /\ w_got w = true).
      { unfold wr. intro X. apply andb_prop in X as [X _]. apply andb_prop in X as [X1 X2]. split; [|exact X1].
        apply Hpar. apply Bool.orb_true_iff in X2 as [X2|X2]; apply N.eqb_eq in X2; auto. }
      assert (Hdata : w_got w = true -> cls_of (q_op (w_q w)) <> K_Once -> same (w_data w) G (q_addr (w_q w))).
      { intros Hg Hno. destruct (wk_got _ _ _ _ _ K Hg) as [_ [[X _]|[X _]]]; [exact X|congruence]. }
      assert (HMw : wr = true -> memG M' G (q_addr (w_q w))).
      { intros X. destruct (Hwr X) as [Hpd Hg]. destruct (wk_pd _ _ _ _ _ K Hpd) as [_ Hno].
        unfold M'. rewrite X. intros k Hk. rewrite put_mem_line by exact Hk.
        destruct (wk_got _ _ _ _ _ K Hg) as [Hb _]. rewrite Hb by exact Hk. now apply Hdata. }
      assert (Hmc : wr = true \/ pd (w_resp w) = false -> mem_cond s G w M').
      { intros [X|X]; [left; now apply HMw|]. destruct wr eqn:Ewr; [destruct (Hwr eq_refl); congruence|]. now apply Hmem0. }
      assert (Hnwr : pd (w_resp w) = true -> wr = false -> allows_pd (q_op (w_q w)) (w_ptl w) = true).
      { intros Hpd X. destruct (wk_pd _ _ _ _ _ K Hpd) as [Hg _]. unfold wr in X. rewrite Hg in X.
        replace ((parse (w_resp w) =? 6) || (parse (w_resp w) =? 7)) with true in X
          by (symmetry; apply Bool.orb_true_iff; rewrite !N.eqb_eq; now apply Hpar).
        now destruct (allows_pd (q_op (w_q w)) (w_ptl w)). }
      assert (Hmc2 : is_read (q_op (w_q w)) = false -> mem_cond s G w M').
      { intro Hrd. apply Hmc. destruct (pd (w_resp w)) eqn:Hpd; [left|auto]. destruct wr eqn:Ewr; [reflexivity|].
        specialize (Hnwr eq_refl eq_refl). unfold allows_pd in Hnwr. destruct (q_op (w_q w)); try discriminate Hrd; destruct (w_ptl w); discriminate. }
      assert (Hproc : forall M2 rs ev, at_end s G w r n M2 -> is_read (q_op (w_q w)) = false -> mem_cond s G w M2 ->
         (cls_of (q_op (w_q w)) = K_None -> M2 = s_mem s) -> good f (process_req f (base s M2) (w_i w) r (w_q w) n rs ev) G).
      { intros M2 rs ev A2 Hrd Hm2 HK. destruct (q_op (w_q w)) eqn:Eo; try discriminate Hrd.
        - eapply unique_good; eauto.
        - eapply unique_good; eauto.
        - eapply evict_good; eauto.
        - eapply copy_back_good; eauto. now rewrite Eo.
        - eapply copy_back_good; eauto. now rewrite Eo.
        - eapply copy_back_good; eauto. now rewrite Eo.
        - eapply copy_back_good; eauto. now rewrite Eo.
        - eapply write_unique_good; eauto.
        - eapply write_unique_good; eauto. }
      split.
      - rewrite (wk_ptl _ _ _ _ _ K). cbn [negb]. rewrite Bool.andb_true_r.
        destruct (is_read (q_op (w_q w))) eqn:Hrd.
        + destruct (slot_invalid _ _ _ _ _ _ A0 (or_introl Hrd)) as (Hv & _ & _).
          destruct (w_got w) eqn:Hg; cbn [andb].
          * destruct (non_coherent (q_op (w_q w))) eqn:Nc.
            -- eapply once_good; eauto; [discriminate| |].
               ++ left. now rewrite (wk_ev _ _ _ _ _ K), Nc, Hg.
               ++ destruct wr eqn:Ewr; [left; auto|]. assert (Hpd : pd (w_resp w) = false).
                  { destruct (pd (w_resp w)) eqn:Hpd; [|reflexivity]. specialize (Hnwr eq_refl eq_refl).
                    unfold allows_pd in Hnwr. destruct (q_op (w_q w)); try discriminate Nc; destruct (w_ptl w); discriminate. }
                  destruct (Hmc (or_intror Hpd)) as [X|[X|[X|[X|X]]]]; auto; rewrite X in Hrd; discriminate.
            -- assert (Kc : cls_of (q_op (w_q w)) = K_Share \/ q_op (w_q w) = ReadUnique)
                 by (destruct (q_op (w_q w)); try discriminate; auto).
               destruct (wk_got _ _ _ _ _ K Hg) as [Hb _].
               assert (Hrs : rs1 = (if nz (w_resp w) then if pd (w_resp w) && negb wr then 7 else 1
                                    else if pd (w_resp w) && negb wr then 6 else 2)).
               { unfold rs1. rewrite parse_spec. destruct wr, (nz (w_resp w)), (pd (w_resp w)); reflexivity. }
               eapply fill_good; eauto.
               ++ apply Hdata; auto. destruct Kc as [Kc|Kc]; rewrite Kc; discriminate.
               ++ rewrite Hrs. destruct (nz (w_resp w)), (pd (w_resp w) && negb wr); auto.
               ++ intros j Hn Hj. destruct Kc as [Kc|Kc].
                  ** destruct (wk_seen _ _ _ _ _ K (or_introl Kc) j Hn Hj) as [X [Y|Y]]; [rewrite Htd; auto| |congruence].
                     split; [|now apply X]. rewrite Hrs, Y. destruct (pd (w_resp w) && negb wr); auto.
                  ** exfalso. eapply (others_inval _ _ _ _ _ _ A j); eauto. now rewrite Kc.
               ++ destruct (pd (w_resp w) && negb wr) eqn:Pw.
                  ** right; right. rewrite Hrs. destruct (nz (w_resp w)); auto.
                  ** assert (X : wr = true \/ pd (w_resp w) = false)
                       by (destruct (pd (w_resp w)); [left; destruct wr; [reflexivity|discriminate]|now right]).
                     destruct (Hmc X) as [Y|[Y|[(j & r0 & Y & Z)|[Y|Y]]]]; auto.
                     --- exfalso. destruct (hot_class _ _ _ _ _ _ A j r0 Y Z) as [Q|Q]; destruct Kc as [Kc|Kc]; rewrite Kc in Q; discriminate.
                     --- rewrite Y in Hrd. discriminate.
                     --- rewrite Y in Hrd. discriminate.
          * assert (Hpd : pd (w_resp w) = false).
            { destruct (pd (w_resp w)) eqn:Hpd; [|reflexivity]. destruct (wk_pd _ _ _ _ _ K Hpd). congruence. }
            assert (Hnz : nz (w_resp w) = false).
            { destruct (nz (w_resp w)) eqn:Hnz; [|reflexivity]. destruct (wk_nz _ _ _ _ _ K Hrd Hnz); congruence. }
            eapply read_mem_good; eauto. right. unfold rs1. rewrite parse_spec, Hnz, Hpd. destruct wr; reflexivity.
        + rewrite Bool.andb_false_r. apply Hproc; auto.
          intro Kc. destruct (wk_none _ _ _ _ _ K Kc) as (_ & _ & _ & Hg). unfold M', wr. now rewrite Hg.
      - intro Hr0. assert (Hpd : pd (w_resp w) = false) by now rewrite Hr0.
        destruct (is_read (q_op (w_q w))) eqn:Hrd; [|apply Hproc; auto].
        assert (Hg : w_got w = false).
        { now apply (wk_resp _ _ _ _ _ K). }
        eapply read_mem_good; eauto. now rewrite Hr0. }
    destruct Hgoal as [Hg1 Hg2]. destruct (w_resp w) as [|x xs] eqn:Er.
    + now apply Hg2.
    + assert (Eb : (if wr then st_mem (st_h s None) (put_mem (s_mem (st_h s None)) (q_addr (w_q w)) (w_data w) (w_be w)) else st_h s None) = base s M').
      { unfold M', base. destruct wr; reflexivity. }
      fold wr. rewrite Eb. exact Hg1.
Qed.

End Home.
