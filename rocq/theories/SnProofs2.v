(** Lemmas about the model of the CHI slave node: write data, the machine. *)
From Coq Require Import Permutation.
From Verif Require Import Base BaseFacts TlmModel SnModel SnSpec SnProofs.
Open Scope N_scope.

(** *** Write data *)
(** What one chunk [c] of [w] bytes does to byte [i]. *)
Definition hit (w : nat) (c : chunk) (i : nat) : bool := c_id c =? N.of_nat (i / w).

Lemma copy_chunk_ok w t c : (0 < w)%nat -> length (c_data c) = w ->
  (N.to_nat (c_id c) * w + w <= 64)%nat -> buffers t ->
  exists t', copy_chunk t c = Ok t' /\ t_req t' = t_req t /\ buffers t' /\
    t_cnt t' = t_cnt t + N.of_nat w /\
    forall i, (i < 64)%nat ->
      nth i (t_data t') 0 = (if hit w c i && chunk_on c (i mod w) then nth (i mod w) (c_data c) 0 else nth i (t_data t) 0) /\
      nth i (t_be t') 0 = (if hit w c i then (if chunk_on c (i mod w) then 255 else 0) else nth i (t_be t) 0).
Proof.
  intros Hw L Hin [B1 B2]. unfold copy_chunk. rewrite L.
  set (off := (c_id c * N.of_nat w) mod u32).
  assert (Eo : off = c_id c * N.of_nat w) by (unfold off, u32; apply N.mod_small; nia).
  assert (Ho : off + N.of_nat w <= 64) by nia.
  assert (Em : (LINE + u32 - off) mod u32 = 64 - off).
  { unfold LINE. replace (64 + u32 - off) with ((64 - off) + 1 * u32) by lia.
    rewrite N.mod_add by discriminate. apply N.mod_small. unfold u32. lia. }
  rewrite Em. replace (64 - off <? N.of_nat w) with false by lia.
  unfold LINE. replace (64 <? off + N.of_nat w) with false by lia. cbn [andb].
  eexists. split; [reflexivity|]. cbn [t_req t_data t_be t_cnt].
  split; [reflexivity|]. split; [split; cbn [t_data t_be]; rewrite map_length, seq_length; assumption|].
  split; [reflexivity|]. intros i Hi. rewrite B1, B2, !nth_map_seq by exact Hi.
  assert (EH : (off <=? N.of_nat i) && (N.of_nat i <? off + N.of_nat w) = hit w c i).
  { unfold hit. rewrite Eo.
    pose proof (Nat.div_mod i w ltac:(lia)) as D. pose proof (Nat.mod_upper_bound i w ltac:(lia)) as U.
    set (k := (i / w)%nat) in *. set (r := (i mod w)%nat) in *. clearbody k r.
    clear - D U Hw. subst i.
    destruct (c_id c =? N.of_nat k) eqn:E.
    - apply N.eqb_eq in E. rewrite E. apply andb_true_iff. split; [apply N.leb_le | apply N.ltb_lt]; nia.
    - apply N.eqb_neq in E. apply andb_false_iff.
      destruct (N.lt_ge_cases (c_id c) (N.of_nat k)).
      + right. apply N.ltb_ge. nia.
      + left. apply N.leb_gt. nia. }
  rewrite EH. destruct (hit w c i) eqn:H; cbn [andb]; [|split; reflexivity].
  assert (Ei : (i - N.to_nat off = i mod w)%nat).
  { unfold hit in H. apply N.eqb_eq in H. rewrite Eo, H.
    pose proof (Nat.div_mod i w ltac:(lia)) as D. nia. }
  rewrite Ei. unfold chunk_on, BE_ON, BE_OFF. destruct (c_be c) as [|b be]; cbn [length].
  - split; reflexivity.
  - split; reflexivity.
Qed.

Lemma copy_all_ok w cs : (0 < w)%nat -> forall t, buffers t ->
  Forall (fun c => length (c_data c) = w) cs ->
  NoDup (map c_id cs) -> Forall (fun c => (N.to_nat (c_id c) * w + w <= 64)%nat) cs ->
  exists t', copy_all t cs = Ok t' /\ t_req t' = t_req t /\ buffers t' /\
    t_cnt t' = t_cnt t + N.of_nat (length cs * w) /\
    forall i, (i < 64)%nat ->
      match line_byte w cs i with
      | Some (v, en) => nth i (t_data t') 0 = (if en : bool then v else nth i (t_data t) 0) /\
                        nth i (t_be t') 0 = (if en then 255 else 0)
      | None => nth i (t_data t') 0 = nth i (t_data t) 0 /\ nth i (t_be t') 0 = nth i (t_be t) 0
      end.
Proof.
  intros Hw. induction cs as [|c cs IH]; intros t B F1 ND F2; cbn [copy_all].
  - exists t. split; [reflexivity|]. split; [reflexivity|]. split; [exact B|]. split; [cbn; lia|].
    intros i Hi. split; reflexivity.
  - inversion F1 as [|? ? L F1']; subst. inversion F2 as [|? ? Hin F2']; subst.
    cbn [map] in ND. inversion ND as [|? ? Hni ND']; subst.
    set (w := length (c_data c)) in *.
    destruct (copy_chunk_ok w t c Hw eq_refl Hin B) as (t1 & E & Rq & B1 & C1 & P1).
    rewrite E. cbn [rbind]. destruct (IH t1 B1 F1' ND' F2') as (t2 & E2 & Rq2 & B2 & C2 & P2).
    exists t2. split; [exact E2|]. split; [congruence|]. split; [exact B2|].
    split; [rewrite C2, C1; cbn [length]; lia|].
    intros i Hi. specialize (P1 i Hi). specialize (P2 i Hi). cbn [line_byte].
    fold (hit w c i). destruct (hit w c i) eqn:H.
    + assert (None_ : line_byte w cs i = None).
      { unfold hit in H. apply N.eqb_eq in H. clear - Hni H.
        induction cs as [|c' cs IHc]; [reflexivity|]. cbn [line_byte map] in *.
        replace (c_id c' =? N.of_nat (i / w)) with false; [apply IHc; intros G; apply Hni; right; exact G|].
        symmetry. apply N.eqb_neq. intros G. apply Hni. left. congruence. }
      rewrite None_ in P2. destruct P2 as [Q1 Q2]. rewrite Q1, Q2.
      destruct P1 as [Q3 Q4]. rewrite Q3, Q4. cbn [andb]. split; reflexivity.
    + cbn [andb] in P1. destruct P1 as [Q3 Q4].
      destruct (line_byte w cs i) as [[v en]|]; [rewrite <- Q3; exact P2 | rewrite <- Q3, <- Q4; exact P2].
Qed.

Lemma line_byte_some w cs i : In (N.of_nat (i / w)) (map c_id cs) ->
  exists v en, line_byte w cs i = Some (v, en).
Proof.
  induction cs as [|c cs IH]; intros H; [destruct H|]. cbn [line_byte].
  destruct (c_id c =? N.of_nat (i / w)) eqn:E; [eexists; eexists; reflexivity|].
  apply IH. destruct H as [H|H]; [apply N.eqb_neq in E; contradiction | exact H].
Qed.

Lemma of_nat_seq_nodup k : NoDup (map N.of_nat (seq 0 k)).
Proof.
  apply FinFun.Injective_map_NoDup; [intros a b; apply Nat2N.inj | apply seq_NoDup].
Qed.

Lemma line_chunks_facts w cs : (0 < w)%nat -> (64 mod w = 0)%nat -> line_chunks w cs ->
  Forall (fun c => length (c_data c) = w) cs /\ NoDup (map c_id cs) /\
  Forall (fun c => (N.to_nat (c_id c) * w + w <= 64)%nat) cs /\ (length cs * w = 64)%nat /\
  (forall i, (i < 64)%nat -> In (N.of_nat (i / w)) (map c_id cs)).
Proof.
  intros Hw Dv [F P]. pose proof (Nat.div_mod 64 w ltac:(lia)) as D. rewrite Dv, Nat.add_0_r in D.
  set (k := (64 / w)%nat) in *.
  split; [exact F|].
  split; [apply (Permutation_NoDup (Permutation_sym P)), of_nat_seq_nodup|].
  split.
  { apply Forall_forall. intros c Hc. apply (in_map c_id) in Hc. apply (Permutation_in _ P) in Hc.
    apply in_map_iff in Hc. destruct Hc as (j & <- & Hj). apply in_seq in Hj. rewrite Nat2N.id. nia. }
  split.
  { apply Permutation_length in P. rewrite !map_length, seq_length in P. rewrite P. lia. }
  intros i Hi. apply (Permutation_in _ (Permutation_sym P)). apply in_map. apply in_seq.
  split; [apply Nat.le_0_l|]. rewrite Nat.add_0_l. apply Nat.div_lt_upper_bound; [|rewrite <- D; exact Hi].
  intros Z. rewrite Z in Hw. inversion Hw.
Qed.

(** *** The machine *)
Lemma find_split id l t : find_txn id l = Some t ->
  exists a b, l = a ++ (id, t) :: b /\ find_txn id a = None.
Proof.
  induction l as [|[i x] l IH]; intros H; [discriminate H|]. cbn [find_txn] in H.
  destruct (i =? id) eqn:E.
  - apply N.eqb_eq in E. injection H as ->. subst i. exists [], l. split; reflexivity.
  - destruct (IH H) as (a & b & -> & N). exists ((i, x) :: a), b. split; [reflexivity|].
    cbn [find_txn]. rewrite E. exact N.
Qed.
Lemma set_split id t t' a b : find_txn id a = None ->
  set_txn id t' (a ++ (id, t) :: b) = a ++ (id, t') :: b.
Proof.
  induction a as [|[i x] a IH]; intros H; cbn [app set_txn].
  - rewrite N.eqb_refl. reflexivity.
  - cbn [find_txn] in H. destruct (i =? id); [discriminate H|]. rewrite IH by exact H. reflexivity.
Qed.
Lemma del_split id t a b : find_txn id a = None -> del_txn id (a ++ (id, t) :: b) = a ++ b.
Proof.
  induction a as [|[i x] a IH]; intros H; cbn [app del_txn].
  - rewrite N.eqb_refl. reflexivity.
  - cbn [find_txn] in H. destruct (i =? id); [discriminate H|]. rewrite IH by exact H. reflexivity.
Qed.

Lemma copy_chunk_req t c t' : copy_chunk t c = Ok t' -> t_req t' = t_req t.
Proof.
  unfold copy_chunk. cbv zeta.
  match goal with |- (if ?b then _ else _) = _ -> _ => destruct b end; [discriminate|].
  intros H. apply Ok_inj in H. rewrite <- H. reflexivity.
Qed.

(** Data messages sent by [exec]. *)
(** The kinds of the specification and those of the code. *)
Lemma k_read_eq q : k_read q = is_read q.
Proof. unfold k_read, is_read, OP_ReadNoSnp, OP_ReadNoSnpSep. cbn [existsb]. lia. Qed.
Lemma k_cmo_eq q : k_cmo q = is_cmo q.
Proof.
  unfold k_cmo, is_cmo, OP_CleanShared, OP_CleanSharedPersist, OP_CleanInvalid, OP_MakeInvalid.
  cbn [existsb]. lia.
Qed.
Lemma k_returning_eq q : k_returning q = is_atomic q && negb (is_store q).
Proof.
  unfold k_returning, is_atomic, is_store, OP_AtomicStore, OP_AtomicLoad, OP_AtomicCompare. lia.
Qed.
Lemma owes_data_eq q : owes_data q = is_read q || (is_atomic q && negb (is_store q)).
Proof. unfold owes_data. rewrite k_read_eq, k_returning_eq. reflexivity. Qed.

Lemma exec_dat acc m t m' log d : exec acc m t = Ok (m', log, d) ->
  map dat_head (match d with None => [] | Some x => [x] end) =
  if owes_data (t_req t)
  then [(q_retnid (t_req t), q_rettxn (t_req t), q_src (t_req t), q_txn (t_req t))] else [].
Proof.
  unfold exec. rewrite owes_data_eq. destruct (slave_win (t_req t)) as [a n].
  destruct (is_atomic (t_req t)) eqn:A.
  - assert (R : is_read (t_req t) = false).
    { unfold is_atomic, OP_AtomicStore, OP_AtomicCompare in A. unfold is_read, OP_ReadNoSnp, OP_ReadNoSnpSep. lia. }
    rewrite R. cbn [orb andb]. unfold handle_atomic.
    destruct (LINE <? q_len (t_req t)); [discriminate|].
    destruct (negb (acc C_READ _ _)); [discriminate|].
    destruct (is_store (t_req t)) eqn:St; cbn [negb rbind].
    + match goal with |- rbind ?x _ = _ -> _ => destruct x; cbn [rbind]; try discriminate end.
      destruct (negb (acc C_WRITE _ _)); [discriminate|]. intros H. apply Ok_inj in H.
      injection H as _ _ <-. reflexivity.
    + destruct (original _ _) as [[dd be]| | |]; cbn [rmap rbind]; try discriminate.
      match goal with |- rbind ?x _ = _ -> _ => destruct x; cbn [rbind]; try discriminate end.
      destruct (negb (acc C_WRITE _ _)); [discriminate|]. intros H. apply Ok_inj in H.
      injection H as _ _ <-. reflexivity.
  - cbn [andb]. rewrite orb_false_r. destruct (is_read (t_req t)) eqn:R.
    + destruct (LINE <? _); [discriminate|]. destruct (negb (acc _ _ _)); [discriminate|].
      destruct (negb (_ =? 0)); [discriminate|]. intros H. apply Ok_inj in H. injection H as _ _ <-. reflexivity.
    + destruct (is_write (t_req t)).
      * destruct (LINE <? _); [discriminate|]. destruct (negb (acc _ _ _)); [discriminate|].
        intros H. apply Ok_inj in H. injection H as _ _ <-. reflexivity.
      * destruct (acc C_IGNORE 0 LINE); [|discriminate]. intros H. apply Ok_inj in H. injection H as _ _ <-. reflexivity.
Qed.

(** The answer, following the order of the code. *)
Lemma answer_alt q : answer q =
  if is_read q then (if wants_receipt q then [R_ReadReceipt] else [])
  else if is_atomic q && negb (is_store q) then [R_DBIDResp]
  else if is_cmo q then [R_Comp] else [R_CompDBIDResp].
Proof.
  unfold answer. rewrite k_read_eq, k_cmo_eq, k_returning_eq. fold OP_ReadNoSnpSep.
  fold (wants_receipt q). destruct (is_read q); [reflexivity|].
  destruct (is_cmo q) eqn:C, (is_atomic q) eqn:A; cbn [andb]; try reflexivity.
  unfold is_cmo, OP_CleanShared, OP_CleanSharedPersist, OP_CleanInvalid, OP_MakeInvalid in C.
  unfold is_atomic, OP_AtomicStore, OP_AtomicCompare in A. lia.
Qed.

(** The invariant, relating a state to the requests taken ([tk]) and sent back
    ([rt]) so far. *)
Record sinv (tk rt : list sreq) (s : sn) : Prop := {
  iv_fifo : exists started, tk = started ++ map t_req (s_reqq s) /\
    map rsp_head (filter (fun r => negb (is_retry_rsp r)) (s_rsp s)) = flat_map heads started /\
    Permutation started (map t_req (map snd (s_txn s)) ++ map t_req (s_txq s) ++ s_done s);
  iv_retry : map rsp_head (filter is_retry_rsp (s_rsp s)) =
    flat_map (fun q => [(R_RetryAck, q_src q, q_txn q); (R_PCrdGrant, q_src q, q_txn q)]) rt;
  iv_ids : Permutation (s_free s ++ map fst (s_txn s)) (map N.of_nat (seq 0 256));
  iv_dat : map dat_head (s_dat s) =
    flat_map (fun q => if owes_data q then [(q_retnid q, q_rettxn q, q_src q, q_txn q)] else []) (s_done s) }.

Lemma sinv_init m : sinv [] [] (sn_init m).
Proof.
  constructor; cbn [sn_init s_reqq s_rsp s_txn s_txq s_done s_dat s_free map filter flat_map app].
  - exists []. repeat split. constructor.
  - reflexivity.
  - rewrite app_nil_r. reflexivity.
  - reflexivity.
Qed.

Lemma heads_eq q : heads q = map (fun k => (k, q_src q, q_txn q))
  (if is_read q then (if wants_receipt q then [R_ReadReceipt] else [])
   else if is_atomic q && negb (is_store q) then [R_DBIDResp]
   else if is_cmo q then [R_Comp] else [R_CompDBIDResp]).
Proof. unfold heads. rewrite answer_alt. reflexivity. Qed.

Lemma grant_inv tk rt s t rest k : sinv tk rt s -> s_reqq s = t :: rest ->
  (k = R_DBIDResp \/ k = R_CompDBIDResp) ->
  heads (t_req t) = [(k, q_src (t_req t), q_txn (t_req t))] -> sinv tk rt (grant s t rest k).
Proof.
  intros [Hf Hr Hi Hd] Q K HQ. unfold grant. destruct (s_free s) as [|id free] eqn:Fr.
  - constructor; rewrite ?Fr; assumption.
  - destruct Hf as (st & E1 & E2 & E3).
    assert (NR : is_retry_rsp (rsp_msg (t_req t) k id) = false) by (destruct K as [-> | ->]; reflexivity).
    constructor; cbn [s_reqq s_rsp s_txn s_txq s_done s_dat s_free].
    + exists (st ++ [t_req t]). split; [rewrite E1, Q; cbn [map]; rewrite <- app_assoc; reflexivity|].
      split.
      * rewrite filter_app, map_app, E2, flat_map_app. cbn [filter]. rewrite NR.
        cbn [negb map flat_map]. rewrite HQ, app_nil_r. reflexivity.
      * rewrite !map_app. cbn [map snd]. rewrite E3.
        rewrite <- !app_assoc. apply Permutation_app_head.
        cbn [app]. rewrite app_assoc. symmetry. apply Permutation_cons_append.
    + rewrite filter_app. cbn [filter]. rewrite NR, app_nil_r. exact Hr.
    + rewrite map_app. cbn [map fst]. rewrite <- Hi.
      rewrite app_assoc. rewrite <- Permutation_cons_append. reflexivity.
    + exact Hd.
Qed.

Lemma order_inv tk rt s : sinv tk rt s -> sinv tk rt (order s).
Proof.
  intros I. unfold order. destruct (s_reqq s) as [|t rest] eqn:Q; [exact I|].
  pose proof (heads_eq (t_req t)) as HQ.
  destruct (is_read (t_req t)) eqn:R.
  - destruct I as [(st & E1 & E2 & E3) Hr Hi Hd].
    constructor; cbn [s_reqq s_rsp s_txn s_txq s_done s_dat s_free]; try assumption.
    + exists (st ++ [t_req t]). split; [rewrite E1, Q; cbn [map]; rewrite <- app_assoc; reflexivity|].
      split.
      * rewrite filter_app, map_app, E2, flat_map_app. f_equal. cbn [flat_map]. rewrite HQ, app_nil_r.
        destruct (wants_receipt (t_req t)); reflexivity.
      * rewrite map_app. cbn [map]. rewrite E3. rewrite <- !app_assoc. apply Permutation_app_head.
        apply Permutation_app_head. cbn [app]. rewrite <- Permutation_cons_append. reflexivity.
    + rewrite filter_app. destruct (wants_receipt (t_req t)); cbn [filter]; rewrite ?app_nil_r; exact Hr.
  - destruct (is_atomic (t_req t) && negb (is_store (t_req t))) eqn:A.
    + apply grant_inv; auto.
    + destruct (is_cmo (t_req t)) eqn:C.
      * destruct I as [(st & E1 & E2 & E3) Hr Hi Hd].
        assert (OD : owes_data (t_req t) = false) by (rewrite owes_data_eq, R, A; reflexivity).
        constructor; cbn [s_reqq s_rsp s_txn s_txq s_done s_dat s_free]; try assumption.
        -- exists (st ++ [t_req t]). split; [rewrite E1, Q; cbn [map]; rewrite <- app_assoc; reflexivity|].
           split.
           ++ rewrite filter_app, map_app, E2, flat_map_app. f_equal. cbn [flat_map]. rewrite HQ. reflexivity.
           ++ rewrite E3. rewrite <- !app_assoc. reflexivity.
        -- rewrite filter_app. cbn [filter is_retry_rsp rsp_msg rs_kind]. rewrite app_nil_r. exact Hr.
        -- rewrite Hd, flat_map_app. cbn [flat_map]. rewrite OD. cbn [app]. rewrite app_nil_r. reflexivity.
      * apply grant_inv; auto.
Qed.

Lemma rxdat_inv tk rt s c s' : sinv tk rt s -> rxdat s c = Ok s' -> sinv tk rt s'.
Proof.
  intros I. unfold rxdat. destruct (find_txn (c_txn c) (s_txn s)) as [t|] eqn:F.
  2: { intros H. apply Ok_inj in H. rewrite <- H. exact I. }
  destruct (copy_chunk t c) as [t'| | |] eqn:E; cbn [rbind]; try discriminate.
  pose proof (copy_chunk_req t c t' E) as Rq.
  destruct (find_split _ _ _ F) as (a & b & El & Na).
  destruct I as [(st & E1 & E2 & E3) Hr Hi Hd].
  destruct (all_received t'); intros H; apply Ok_inj in H; rewrite <- H;
    (constructor; cbn [s_reqq s_rsp s_txn s_txq s_done s_dat s_free]; try assumption).
  - exists st. split; [exact E1|]. split; [exact E2|]. rewrite E3, El, del_split by exact Na.
    rewrite !map_app. cbn [map snd]. rewrite Rq. rewrite <- !app_assoc. apply Permutation_app_head.
    cbn [app]. set (B := map t_req (map snd b)). set (X := map t_req (s_txq s)).
    rewrite (app_assoc B X (s_done s)), (app_assoc B X (t_req t :: s_done s)). apply Permutation_middle.
  - rewrite <- Hi, El, del_split by exact Na. rewrite !map_app. cbn [map fst].
    rewrite <- !app_assoc. apply Permutation_app_head. cbn [app].
    apply Permutation_middle.
  - exists st. split; [exact E1|]. split; [exact E2|]. rewrite E3, El, set_split by exact Na.
    rewrite !map_app. cbn [map snd]. rewrite Rq. reflexivity.
  - rewrite <- Hi, El, set_split by exact Na. rewrite !map_app. cbn [map fst]. reflexivity.
Qed.

Lemma exec_inv acc tk rt s s' : sinv tk rt s -> run_tx acc s = Ok s' -> sinv tk rt s'.
Proof.
  intros I. unfold run_tx. destruct (s_txq s) as [|t rest] eqn:Q.
  { intros H. apply Ok_inj in H. rewrite <- H. exact I. }
  destruct (exec acc (s_mem s) t) as [[[m log] d]| | |] eqn:E; cbn [rmap rbind]; try discriminate.
  intros H. apply Ok_inj in H. rewrite <- H. pose proof (exec_dat _ _ _ _ _ _ E) as ED.
  destruct I as [(st & E1 & E2 & E3) Hr Hi Hd].
  constructor; cbn [s_reqq s_rsp s_txn s_txq s_done s_dat s_free]; try assumption.
  - exists st. split; [exact E1|]. split; [exact E2|]. rewrite E3, Q. apply Permutation_app_head.
    cbn [map app]. rewrite app_assoc. rewrite <- Permutation_cons_append. reflexivity.
  - rewrite map_app, Hd, flat_map_app, ED. cbn [flat_map]. rewrite app_nil_r. reflexivity.
Qed.

Lemma rxreq_inv tk rt s q jd jb s' : sinv tk rt s -> rxreq s q jd jb = Ok s' ->
  sinv (tk ++ (if q_retry q && negb (s_tog s) then [] else [q]))
       (rt ++ (if q_retry q && negb (s_tog s) then [q] else [])) s' /\
  s_tog s' = (if q_retry q then negb (s_tog s) else s_tog s).
Proof.
  intros I. unfold rxreq, new_txn.
  destruct ((is_read q || is_write q) && (q_len q =? 0)); cbn [rbind]; [discriminate|].
  destruct I as [(st & E1 & E2 & E3) Hr Hi Hd].
  destruct (q_retry q && negb (s_tog s)) eqn:R; intros H; apply Ok_inj in H; rewrite <- H;
    (split; [constructor; cbn [s_reqq s_rsp s_txn s_txq s_done s_dat s_free]; rewrite ?app_nil_r; try assumption |]).
  - exists st. split; [exact E1|]. split; [|exact E3].
    rewrite filter_app. cbn [filter is_retry_rsp rsp_msg rs_kind negb]. rewrite app_nil_r. exact E2.
  - rewrite filter_app, map_app, flat_map_app, Hr. reflexivity.
  - cbn [s_tog]. destruct (q_retry q), (s_tog s); try discriminate R; reflexivity.
  - exists st. split; [rewrite map_app, E1, <- app_assoc; reflexivity|]. split; [exact E2 | exact E3].
  - cbn [s_tog]. destruct (q_retry q), (s_tog s); try discriminate R; reflexivity.
Qed.

Lemma other_tog s l s' acc : (forall q a b, l <> LReq q a b) -> sn_step acc s l = Ok s' -> s_tog s' = s_tog s.
Proof.
  intros NL H. destruct l as [q a b| |c|]; [destruct (NL q a b eq_refl) | | |]; cbn [sn_step] in H.
  - apply Ok_inj in H. rewrite <- H. unfold order, grant. destruct (s_reqq s); [reflexivity|].
    destruct (is_read _); [reflexivity|].
    destruct (is_atomic _ && _); [destruct (s_free s); reflexivity|].
    destruct (is_cmo _); [reflexivity|]. destruct (s_free s); reflexivity.
  - unfold rxdat in H. destruct (find_txn _ _) as [t|]; [|apply Ok_inj in H; rewrite <- H; reflexivity].
    destruct (copy_chunk t c) as [t'| | |]; cbn [rbind] in H; try discriminate H.
    destruct (all_received t'); apply Ok_inj in H; rewrite <- H; reflexivity.
  - unfold run_tx in H. destruct (s_txq s); [apply Ok_inj in H; rewrite <- H; reflexivity|].
    destruct (exec _ _ _) as [[[m log] d]| | |]; cbn [rmap rbind] in H; try discriminate H.
    apply Ok_inj in H. rewrite <- H. reflexivity.
Qed.

Lemma run_inv acc ls : forall s s' tk rt, sinv tk rt s -> sn_run acc s ls = Ok s' ->
  sinv (tk ++ taken (s_tog s) ls) (rt ++ retried (s_tog s) ls) s'.
Proof.
  induction ls as [|l ls IH]; intros s s' tk rt I H; cbn [sn_run] in H.
  - apply Ok_inj in H. rewrite <- H. cbn [taken retried]. rewrite !app_nil_r. exact I.
  - destruct (sn_step acc s l) as [s1| | |] eqn:E; cbn [rbind] in H; try discriminate H.
    destruct l as [q a b| |c|].
    + cbn [sn_step] in E. destruct (rxreq_inv _ _ _ _ _ _ _ I E) as [I1 T1].
      specialize (IH s1 s' _ _ I1 H). rewrite T1 in IH. cbn [taken retried].
      destruct (q_retry q), (s_tog s); cbn [andb negb] in IH; rewrite <- !app_assoc in IH; exact IH.
    + cbn [taken retried]. rewrite <- (other_tog s LOrder s1 acc) by (discriminate || exact E).
      apply IH; [|exact H]. cbn [sn_step] in E. apply Ok_inj in E. rewrite <- E. apply order_inv, I.
    + cbn [taken retried]. rewrite <- (other_tog s (LDat c) s1 acc) by (discriminate || exact E).
      apply IH; [|exact H]. apply (rxdat_inv _ _ _ _ _ I E).
    + cbn [taken retried]. rewrite <- (other_tog s LExec s1 acc) by (discriminate || exact E).
      apply IH; [|exact H]. apply (exec_inv _ _ _ _ _ I E).
Qed.
