(** C70-C73: CHI caches and home node. *)
From Verif Require Import Base BaseFacts TlmModel TlmSpec AceSpec CachelineModel ChiModel ChiRun ChiFacts ChiCoh ChiCohStep ChiCohHome ChiServed ChiSeq ChiSpec ChiSnp.
Open Scope N_scope.

(** ** C70: answers to snoops *)
(** A cache answers every snoop (no assertion of the line class fails), keeps
    the line's address, bytes and enables, leaves it in a state the snoop asks
    for, keeps dirty data or hands it on, and never claims to pass dirty data it
    does not have.  Exceptions: see the refuted cases. *)
Theorem C70_total q rts l : line_ok l -> exists l' p, handle_snp q rts l = Ok (l', p).
Proof. apply snp_total. Qed.
Theorem C70_content q rts l l' p :
  handle_snp q rts l = Ok (l', p) -> l_tag l' = l_tag l /\ l_data l' = l_data l /\ l_be l' = l_be l.
Proof. apply snp_content. Qed.
Theorem C70_state q rts l l' p : line_ok l -> handle_snp q rts l = Ok (l', p) ->
  allowed_after (purpose_of q) (view_of l) (view_of l') /\
  dirty_kept (purpose_of q) (view_of l) (view_of l') (answer_of p) /\
  pd_only_dirty (view_of l) (answer_of p) /\
  fwd_compatible (view_of l') (answer_of p).
Proof. intros H E. pose proof (snp_answer q rts l l' p H E) as X. cbv zeta in X. tauto. Qed.
(** Data: a partial line is answered with SnpRespDataPtl and nothing else is;
    whole-line data is sent only of a whole line. *)
Theorem C70_data q rts l l' p : line_ok l -> l_valid l = true -> handle_snp q rts l = Ok (l', p) ->
  (a_data (answer_of p) = Some false <-> grade_of l = Partial /\ purpose_of q <> P_Drop) /\
  (a_data (answer_of p) = Some true \/ a_fwd (answer_of p) <> None -> grade_of l = Full).
Proof. intros H V E. pose proof (snp_answer q rts l l' p H E) as X. cbv zeta in X. tauto. Qed.
(** The state bits of Resp are the state of the line afterwards and a cache that
    passes dirty data is clean afterwards; except SnpClean, SnpShared and
    SnpNotSharedDirty of a Unique Dirty line. *)
Theorem C70_told_partial q rts l l' p : line_ok l -> handle_snp q rts l = Ok (l', p) ->
  ~ (l_shared l = false /\ l_dirty l = true /\ (q = SnpClean \/ q = SnpShared \/ q = SnpNSD)) ->
  state_told (view_of l') (answer_of p) /\ dirty_once (view_of l') (answer_of p).
Proof. intros H E. pose proof (snp_answer q rts l l' p H E) as X. cbv zeta in X. tauto. Qed.
(** FwdState repeats the Resp field of the forwarded data; except SnpUniqueFwd
    of a dirty line. *)
Theorem C70_fwdstate_partial q rts l l' p : line_ok l -> handle_snp q rts l = Ok (l', p) ->
  ~ (l_dirty l = true /\ q = SnpUniqueFwd) -> fwd_told (answer_of p).
Proof. intros H E. pose proof (snp_answer q rts l l' p H E) as X. cbv zeta in X. tauto. Qed.

Definition ud : line := mkLine true 64 false true (fun k => k) (fun _ => true).
Definition udp : line := mkLine true 64 false true (fun k => k) (fun k => k <? 8).
Lemma ud_ok : line_ok ud. Proof. vm_compute. exact Logic.I. Qed.
(** Unique Dirty, SnpShared: the answer says Shared Clean and passes the dirty
    data, the line stays dirty. *)
Theorem C70_told_refuted : exists l q l' p, line_ok l /\ handle_snp q true l = Ok (l', p) /\
  ~ state_told (view_of l') (answer_of p) /\ ~ dirty_once (view_of l') (answer_of p).
Proof.
  exists ud, SnpShared. eexists _, _. split; [exact ud_ok|]. split; [reflexivity|]. split; intro H.
  - vm_compute in H. discriminate H.
  - specialize (H eq_refl). vm_compute in H. discriminate H.
Qed.
(** Unique Dirty, SnpUniqueFwd: the requester gets UD_PD, FwdState says I_PD. *)
Theorem C70_fwdstate_refuted : exists l l' p, line_ok l /\ handle_snp SnpUniqueFwd true l = Ok (l', p) /\ ~ fwd_told (answer_of p).
Proof.
  exists ud. eexists _, _. split; [exact ud_ok|]. split; [reflexivity|]. intro H. specialize (H _ _ eq_refl). discriminate H.
Qed.
Example C70_case :
  (map (fun q => match handle_snp q true ud with Ok (l', p) => Some (view_of l', answer_of p) | _ => None end)
     [SnpOnce; SnpCleanShared; SnpUnique; SnpMakeInvalid; SnpSharedFwd],
   match handle_snp SnpUnique true udp with Ok (l', p) => Some (view_of l', answer_of p) | _ => None end) =
  ([Some (Some (mkSeen false true), mkAns 2 (Some true) None);
    Some (Some (mkSeen false false), mkAns 6 (Some true) None);
    Some (None, mkAns 4 (Some true) None);
    Some (None, mkAns 0 None None);
    Some (Some (mkSeen true false), mkAns 5 (Some true) (Some (1, 1)))],
   Some (None, mkAns 4 (Some false) None)).
Proof. vm_compute. reflexivity. Qed.

(** ** C71: loads return the latest value stored *)
(** All executions, any interleaving of any number of caches, in which
    - a store covering a whole line enables all its bytes, and with randomised
      requests stores are as in [op_ok];
    - a CleanUnique is taken up while its cache still has the line;
    - no line is snooped between the end of CleanUnique/MakeUnique and the store;
    - no dirty line is asked to be forwarded, except by ReadOnce and ReadUnique;
    - direct cache transfer and randomised requests are used over flit bridges only. *)
Theorem C71_coherent_partial f m d ls s' tr :
  cfg_ok f -> all_allowed f (init m d) ls -> exec f (init m d) ls = Ok (s', tr) ->
  reads_latest (fun _ => m) tr.
Proof.
  intros Hc Ha E. pose proof (exec_good f ls (init m d) m (fun _ => m) Hc (inv_init f m d) eq_refl Ha) as X.
  rewrite E in X. apply X.
Qed.
(** Without direct cache transfer, all histories in which requests do not overlap. *)
Lemma init_single m d : single (init m d).
Proof. intros i j H. now contradiction H. Qed.
Lemma init_cu f m d : cu_here f (init m d).
Proof. intros i r q n H. discriminate H. Qed.
Theorem C71_sequential_partial f m d ls s' tr :
  cfg_ok f -> f_dct f = false -> one_by_one f (init m d) ls -> exec f (init m d) ls = Ok (s', tr) ->
  reads_latest (fun _ => m) tr.
Proof.
  intros Hc Hd Ho E. eapply C71_coherent_partial; eauto.
  eapply one_all; eauto using inv_init, init_single, init_cu. rewrite E. discriminate.
Qed.

Definition m0 : mem := fun a => a mod 256.
Definition s0 := init m0 (fun _ _ _ => 0).
Definition none : N -> bool := fun _ => false.
Definition fd := mkCfg 3 4096 true false false.   (* as constructed: DCT, direct *)
Definition fn := mkCfg 3 4096 false false false.  (* without DCT *)
Definition ff := mkCfg 3 4096 true false true.    (* DCT over flit bridges *)
Definition fr := mkCfg 3 4096 false true true.    (* random requests over flit bridges *)
Definition frd := mkCfg 3 4096 true true true.
(** Three caches: stores, loads across lines, an eviction. *)
Definition hist := [Req 0 (st 10 [1;2;3]) c0; Req 1 (ld 9 5) c0; Req 1 (st 11 [7]) c0; Req 0 (ld 9 5) c0;
  Req 2 (st 60 [1;2;3;4;5;6]) c0; Req 1 (ld 58 12) c0; Req 1 (ld 4106 2) c0; Req 0 (ld 9 5) c0].
Example C71_case :
  rmap (fun e => (filter (fun x => match x with (_, Fin O_Load, _, _) => true | _ => false end) (map brief e), reads_latestb (fun _ => m0) e))
    (events fn s0 (script fn none s0 hist)) =
  Ok ([(1%nat, Fin O_Load, 9, [9; 1; 2; 3; 13]); (0%nat, Fin O_Load, 9, [9; 1; 7; 3; 13]);
       (1%nat, Fin O_Load, 58, [58; 59; 1; 2; 3; 4; 5; 6; 66; 67; 68; 69]); (1%nat, Fin O_Load, 4106, [10; 11]);
       (0%nat, Fin O_Load, 9, [9; 1; 7; 3; 13])], true).
Proof. vm_compute. reflexivity. Qed.

(** A history that breaks the promise. *)
Definition stale (f : cfg) (l : list cmd) : Prop :=
  exists s' tr, exec f s0 (script f none s0 l) = Ok (s', tr) /\ ~ reads_latest (fun _ => m0) tr.
Lemma stale_by f l :
  match events f s0 (script f none s0 l) with Ok es => reads_latestb (fun _ => m0) es = false | _ => False end -> stale f l.
Proof.
  destruct (events f s0 (script f none s0 l)) as [es| | |] eqn:E; [|intros []|intros []|intros []].
  intro H. destruct (events_exec _ _ _ _ E) as (s' & X). exists s', es. split; [exact X|].
  intro R. apply reads_latestb_ok in R. congruence.
Qed.
(** As constructed (direct cache transfer on): a store after another cache's
    store to the line; the forwarded data has uninitialised byte enables. *)
Theorem C71_default_refuted : stale fd [Req 0 (st 10 [1;2;3]) c0; Req 1 (st 9 [5]) c0; Req 1 (ld 9 5) c0].
Proof. apply stale_by. vm_compute. reflexivity. Qed.
(** Direct cache transfer of a dirty line for a load: the dirty data sent to the
    home is dropped; lost once both copies are evicted. *)
Theorem C71_forward_refuted :
  stale ff [Req 0 (st 10 [1;2;3]) c0; Req 1 (ld 10 3) c0; Req 0 (ld 4106 1) c0; Req 1 (ld 4106 1) c0; Req 2 (ld 10 3) c0].
Proof. apply stale_by. vm_compute. reflexivity. Qed.
(** The same with ReadOnceCleanInvalid: nobody keeps the dirty data. *)
Theorem C71_read_once_refuted : stale frd [Req 0 (st 10 [1;2;3]) c0; Req 1 (ld 10 3) (cr 3); Req 1 (ld 10 3) c0].
Proof. apply stale_by. vm_compute. reflexivity. Qed.
(** A 64-byte store with disabled bytes uses MakeUnique: dirty bytes elsewhere
    are dropped although the store does not replace them. *)
Theorem C71_sparse_store_refuted :
  stale fn [Req 0 (st 10 [1;2;3]) c0; Req 1 (stb 0 (repeat 9 64) (0 :: repeat 255 8 ++ repeat 0 55)) c0; Req 1 (ld 8 6) c0].
Proof. apply stale_by. vm_compute. reflexivity. Qed.
(** The partial line such a store leaves is not taken into account by ReadOnce. *)
Theorem C71_partial_line_refuted :
  stale fr [Req 1 (stb 0 (repeat 9 64) (repeat 255 8 ++ repeat 0 56)) c0; Req 0 (ld 0 10) (cr 2)].
Proof. apply stale_by. vm_compute. reflexivity. Qed.
(** Two caches upgrade the same line: the second upgrade brings its old copy back. *)
Theorem C71_upgrade_race_refuted :
  stale fn [Req 0 (ld 10 2) c0; Req 1 (ld 10 2) c0; Do (L_Start 0 (st 10 [71])); Do (L_Start 1 (st 11 [81]));
    Do (L_Thread 0 c0); Do (L_Thread 1 c0); Go 0 c0; Go 1 c0; Req 1 (ld 10 2) c0].
Proof. apply stale_by. vm_compute. reflexivity. Qed.
(** A load between the end of MakeUnique and the store it was for. *)
Theorem C71_window_refuted :
  stale fn [Req 2 (st 0 [5]) c0; Do (L_Start 0 (st 0 (repeat 9 64))); Do (L_Thread 0 c0); Do (L_Home 0);
    Do (L_Snoop 2 none); Do L_Finish; Req 1 (ld 0 1) c0].
Proof. apply stale_by. vm_compute. reflexivity. Qed.

(** ** C72: copies *)
(** Two caches have a line only if both have it marked shared, and then with the
    same bytes. *)
Theorem C72_shared_partial f m d ls s' tr i j x hi hj :
  cfg_ok f -> all_allowed f (init m d) ls -> exec f (init m d) ls = Ok (s', tr) ->
  i <> j -> held_by f s' i x = Some hi -> held_by f s' j x = Some hj ->
  h_shared hi = true /\ h_shared hj = true /\
  forall k, k < 64 -> l_data (slot f s' i x) k = l_data (slot f s' j x) k.
Proof.
  intros Hc Ha E Hn Hi Hj.
  pose proof (exec_good f ls (init m d) m (fun _ => m) Hc (inv_init f m d) eq_refl Ha) as X.
  rewrite E in X. destruct X as [_ [G I]].
  assert (Hh : forall i h, held_by f s' i x = Some h -> hd f (s_c s') i (align x) /\ h_shared h = l_shared (slot f s' i x)).
  { intros i0 h H. unfold held_by in H. destruct (in_cache _ _) eqn:C; [|discriminate H]. injection H as <-.
    split; [|reflexivity]. apply in_cache_spec in C. unfold slot in C. unfold hd, Ln. exact C. }
  destruct (Hh _ _ Hi) as [Di Ei]. destruct (Hh _ _ Hj) as [Dj Ej].
  pose proof (iv_line _ _ _ I (align x) (align_align x)) as L.
  pose proof (li_uniq _ _ _ _ _ _ _ _ L i j Hn Di Dj) as Si.
  pose proof (li_uniq _ _ _ _ _ _ _ _ L j i (not_eq_sym Hn) Dj Di) as Sj.
  unfold Ln in Si, Sj. fold (slot f s' i x) in Si. fold (slot f s' j x) in Sj.
  split; [congruence|]. split; [congruence|].
  assert (Hs : forall i0, hd f (s_c s') i0 (align x) -> l_shared (slot f s' i0 x) = true ->
    forall k, k < 64 -> l_data (slot f s' i0 x) k = G (align x + k)).
  { intros i0 D S k Hk. destruct (li_copy _ _ _ _ _ _ _ _ L i0 D) as [[_ Y]|(r & Y & Al & _)].
    - now apply Y.
    - exfalso. pose proof (iv_thr _ _ _ I i0) as T. rewrite Y in T. destruct T as [_ T]. destruct (T eq_refl) as (_ & _ & Q).
      cbv zeta in Q. rewrite Al in Q. destruct Q as (_ & _ & Q). unfold slot in S. congruence. }
  intros k Hk. now rewrite (Hs i Di Si), (Hs j Dj Sj) by exact Hk.
Qed.
(** When the home is idle, every byte of a line that no cache has dirty is in
    memory, unless a cache is about to store to it. *)
Theorem C72_memory_partial f m d ls s' tr i x h :
  cfg_ok f -> all_allowed f (init m d) ls -> exec f (init m d) ls = Ok (s', tr) ->
  s_h s' = None -> (forall j, ~ hot_on s' j (align x)) ->
  (forall j hj, held_by f s' j x = Some hj -> h_dirty hj = false) ->
  held_by f s' i x = Some h -> forall k, k < 64 -> s_mem s' (align x + k) = l_data (slot f s' i x) k.
Proof.
  intros Hc Ha E Hh Hhot Hd Hi k Hk.
  pose proof (exec_good f ls (init m d) m (fun _ => m) Hc (inv_init f m d) eq_refl Ha) as X.
  rewrite E in X. destruct X as [_ [G I]].
  pose proof (iv_line _ _ _ I (align x) (align_align x)) as L.
  assert (D : hd f (s_c s') i (align x)).
  { unfold held_by in Hi. destruct (in_cache _ _) eqn:C; [|discriminate Hi]. apply in_cache_spec in C. exact C. }
  destruct (li_copy _ _ _ _ _ _ _ _ L i D) as [[_ Y]|(r & Y & Al & _)]; [|exfalso; apply (Hhot i); now exists r].
  destruct (li_mem _ _ _ _ _ _ _ _ L) as [M|[(j & Dj & Z)|[(j & r & Z & Al)|(w & Z & _)]]].
  - rewrite M by exact Hk. symmetry. now apply Y.
  - exfalso. assert (Hj : held_by f s' j x = Some (mkHeld (l_shared (slot f s' j x)) (l_dirty (slot f s' j x)))).
    { unfold held_by. replace (in_cache (slot f s' j x) x) with true; [reflexivity|]. symmetry. apply in_cache_spec. exact Dj. }
    apply Hd in Hj. cbn in Hj. unfold slot in Hj. unfold Ln in Z. congruence.
  - exfalso. apply (Hhot j). now exists r.
  - congruence.
Qed.
Example C72_case :
  final fn (fun s => (held_by fn s 0 9, held_by fn s 1 9, held_by fn s 2 9, l_data (slot fn s 0 9) 11))
    s0 (script fn none s0 [Req 0 (st 10 [1;2;3]) c0; Req 1 (ld 9 5) c0; Req 2 (ld 9 5) c0; Req 1 (st 11 [7]) c0; Req 0 (ld 9 5) c0]) =
  Ok (Some (mkHeld true true), Some (mkHeld true true), None, 7).
Proof. vm_compute. reflexivity. Qed.
(** At most one cache has a line dirty: a store, then a load by another cache. *)
Theorem C72_one_owner_refuted : exists s' tr,
  exec fn s0 (script fn none s0 [Req 0 (st 10 [1;2;3]) c0; Req 1 (ld 10 3) c0]) = Ok (s', tr) /\
  ~ single_writer (fun i x => held_by fn s' i (snd x)).
Proof.
  destruct (final_exec fn (fun s => (held_by fn s 0 10, held_by fn s 1 10)) s0
    (script fn none s0 [Req 0 (st 10 [1;2;3]) c0; Req 1 (ld 10 3) c0]) (Some (mkHeld true true), Some (mkHeld true true)))
    as (s' & es & E & V); [vm_compute; reflexivity|].
  exists s', es. split; [exact E|]. intro H. injection V as V0 V1.
  destruct (H 0%nat 1%nat (false, 10) _ _ ltac:(discriminate) V0 V1) as (_ & _ & X). specialize (X eq_refl). discriminate X.
Qed.

(** ** C73: every request is carried out completely *)
(** No assertion fails, a request is answered with exactly the pieces carried out
    for it, these cover it in order, and while a request is under way some step
    is possible. *)
Theorem C73_served_partial f m d ls :
  cfg_ok f -> all_allowed f (init m d) ls ->
  match exec f (init m d) ls with
  | Ok (s', tr) => served (fun _ => []) tr
  | AssertFail | UB => False
  | Unmodelled => True
  end.
Proof.
  intros Hc Ha. pose proof (exec_good f ls (init m d) m (fun _ => m) Hc (inv_init f m d) eq_refl Ha) as X.
  destruct (exec f (init m d) ls) as [[s' tr]| | |] eqn:E; auto.
  assert (S : SInv (init m d)) by (intros i r H; discriminate H).
  pose proof (exec_served f ls (init m d) m Hc (inv_init f m d) S Ha s' tr E) as Y. exact Y.
Qed.
Theorem C73_sequential_partial f m d ls :
  cfg_ok f -> f_dct f = false -> one_by_one f (init m d) ls ->
  match exec f (init m d) ls with
  | Ok (s', tr) => served (fun _ => []) tr
  | AssertFail | UB => False
  | Unmodelled => True
  end.
Proof.
  intros Hc Hd Ho.
  assert (Ha : exec f (init m d) ls <> Unmodelled -> all_allowed f (init m d) ls)
    by (intro E; eapply one_all; eauto using inv_init, init_single, init_cu).
  pose proof (C73_served_partial f m d ls Hc) as X.
  destruct (exec f (init m d) ls) as [[s' tr]| | |]; auto; apply X, Ha; discriminate.
Qed.
Theorem C73_no_deadlock_partial f m d ls s' tr i :
  cfg_ok f -> all_allowed f (init m d) ls -> exec f (init m d) ls = Ok (s', tr) -> s_t s' i <> Idle ->
  exists lb s'' es, step f s' lb = Ok (s'', es).
Proof.
  intros Hc Ha E Hi. pose proof (exec_good f ls (init m d) m (fun _ => m) Hc (inv_init f m d) eq_refl Ha) as X.
  rewrite E in X. destruct X as [_ [G I]]. eapply step_possible; eauto.
Qed.
Example C73_case :
  rmap (fun e => (map brief e, all_lengths e)) (events fr s0 (script fr none s0
    [Req 0 (st 10 [1;2;3]) c0; Req 1 (st 12 [9; 8]) cw; Req 2 (ld 62 4) (cr 2)])) =
  Ok ([(0%nat, Wr, 10, [1;2;3]); (0%nat, Fin O_Store, 10, [1;2;3]); (1%nat, Wr, 12, [9;8]); (1%nat, Fin O_Store, 12, [9;8]);
       (2%nat, Rd, 62, [62;63]); (2%nat, Rd, 64, [64;65]); (2%nat, Fin O_Load, 62, [62;63;64;65])], true).
Proof. vm_compute. reflexivity. Qed.
(** With randomised requests a store across a line that starts in the middle of
    one loses its second part. *)
Theorem C73_write_unique_refuted : exists s' tr,
  exec fr s0 (script fr none s0 [Req 1 (st 60 (repeat 9 8)) cw]) = Ok (s', tr) /\ ~ served (fun _ => []) tr.
Proof.
  destruct (events fr s0 (script fr none s0 [Req 1 (st 60 (repeat 9 8)) cw])) as [es| | |] eqn:E;
    try (vm_compute in E; discriminate E).
  destruct (events_exec _ _ _ _ E) as (s' & X). exists s', es. split; [exact X|]. intro H.
  apply all_lengths_ok in H. assert (all_lengths es = false); [|congruence].
  vm_compute in E. injection E as <-. vm_compute. reflexivity.
Qed.
(** Randomised requests without flit bridges: a ReadOnce served by the slave node
    stops the simulation. *)
Theorem C73_read_once_refuted :
  exec (mkCfg 3 4096 false true false) s0 (script (mkCfg 3 4096 false true false) none s0 [Req 1 (ld 10 3) (cr 2)]) = AssertFail.
Proof. vm_compute. reflexivity. Qed.

Print Assumptions C70_total.
Print Assumptions C70_content.
Print Assumptions C70_state.
Print Assumptions C70_data.
Print Assumptions C70_told_partial.
Print Assumptions C70_fwdstate_partial.
Print Assumptions C70_told_refuted.
Print Assumptions C70_fwdstate_refuted.
Print Assumptions C71_coherent_partial.
Print Assumptions C71_sequential_partial.
Print Assumptions C71_default_refuted.
Print Assumptions C71_forward_refuted.
Print Assumptions C71_read_once_refuted.
Print Assumptions C71_sparse_store_refuted.
Print Assumptions C71_partial_line_refuted.
Print Assumptions C71_upgrade_race_refuted.
Print Assumptions C71_window_refuted.
Print Assumptions C72_shared_partial.
Print Assumptions C72_memory_partial.
Print Assumptions C72_one_owner_refuted.
Print Assumptions C73_served_partial.
Print Assumptions C73_sequential_partial.
Print Assumptions C73_no_deadlock_partial.
Print Assumptions C73_write_unique_refuted.
Print Assumptions C73_read_once_refuted.
