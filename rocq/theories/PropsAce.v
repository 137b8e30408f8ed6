(** Properties C25-C28, C48 and C49: coherent ACE caches and interconnect. *)
From Verif Require Import Base TlmModel TlmSpec AceSpec AceModel AceFacts AceOrder AceCoherence AceCohStep
  AceData AceDataStep AceServed AceFifo AcePos AceRun.
Open Scope N_scope.

(** Requests covered.  Cache maintenance addresses one whole line (the model
    covers nothing else); loads and stores have any address and length. *)
Definition any_request (f : cfg) (lb : label) : Prop :=
  match lb with
  | L_Start _ o => o_kind o = O_Load \/ o_kind o = O_Store \/
                   o_addr o mod 2 ^ f_k f = 0 /\ o_len o = 2 ^ f_k f
  | _ => True
  end.
Definition plain_request (f : cfg) (lb : label) : Prop :=
  any_request f lb /\ match lb with L_Start _ o => o_excl o = false | _ => True end.
(** C26: non-secure loads, stores and CleanShared.  A store through a
    write-through cache stays within a line; a store through a write-back cache
    that covers a whole line enables all of its bytes. *)
Definition covered_request (f : cfg) (lb : label) : Prop :=
  plain_request f lb /\
  match lb with
  | L_Start m o =>
    o_sec o = false /\
    match o_kind o with
    | O_Load | O_CleanShared => True
    | O_Store =>
      if f_wt f m then o_addr o mod 2 ^ f_k f + o_len o <= 2 ^ f_k f
      else forall pos i, (o_addr o + pos) mod 2 ^ f_k f = 0 -> pos + 2 ^ f_k f <= o_len o ->
             i < 2 ^ f_k f -> be_at (o_be o) (pos + i) = true
    | _ => False
    end
  | _ => True
  end.
(** at most one write-through cache, or no write-back cache *)
Definition covered_config (f : cfg) : Prop :=
  (forall j, (j < f_nm f)%nat -> f_wt f j = true) \/
  (forall i j, f_wt f i = true -> f_wt f j = true -> i = j).

Lemma any_ok f lb : any_request f lb -> label_ok (fun _ => op_ok f) lb.
Proof.
  destruct lb; cbn; auto. unfold op_ok. intros [->|[->|[H1 H2]]]; auto.
  assert (align f (o_addr o) = o_addr o).
  { pose proof (align_off f (o_addr o)) as E. rewrite line_off_eq in E. unfold cl in E. lia. }
  destruct (o_kind o); auto.
Qed.
Lemma plain_ok' f lb : plain_request f lb -> label_ok (plain f) lb.
Proof. intros [H1 H2]. pose proof (any_ok f lb H1). destruct lb; cbn in *; auto. now split. Qed.
Lemma covered_ok f lb : covered_request f lb -> label_ok (tame f) lb.
Proof.
  intros [[H1 H2] H3]. pose proof (any_ok f lb H1) as H. destruct lb as [m o| | | | | | |]; cbn in *; auto.
  destruct H3 as [Hs Hk]. split; [exact H|]. split; [exact H2|]. split; [exact Hs|].
  split; [destruct (o_kind o); tauto|]. intro K. rewrite K in Hk. destruct (f_wt f m).
  - now rewrite line_off_eq.
  - intros pos Ha Hp. apply forallb_forall. intros a Hin. unfold op_bytes in Hin.
    apply in_map_iff in Hin as (i & <- & Hi). apply in_seq in Hi. cbn. apply Hk; auto; [|unfold cl in *; lia].
    pose proof (align_off f (o_addr o + pos)) as E. rewrite line_off_eq in E. unfold cl in E. lia.
Qed.

Ltac requests := vm_compute; repeat (apply Forall_cons || apply Forall_nil);
  repeat match goal with
  | |- _ /\ _ => split
  | |- True => exact Logic.I
  | |- _ \/ _ => first [left; reflexivity | right]
  | |- _ = _ => reflexivity
  end.

(** ** C25: single writer *)
Theorem C25_single_writer_partial f w d ls s es :
  Forall (plain_request f) ls -> exec f (init w d) ls = Some (s, es) -> single_writer (held_by f s).
Proof.
  intros HL H. destruct (init_OB f w d) as [O B]. apply coh_single_writer.
  eapply exec_coh; [|exact H|exact O|exact B|apply init_ops|apply init_todo|apply init_coh].
  eapply Forall_impl; [|exact HL]. apply plain_ok'.
Qed.

Definition w0 : world := fun _ a => a.
Definition s0 : state := init w0 (fun _ _ _ => 99).
Definition wb3 := mkCfg 2 8 3 (fun _ => false).       (* three write-back caches, lines of 4 *)
Definition wt3 := mkCfg 2 8 3 (fun _ => true).
Definition mixed := mkCfg 2 8 3 (fun m => Nat.ltb m 2). (* two write-through, one write-back *)

(** A line passed around: dirty in one cache, then shared, then dirty in another. *)
Example C25_case :
  let l1 := [Req 0 (st 0 [1; 2; 3; 4]); Req 1 (ld 1 2)] in
  let l2 := l1 ++ [Req 2 (st 2 [7])] in
  let look s := (held_by wb3 s 0 (false, 0), held_by wb3 s 1 (false, 0), held_by wb3 s 2 (false, 0)) in
  final wb3 look s0 (script wb3 s0 l1) =
    Some (Some (mkHeld true false), Some (mkHeld true true), None) /\
  final wb3 look s0 (script wb3 s0 l2) = Some (None, None, Some (mkHeld false true)).
Proof. vm_compute. split; reflexivity. Qed.

(** An exclusive store that loses at the interconnect is answered OK instead of
    EXOKAY and without snoops, but cache-ace.h:775-820 marks the line unique all
    the same: line 0 is then unique and dirty in cache 1 and valid in cache 0. *)
Definition lost_exclusive : list cmd :=
  [Req 0 (ld 0 4); Req 1 (ldx 0 4); Req 2 (ldx 4 4); Req 0 (ld 4 4);
   Req 2 (stx 4 [1; 1; 1; 1]); Do L_Unlock; Req 1 (stx 0 [7; 7; 7; 7]); Req 1 (st 0 [8; 8; 8; 8])].
Theorem C25_exclusive_refuted :
  exists ls s es, Forall (any_request wb3) ls /\ exec wb3 s0 ls = Some (s, es) /\
  held_by wb3 s 0 (false, 0) = Some (mkHeld true false) /\
  held_by wb3 s 1 (false, 0) = Some (mkHeld false true) /\ ~ single_writer (held_by wb3 s).
Proof.
  exists (script wb3 s0 lost_exclusive).
  destruct (final_exec wb3 (fun s => (held_by wb3 s 0 (false, 0), held_by wb3 s 1 (false, 0))) s0
    (script wb3 s0 lost_exclusive) (Some (mkHeld true false), Some (mkHeld false true))) as (s & es & H & E).
  { vm_compute. reflexivity. }
  exists s, es. injection E as E1 E2. split; [|split; [exact H|]].
  - requests.
  - split; [exact E1|]. split; [exact E2|].
    intro Q. destruct (Q 0%nat 1%nat (false, 0) _ _ ltac:(discriminate) E1 E2) as (_ & X & _). discriminate.
Qed.

(** ** C26: loads see the latest store *)
Theorem C26_loads_see_latest_partial f w d ls s es :
  covered_config f -> Forall (covered_request f) ls -> exec f (init w d) ls = Some (s, es) ->
  reads_latest w es /\ served (fun _ => []) es.
Proof.
  intros HW HL H. destruct (init_OB f w d) as [O B]. split.
  - eapply (exec_data f HW); [|exact H|exact O|exact B|intros m r E; cbn in E; discriminate|apply init_todo|apply init_coh|apply init_data].
    eapply Forall_impl; [|exact HL]. apply covered_ok.
  - eapply exec_served; [|exact H|exact O|exact B|apply init_fine|apply init_curs].
    eapply Forall_impl; [|exact HL]. intros lb [[H1 _] _]. now apply any_ok.
Qed.

(** All requests, exclusive ones and maintenance included: answered only after
    all their bytes, in order, have been carried out once. *)
Theorem C26_served_partial f w d ls s es :
  Forall (any_request f) ls -> exec f (init w d) ls = Some (s, es) -> served (fun _ => []) es.
Proof.
  intros HL H. destruct (init_OB f w d) as [O B].
  eapply exec_served; [|exact H|exact O|exact B|apply init_fine|apply init_curs].
  eapply Forall_impl; [|exact HL]. apply any_ok.
Qed.

Definition history f l := option_map (map brief) (events f s0 (script f s0 l)).
Example C26_case :
  history wb3 [Req 0 (ld 1 6); Req 1 (st 2 [100; 101; 102]); Req 2 (ld 0 8); Req 2 (st 2 [55]); Req 0 (ld 2 3)] =
  Some [(0%nat, Rd, 1, [1; 2; 3], false); (0%nat, Rd, 4, [4; 5; 6], false);
        (0%nat, Fin O_Load, 1, [1; 2; 3; 4; 5; 6], false);
        (1%nat, Wr, 2, [100; 101], false); (1%nat, Wr, 4, [102], false);
        (1%nat, Fin O_Store, 2, [100; 101; 102], false);
        (2%nat, Rd, 0, [0; 1; 100; 101], false); (2%nat, Rd, 4, [102; 5; 6; 7], false);
        (2%nat, Fin O_Load, 0, [0; 1; 100; 101; 102; 5; 6; 7], false);
        (2%nat, Wr, 2, [55], false); (2%nat, Fin O_Store, 2, [55], false);
        (0%nat, Rd, 2, [55; 101], false); (0%nat, Rd, 4, [102], false);
        (0%nat, Fin O_Load, 2, [55; 101; 102], false)].
Proof. vm_compute. reflexivity. Qed.

(** a history in which a load does not see the latest store *)
Lemma stale f l :
  match events f s0 (script f s0 l) with Some es => reads_latestb w0 es | None => true end = false ->
  exists s es, exec f s0 (script f s0 l) = Some (s, es) /\ ~ reads_latest w0 es.
Proof.
  destruct (events f s0 (script f s0 l)) as [es|] eqn:E; [|discriminate]. intro H.
  destruct (events_exec _ _ _ _ E) as [s Hs]. exists s, es. split; [exact Hs|].
  intro R. apply reads_latestb_ok in R. congruence.
Qed.
Ltac by_script f l := exists (script f s0 l);
  destruct (stale f l) as (s & es & H & R); [vm_compute; reflexivity|];
  exists s, es; split; [requests|]; split; [exact H|exact R].

(** The history of C25_exclusive_refuted, then a load: the store is not seen. *)
Theorem C26_exclusive_refuted :
  exists ls s es, Forall (any_request wb3) ls /\ exec wb3 s0 ls = Some (s, es) /\ ~ reads_latest w0 es.
Proof. by_script wb3 (lost_exclusive ++ [Req 0 (ld 0 4)]). Qed.
(** A write-back store of a whole line with a byte disabled takes MakeUnique, so
    the disabled byte keeps whatever was in the cache line before. *)
Theorem C26_sparse_store_refuted :
  exists ls s es, Forall (plain_request wb3) ls /\ exec wb3 s0 ls = Some (s, es) /\ ~ reads_latest w0 es.
Proof. by_script wb3 [Req 0 (mkOp O_Store 0 4 (Some [255; 0; 255; 255]) [1; 2; 3; 4] false false); Req 0 (ld 0 4)]. Qed.
(** CleanInvalid drops the initiator's own dirty line without writing it back. *)
Theorem C26_clean_invalid_refuted :
  exists ls s es, Forall (plain_request wb3) ls /\ exec wb3 s0 ls = Some (s, es) /\ ~ reads_latest w0 es.
Proof. by_script wb3 [Req 0 (st 0 [1; 2; 3; 4]); Req 0 (mkOp O_CleanInvalid 0 4 None [] false false); Req 0 (ld 0 4)]. Qed.
(** A write-through store across lines does not update the initiator's own copy
    of a later line. *)
Theorem C26_write_through_refuted :
  exists ls s es, Forall (plain_request wt3) ls /\ exec wt3 s0 ls = Some (s, es) /\ ~ reads_latest w0 es.
Proof. by_script wt3 [Req 0 (ld 0 8); Req 0 (st 1 [11; 12; 13; 14]); Req 0 (ld 0 8)]. Qed.
(** Dirty data of a secure line is written to non-secure memory. *)
Theorem C26_secure_refuted :
  exists ls s es, Forall (plain_request wb3) ls /\ exec wb3 s0 ls = Some (s, es) /\ ~ reads_latest w0 es.
Proof.
  by_script wb3 [Req 0 (mkOp O_Store 0 4 None [1; 2; 3; 4] true false);
                 Req 1 (mkOp O_CleanShared 0 4 None [] true false); Req 2 (ld 0 4)].
Qed.
(** Two write-through stores to different bytes of a line that is dirty in a
    write-back cache: the first one takes over the dirty line, the second one
    overtakes it, and then the whole old line is written over its byte. *)
Theorem C26_mixed_refuted :
  exists ls s es, Forall (plain_request mixed) ls /\ exec mixed s0 ls = Some (s, es) /\ ~ reads_latest w0 es.
Proof.
  by_script mixed [Req 2 (st 0 [1; 2; 3; 4]); Do (L_Start 0 (st 0 [10])); Do (L_Start 1 (st 1 [20]));
    Do (L_Local 0); Do (L_Local 1); Do (L_Engine 0); Do (L_Snoop 0 1); Do (L_Snoop 0 2); Do (L_SnoopDone 0);
    Go 1; Go 0; Req 2 (ld 0 4)].
Qed.

(** ** C27: overlapping transactions *)
(** a byte of the transaction the process of [m] is in *)
Definition touches (f : cfg) (s : state) (m : nat) (a : N) : Prop :=
  fst (tx_range f s m) <= a < fst (tx_range f s m) + snd (tx_range f s m).

Theorem C27_disjoint_partial f w d ls s es i j a :
  Forall (any_request f) ls -> exec f (init w d) ls = Some (s, es) -> i <> j ->
  active (s_pc s i) = true -> active (s_pc s j) = true -> touches f s i a -> touches f s j a -> False.
Proof.
  intros HL H N Ai Aj Ti Tj. destruct (init_OB f w d) as [O B].
  destruct (exec_OB f ls (init w d) s es) with (2 := H) as [O1 B1]; auto.
  { eapply Forall_impl; [|exact HL]. apply any_ok. }
  pose proof (o_disj _ _ O1 i j N Ai Aj) as D. unfold touches in *.
  assert (overlaps (tx_range f s i) (tx_range f s j) = true); [|congruence].
  apply overlaps_spec; lia.
Qed.
(** None is lost: whatever waits is blocked by a transaction in progress whose
    range overlaps, and of two waiting with the same range the earlier goes first;
    a newcomer with that range queues behind them. *)
Theorem C27_waiting_partial f w d ls s es m :
  Forall (any_request f) ls -> exec f (init w d) ls = Some (s, es) -> waits (s_pc s m) = true ->
  exists j, busy (s_pc s j) = true /\ exists a, touches f s m a /\ touches f s j a.
Proof.
  intros HL H W. destruct (init_OB f w d) as [O B].
  destruct (exec_OB f ls (init w d) s es) with (2 := H) as [O1 B1]; auto.
  { eapply Forall_impl; [|exact HL]. apply any_ok. }
  destruct (B1 m W) as (j & Hj & Ho). apply (o_on _ _ O1) in Hj. exists j. split; [exact Hj|].
  assert (Pm : 0 < snd (tx_range f s m)) by (apply tx_range_pos; [apply O1|auto]).
  assert (Pj : 0 < snd (tx_range f s j)).
  { apply tx_range_pos; [apply O1|auto]. }
  apply overlaps_spec in Ho; auto. exists (N.max (fst (tx_range f s m)) (fst (tx_range f s j))).
  unfold touches. lia.
Qed.
Theorem C27_order_partial f s lb s' es i j :
  step f s lb = Some (s', es) -> i <> j -> before (s_waiting s) i j ->
  waits (s_pc s i) = true -> waits (s_pc s j) = true -> tx_range f s i = tx_range f s j ->
  waits (s_pc s' i) = true ->
  s_pc s' j = s_pc s j /\ before (s_waiting s') i j /\ tx_range f s' i = tx_range f s' j.
Proof. apply step_fifo. Qed.
Theorem C27_newcomer_partial f s m r k w :
  InvB f s -> waits (s_pc s w) = true -> tx_range f s w = range_of f r k ->
  issue f s m r k = goto (st_lists s (s_ongoing s) (s_waiting s ++ [m])) m (Wait r k).
Proof. apply newcomer_waits. Qed.

(** Three masters after the same line: one in progress, two waiting in order. *)
Example C27_case :
  let l := [Do (L_Start 0 (ld 0 4)); Do (L_Start 1 (ld 2 1)); Do (L_Start 2 (ld 0 2));
            Do (L_Local 0); Do (L_Local 2); Do (L_Local 1)] in
  let look s := (s_ongoing s, s_waiting s, tx_range wb3 s 1, tx_range wb3 s 2) in
  final wb3 look s0 (script wb3 s0 l) = Some ([0%nat], [2%nat; 1%nat], (0, 4), (0, 4)) /\
  final wb3 (fun s => (s_ongoing s, s_waiting s)) s0 (script wb3 s0 (l ++ [Go 0])) = Some ([2%nat], [1%nat]).
Proof. vm_compute. split; reflexivity. Qed.

(** A transaction that overlaps a waiting one but none in progress overtakes it:
    master 1 has asked for line 0 before master 2 stores to byte 2 of it, but only
    the store is carried out. *)
Definition waiting (s : state) (m : nat) : bool := waits (s_pc s m).
Definition at_rest (s : state) (m : nat) : bool := match s_pc s m with Idle => true | _ => false end.
Lemma two_runs f l1 l2 (g1 g2 : state -> bool) v :
  match exec f s0 l1 with
  | Some (s1, _) =>
    match exec f s1 l2 with
    | Some (s2, e2) => if g1 s1 && g2 s2 then Some (map brief e2) else None
    | None => None
    end
  | None => None
  end = Some v ->
  exists s1 s2 e1 e2, exec f s0 l1 = Some (s1, e1) /\ g1 s1 = true /\
  exec f s1 l2 = Some (s2, e2) /\ g2 s2 = true /\ map brief e2 = v.
Proof.
  destruct (exec f s0 l1) as [[s1 e1]|]; [|discriminate].
  destruct (exec f s1 l2) as [[s2 e2]|] eqn:E; [|discriminate].
  destruct (g1 s1) eqn:G1; [|discriminate]. destruct (g2 s2) eqn:G2; [|discriminate].
  intro H. assert (map brief e2 = v) by (cbn in H; congruence). exists s1, s2, e1, e2. auto.
Qed.
Definition over1 := script wt3 s0 [Do (L_Start 0 (st 0 [10])); Do (L_Local 0); Do (L_Start 1 (ld 0 4)); Do (L_Local 1)].
Definition over2 := [L_Start 2 (st 2 [20]); L_Local 2; L_Engine 2; L_Snoop 2 0; L_Snoop 2 1; L_SnoopDone 2; L_Ds 2;
  L_Complete 2; L_Local 2].
Theorem C27_order_refuted :
  exists l1 l2 s1 s2 e1 e2, Forall (any_request wt3) (l1 ++ l2) /\
  exec wt3 s0 l1 = Some (s1, e1) /\ waiting s1 1 = true /\ at_rest s1 2 = true /\
  exec wt3 s1 l2 = Some (s2, e2) /\ waiting s2 1 = true /\ at_rest s2 2 = true /\
  map brief e2 = [(2%nat, Wr, 2, [20], false); (2%nat, Fin O_Store, 2, [20], false)].
Proof.
  exists over1, over2.
  destruct (two_runs wt3 over1 over2 (fun s => waiting s 1 && at_rest s 2) (fun s => waiting s 1 && at_rest s 2)
    [(2%nat, Wr, 2, [20], false); (2%nat, Fin O_Store, 2, [20], false)]) as (s1 & s2 & e1 & e2 & H1 & G1 & H2 & G2 & V).
  { vm_compute. reflexivity. }
  apply andb_true_iff in G1, G2. exists s1, s2, e1, e2. split; [requests|]. tauto.
Qed.

(** ** C28: exclusive accesses *)
(** Between two exclusive stores let through by the interconnect for different
    masters, the second one has registered anew. *)
Theorem C28_monitor_partial f s m s1 e1 ls s2 es j :
  grants s m -> step f s (L_Engine m) = Some (s1, e1) -> exec f s1 ls = Some (s2, es) ->
  j <> m -> grants s2 j ->
  exists la lb sa ea, ls = la ++ L_Engine j :: lb /\ exec f s1 la = Some (sa, ea) /\ arms sa j.
Proof.
  intros G H E N G2. eapply exec_pos; [exact E| |].
  - exact (grant_clears f s m s1 e1 j G H N).
  - destruct G2 as (r & _ & _ & P). exact P.
Qed.

Example C28_case :
  history wb3 [Req 0 (ldx 0 4); Req 1 (ldx 0 4); Req 0 (stx 0 [6; 7; 8; 9]); Do L_Unlock; Req 1 (stx 0 [1; 1; 1; 1])] =
  Some [(0%nat, Rd, 0, [0; 1; 2; 3], false); (0%nat, Fin O_Load, 0, [0; 1; 2; 3], true);
        (1%nat, Rd, 0, [0; 1; 2; 3], false); (1%nat, Fin O_Load, 0, [0; 1; 2; 3], true);
        (0%nat, Wr, 0, [6; 7; 8; 9], false); (0%nat, Fin O_Store, 0, [6; 7; 8; 9], true);
        (1%nat, Fin O_Store, 0, [], false)].
Proof. vm_compute. reflexivity. Qed.

Lemma unsound f l :
  match events f s0 (script f s0 l) with Some es => excl_soundb (fun _ => None) es | None => true end = false ->
  exists s es, exec f s0 (script f s0 l) = Some (s, es) /\ ~ excl_sound (fun _ => None) es.
Proof.
  destruct (events f s0 (script f s0 l)) as [es|] eqn:E; [|discriminate]. intro H.
  destruct (events_exec _ _ _ _ E) as [s Hs]. exists s, es. split; [exact Hs|].
  intro R. apply excl_soundb_ok in R. congruence.
Qed.
Ltac by_unsound f l := exists (script f s0 l);
  destruct (unsound f l) as (s & es & H & R); [vm_compute; reflexivity|];
  exists s, es; split; [requests|]; split; [exact H|exact R].

(** The monitor in the cache is keyed by the address of the access, but a snoop
    clears the address of the line. *)
Theorem C28_unaligned_refuted :
  exists ls s es, Forall (any_request wb3) ls /\ exec wb3 s0 ls = Some (s, es) /\ ~ excl_sound (fun _ => None) es.
Proof. by_unsound wb3 [Req 0 (ldx 2 2); Req 1 (st 0 [1; 2; 3; 4]); Req 0 (stx 2 [8; 9])]. Qed.
(** A line that has been evicted is not found by the snoop, so the monitor stays
    set; the store then fetches the line with ReadUnique or MakeUnique, which the
    interconnect does not check. *)
Theorem C28_evicted_refuted :
  exists ls s es, Forall (any_request wb3) ls /\ exec wb3 s0 ls = Some (s, es) /\ ~ excl_sound (fun _ => None) es.
Proof. by_unsound wb3 [Req 0 (ldx 0 4); Req 0 (ld 8 4); Req 1 (st 0 [1; 2; 3; 4]); Req 0 (stx 0 [6; 7; 8; 9])]. Qed.
(** After a lost exclusive store (see C25) another store of that master goes
    unnoticed by a third party's reservation. *)
Theorem C28_lost_refuted :
  exists ls s es, Forall (any_request wb3) ls /\ exec wb3 s0 ls = Some (s, es) /\ ~ excl_sound (fun _ => None) es.
Proof.
  by_unsound wb3 [Req 0 (ld 0 4); Req 1 (ldx 0 4); Req 2 (ldx 4 4); Req 0 (ld 4 4); Req 2 (stx 4 [1; 1; 1; 1]);
    Do L_Unlock; Req 0 (ldx 8 4); Req 0 (ldx 0 4); Req 1 (stx 0 [7; 7; 7; 7]); Req 1 (st 0 [8; 8; 8; 8]);
    Do L_Unlock; Req 0 (stx 0 [9; 9; 9; 9])].
Qed.

(** ** C48: no deadlock *)
(** As long as some request is unanswered the system itself can take a step. *)
Theorem C48_no_deadlock f w d ls s es m :
  Forall (any_request f) ls -> exec f (init w d) ls = Some (s, es) -> s_pc s m <> Idle ->
  exists lb s' es', step f s lb = Some (s', es') /\ works lb = true.
Proof.
  intros HL H Hm. destruct (init_OB f w d) as [O B].
  destruct (exec_OB f ls (init w d) s es) with (2 := H) as [O1 B1]; auto.
  { eapply Forall_impl; [|exact HL]. apply any_ok. }
  eapply live_enabled; eauto.
Qed.
Example C48_case :
  let l := [Do (L_Start 0 (ld 0 4)); Do (L_Start 1 (st 2 [1])); Do (L_Local 0); Do (L_Local 1)] in
  final wb3 (fun s => (waits (s_pc s 1), busy (s_pc s 0))) s0 (script wb3 s0 l) = Some (true, true) /\
  history wb3 (l ++ [Go 0; Go 1]) =
  Some [(0%nat, Rd, 0, [0; 1; 2; 3], false); (0%nat, Fin O_Load, 0, [0; 1; 2; 3], false);
        (1%nat, Wr, 2, [1], false); (1%nat, Fin O_Store, 2, [1], false)].
Proof. vm_compute. split; reflexivity. Qed.

(** ** C49: an undisturbed pair of exclusive accesses succeeds *)
(** Not if the load hits: the load reports EXOKAY but only a load that misses
    sets the monitor, so the store fails, and so does every retry. *)
Theorem C49_hit_refuted :
  history wb3 [Req 0 (ld 0 4); Req 0 (ldx 0 4); Req 0 (stx 0 [6; 7; 8; 9]); Req 0 (ldx 0 4); Req 0 (stx 0 [6; 7; 8; 9])] =
  Some [(0%nat, Rd, 0, [0; 1; 2; 3], false); (0%nat, Fin O_Load, 0, [0; 1; 2; 3], false);
        (0%nat, Rd, 0, [0; 1; 2; 3], false); (0%nat, Fin O_Load, 0, [0; 1; 2; 3], true);
        (0%nat, Fin O_Store, 0, [], false);
        (0%nat, Rd, 0, [0; 1; 2; 3], false); (0%nat, Fin O_Load, 0, [0; 1; 2; 3], true);
        (0%nat, Fin O_Store, 0, [], false)].
Proof. vm_compute. reflexivity. Qed.

Print Assumptions C25_single_writer_partial.
Print Assumptions C25_exclusive_refuted.
Print Assumptions C26_loads_see_latest_partial.
Print Assumptions C26_served_partial.
Print Assumptions C26_exclusive_refuted.
Print Assumptions C26_sparse_store_refuted.
Print Assumptions C26_clean_invalid_refuted.
Print Assumptions C26_write_through_refuted.
Print Assumptions C26_secure_refuted.
Print Assumptions C26_mixed_refuted.
Print Assumptions C27_disjoint_partial.
Print Assumptions C27_waiting_partial.
Print Assumptions C27_order_partial.
Print Assumptions C27_newcomer_partial.
Print Assumptions C27_order_refuted.
Print Assumptions C28_monitor_partial.
Print Assumptions C28_unaligned_refuted.
Print Assumptions C28_evicted_refuted.
Print Assumptions C28_lost_refuted.
Print Assumptions C48_no_deadlock.
Print Assumptions C49_hit_refuted.
