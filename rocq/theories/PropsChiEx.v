(** C103, C104: exclusive accesses in CHI, at the cache of a requester and at the home. *)
From Verif Require Import Base ChiExModel ChiExSpec ChiExProofs.
From Coq Require Import Lia ZifyN ZifyNat.
Open Scope N_scope.

(** C103: a line that starts at [a] and that an exclusive store writes was loaded
    exclusively before, and since then no other requester took it and no exclusive
    store started at it.  Missing: addresses within a line, and lines that are
    displaced (both refuted below). *)
Theorem C103_store_partial : forall es a b n resp,
  (forall e, In e es -> ~ displaced e) ->
  a mod 64 = 0 ->
  In a (snd (xstore (xrun xc_init es) b n resp)) ->
  exists e1 l e2, es = e1 ++ l :: e2 /\ loads l a /\
    (forall e, In e e2 -> ~ taken_by_other e a /\ ~ stores_at e a).
Proof.
  intros es a b n resp D A W. unfold xstore in W.
  pose proof (xstore_inv (pieces_of b n) (xrun xc_init es) resp []) as I.
  destruct (xstore_pieces _ _ _ _) as [[[c' r'] d'] all]. simpl in W.
  destruct I as (_ & _ & I3 & _). destruct (I3 a W) as [[]|[_ M]].
  exact (proj2 (monitor_knows es D a A M)).
Qed.
Example C103_store_case :
  snd (xstore (xrun xc_init [XLoad 64 128 false (fun _ => true); Other 0; Share 200]) 64 128 true) = [64; 128] /\
  snd (xstore (xrun xc_init [XLoad 64 128 false (fun _ => true); Other 130]) 64 128 true) = [64].
Proof. split; reflexivity. Qed.

(** C103: with a fresh payload, the store reports ExclusiveOkay exactly when every
    byte of it was written. *)
Theorem C103_report : forall c a n,
  let '(_, okay, ws) := xstore c a n false in
  okay = true <-> covers ws a n.
Proof.
  intros c a n. unfold xstore.
  pose proof (xstore_inv (pieces_of a n) c false []) as I.
  destruct (xstore_pieces _ _ _ _) as [[[c' r'] d'] all].
  destruct I as (_ & _ & _ & (ws & rest & E & -> & Al) & _ & R). simpl.
  rewrite (R eq_refl). destruct all.
  - split; [|auto]. intros _. destruct Al as [Al _]. rewrite (Al eq_refl), app_nil_r in E.
    rewrite <- E. apply pieces_cover. lia.
  - split; [discriminate|]. intros C. exfalso. apply (pieces_prefix _ _ _ _ _ E) in C; auto.
    intros ->. destruct Al as [_ Al]. discriminate (Al eq_refl).
Qed.
Example C103_report_case :
  let c := xrun xc_init [XLoad 40 60 false (fun _ => true)] in
  let '(_, okay, ws) := xstore c 40 60 false in okay = true /\ ws = [40; 64].
Proof. split; reflexivity. Qed.

(** C103: an exclusive load that misses and gets the line unique, then an exclusive
    store to it: the store is done and reported as done.  Missing: a load that hits,
    a line got shared (refuted below). *)
Theorem C103_pair_partial : forall c a n resp resp' fetch,
  0 < n -> a mod 64 + n <= 64 ->
  xc_line c (64 * (a / 64)) = Inv -> fetch (64 * (a / 64)) = true ->
  let '(_, okay, ws) := xstore (fst (xload c a n resp fetch)) a n resp' in
  okay = true /\ covers ws a n.
Proof.
  intros c a n resp resp' fetch Hn Hl V F. rewrite <- line_of_div in V, F.
  pose proof (pieces_cover (N.to_nat n) a n ltac:(lia)) as Cv. fold (pieces_of a n) in Cv.
  unfold xstore. rewrite xload_state. rewrite (pieces_one a n Hn Hl) in *.
  simpl. unfold valid. rewrite V. simpl.
  replace (mon_in a (mon_set a (xc_mon c))) with true
    by (symmetry; apply mon_in_In, In_mon_set; auto).
  simpl. unfold valid, unique. simpl. rewrite N.eqb_refl, F. simpl. split; [reflexivity|exact Cv].
Qed.
Example C103_pair_case :
  let c := fst (xload xc_init 72 8 false (fun _ => true)) in
  let '(_, okay, ws) := xstore c 72 8 false in okay = true /\ ws = [72].
Proof. split; reflexivity. Qed.

Lemma xstore_miss : forall c a n resp, 0 < n -> a mod 64 + n <= 64 ->
  valid c a = false -> In a (xc_mon c) -> snd (xstore c a n resp) = [a].
Proof.
  intros c a n resp Hn Hl V M. apply mon_in_In in M. unfold xstore.
  rewrite (pieces_one a n Hn Hl). cbn [xstore_pieces]. rewrite M, V. reflexivity.
Qed.

(** C103, refuted: the monitor keeps the address of the access, a snoop clears the
    address of the line.  With any other address in a line, the store is done though
    another requester took the line after the load. *)
Theorem C103_unaligned_refuted : forall a n fetch resp,
  0 < n -> a mod 64 + n <= 64 -> a mod 64 <> 0 ->
  snd (xstore (xrun xc_init [XLoad a n false fetch; Other a]) a n resp) = [a].
Proof.
  intros a n fetch resp Hn Hl Ha.
  assert (Q : a =? line_of a = false).
  { apply N.eqb_neq. rewrite line_of_div. pose proof (N.div_mod a 64 ltac:(lia)). lia. }
  unfold xrun. cbn [fold_left xstep]. rewrite xload_state, (pieces_one a n Hn Hl).
  cbn [xload_pieces]. change (valid xc_init a) with false. cbn [fst xc_line xc_mon].
  rewrite valid_set_line_same by (destruct (fetch (line_of a)); discriminate).
  apply xstore_miss; [exact Hn|exact Hl| |].
  - unfold valid, set_line. cbn [xc_line]. now rewrite N.eqb_refl.
  - cbn [xc_mon]. apply In_mon_reset. split; [now apply N.eqb_neq|]. apply In_mon_set. auto.
Qed.
Example C103_unaligned_case :
  snd (xstore (xrun xc_init [XLoad 8 8 false (fun _ => true); Other 0]) 8 8 false) = [8] /\
  snd (xstore (xrun xc_init [XLoad 0 8 false (fun _ => true); Other 0]) 0 8 false) = [].
Proof. split; reflexivity. Qed.

(** C103, refuted: a line that is displaced stays in the monitor and is no longer
    snooped, so the store is done after another requester wrote it, at any address. *)
Theorem C103_displaced_refuted : forall a n fetch resp,
  0 < n -> a mod 64 + n <= 64 ->
  snd (xstore (xrun xc_init [XLoad a n false fetch; Evict a; Other a]) a n resp) = [a].
Proof.
  intros a n fetch resp Hn Hl.
  unfold xrun. cbn [fold_left xstep]. rewrite xload_state, (pieces_one a n Hn Hl).
  cbn [xload_pieces]. change (valid xc_init a) with false. cbn [fst xc_line xc_mon].
  set (c := set_line _ a Inv).
  assert (V : valid c a = false)
    by (unfold c, valid, set_line; cbn [xc_line]; now rewrite N.eqb_refl).
  rewrite V. apply xstore_miss; auto. unfold c, set_line. cbn [xc_mon]. apply In_mon_set. auto.
Qed.
Example C103_displaced_case :
  snd (xstore (xrun xc_init [XLoad 0 8 false (fun _ => true); Evict 0; Other 0]) 0 8 false) = [0].
Proof. reflexivity. Qed.

(** C103, refuted: a load that hits does not open the monitor.  However often the
    pair is repeated on a line in the cache, even one held unique, the load reports
    ExclusiveOkay and the store is not done. *)
Theorem C103_hit_refuted : forall k c a n fetch,
  0 < n -> a mod 64 + n <= 64 ->
  xc_line c (64 * (a / 64)) <> Inv -> ~ In a (xc_mon c) ->
  let c' := xrun c (concat (repeat [XLoad a n false fetch; XStore a n false] k)) in
  snd (xload c' a n false fetch) = true /\
  snd (xstore (fst (xload c' a n false fetch)) a n false) = [].
Proof.
  intros k c a n fetch Hn Hl V M. rewrite <- line_of_div in V.
  assert (V' : valid c a = true) by (unfold valid; destruct (xc_line c (line_of a)); congruence).
  assert (M' : mon_in a (xc_mon c) = false)
    by (destruct (mon_in a (xc_mon c)) eqn:E; [apply mon_in_In in E; tauto|reflexivity]).
  assert (L : xload c a n false fetch = (c, true)).
  { unfold xload. rewrite (pieces_one a n Hn Hl). cbn [xload_pieces]. rewrite V'. reflexivity. }
  assert (S : xstore c a n false = (c, false, [])).
  { unfold xstore. rewrite (pieces_one a n Hn Hl). cbn [xstore_pieces]. rewrite M'. reflexivity. }
  assert (K : xrun c (concat (repeat [XLoad a n false fetch; XStore a n false] k)) = c).
  { induction k as [|k IH]; [reflexivity|]. cbn [repeat concat app]. unfold xrun in *.
    cbn [fold_left xstep]. rewrite L. cbn [fst]. rewrite S. cbn [fst]. exact IH. }
  intros c'. subst c'. rewrite K, L. cbn [fst snd]. rewrite S. auto.
Qed.
Example C103_hit_case :
  let c := xrun xc_init [XLoad 0 64 false (fun _ => true)] in
  xload c 8 8 false (fun _ => true) = (c, true) /\
  xstore c 8 8 false = (c, false, []).
Proof. split; reflexivity. Qed.

(** C103, refuted: no answer of the home reaches the payload, so with a fresh payload
    the store to a line got shared is never done, and a load that misses reports no
    ExclusiveOkay, although no other requester is there. *)
Theorem C103_shared_refuted : forall c a n fetch,
  0 < n -> a mod 64 + n <= 64 ->
  xc_line c (64 * (a / 64)) = Inv -> fetch (64 * (a / 64)) = false ->
  let '(c', okay) := xload c a n false fetch in
  okay = false /\ snd (fst (xstore c' a n false)) = false /\ snd (xstore c' a n false) = [].
Proof.
  intros c a n fetch Hn Hl V F. rewrite <- line_of_div in V, F.
  unfold xload. rewrite (pieces_one a n Hn Hl). simpl. unfold valid. rewrite V. simpl.
  split; [reflexivity|]. unfold xstore. rewrite (pieces_one a n Hn Hl). simpl.
  replace (mon_in a (mon_set a (xc_mon c))) with true
    by (symmetry; apply mon_in_In, In_mon_set; auto).
  simpl. unfold valid, unique. simpl. rewrite N.eqb_refl, F. simpl. auto.
Qed.
Example C103_shared_case :
  let '(c, okay) := xload xc_init 8 8 false (fun _ => false) in
  okay = false /\ snd (xstore c 8 8 false) = [].
Proof. split; reflexivity. Qed.

(** C103, refuted: a payload that still says ExclusiveOkay from an earlier access is
    reported as done though nothing is written. *)
Theorem C103_reused_refuted : forall c a n,
  0 < n -> a mod 64 + n <= 64 -> ~ In a (xc_mon c) ->
  xstore c a n true = (c, true, []).
Proof.
  intros c a n Hn Hl M. unfold xstore. rewrite (pieces_one a n Hn Hl). cbn [xstore_pieces].
  destruct (mon_in a (xc_mon c)) eqn:E; [apply mon_in_In in E; tauto|reflexivity].
Qed.
Example C103_reused_case : xstore xc_init 8 8 true = (xc_init, true, []).
Proof. reflexivity. Qed.

(** C104: the home lets an exclusive CleanUnique pass exactly when the same LPID made
    an exclusive access before and no exclusive store of another LPID passed since;
    requests are ordered by arrival. *)
Theorem C104_monitor_partial : forall rs k r o,
  nth_error (route_all [] rs) k = Some (r, o) ->
  exclusive r -> h_op r = 11 ->
  (ro_okay o = true <-> may_pass (route_all [] rs) k r).
Proof.
  intros rs k r o E X Op. destruct (route_all_firstn rs [] k r o E) as [Ho Hf].
  rewrite may_pass_owned, <- Hf, <- hstate_owned, <- mon_in_In.
  apply atomic_spec in X. rewrite Ho. unfold route. rewrite X. unfold handle_excl.
  rewrite Op. change (11 =? OP_CleanUnique) with true. simpl. tauto.
Qed.
Example C104_monitor_case :
  map (fun x => ro_okay (snd x))
    (route_all [] [mkHreq 1 4 0 0 true true; mkHreq 1 5 0 0 true true; mkHreq 11 4 0 0 true true;
                   mkHreq 11 5 0 0 true true; mkHreq 11 4 0 0 true true]) =
  [false; false; true; false; true].
Proof. reflexivity. Qed.

(** C104: nothing but an exclusive CleanUnique gets ExclusiveOkay, and a request that
    is not exclusive snoops the other caches as its opcode and SnpAttr say. *)
Theorem C104_others : forall rs k r o,
  nth_error (route_all [] rs) k = Some (r, o) ->
  (ro_okay o = true -> exclusive r /\ h_op r = 11) /\
  (h_excl r = false -> (ro_poc o = true <-> h_snp r = true /\
     In (h_op r) [1; 2; 3; 7; 8; 9; 10; 11; 12; 20; 24; 25; 32; 33; 34; 35; 36; 37; 38; 39; 40; 48; 56; 57])).
Proof.
  intros rs k r o E. destruct (route_all_firstn rs [] k r o E) as [-> _].
  unfold route. split.
  - destruct (negb (h_atomic r) && h_excl r) eqn:X; [|discriminate].
    apply atomic_spec in X. unfold handle_excl. simpl.
    rewrite andb_true_iff. intros [H _]. apply N.eqb_eq in H. auto.
  - intros X. rewrite X, andb_false_r. simpl. rewrite andb_true_iff. unfold h_snooping.
    change (existsb (N.eqb (h_op r)) ?l) with (mon_in (h_op r) l). rewrite mon_in_In. simpl.
    intuition congruence.
Qed.
Example C104_others_case :
  route_all [] [mkHreq 7 4 0 0 false true; mkHreq 4 4 0 0 true true] =
  [(mkHreq 7 4 0 0 false true, mkRouted true false); (mkHreq 4 4 0 0 true true, mkRouted false false)].
Proof. reflexivity. Qed.

(** C104, refuted: every exclusive load is sent past the point of coherency: no cache
    is snooped, so a dirty copy is missed, and it gets no ExclusiveOkay.  Without Excl
    the same load would snoop. *)
Theorem C104_load_refuted : forall l op lpid a src,
  In op [1; 2; 38] ->
  snd (route l (mkHreq op lpid a src true true)) = mkRouted false false /\
  snd (route l (mkHreq op lpid a src false true)) = mkRouted true false.
Proof. intros l op lpid a src [<-|[<-|[<-|[]]]]; split; reflexivity. Qed.
Example C104_load_case : snd (route [4] (mkHreq 1 4 64 0 true true)) = mkRouted false false.
Proof. reflexivity. Qed.

(** C104: an exclusive store of an LPID that is not in the monitor takes no copy from
    any other cache and gets no ExclusiveOkay. *)
Theorem C104_failed : forall l lpid a src, ~ In lpid l ->
  snd (route l (mkHreq 11 lpid a src true true)) = mkRouted false false.
Proof.
  intros l lpid a src H. unfold route, handle_excl. simpl.
  destruct (mon_in lpid l) eqn:E; [apply mon_in_In in E; tauto|]. reflexivity.
Qed.
Example C104_failed_case : snd (route [] (mkHreq 11 3 64 0 true true)) = mkRouted false false.
Proof. reflexivity. Qed.

(** C104, refuted: the address is not looked at.  A load of one address lets a store
    to any other pass. *)
Theorem C104_address_refuted : forall lpid a b src,
  map (fun x => ro_okay (snd x))
    (route_all [] [mkHreq 1 lpid a src true true; mkHreq 11 lpid b src true true]) = [false; true].
Proof.
  intros. simpl. unfold route, handle_excl, mon_in. simpl. rewrite N.eqb_refl. reflexivity.
Qed.
Example C104_address_case :
  map (fun x => ro_okay (snd x))
    (route_all [] [mkHreq 1 0 0 1 true true; mkHreq 11 0 4096 1 true true]) = [false; true].
Proof. reflexivity. Qed.

(** C104, refuted: nor is the requester.  Two requesters with the same LPID, which is 0
    for one with a single processor, load a line, and the stores of both pass. *)
Theorem C104_requester_refuted : forall lpid a s1 s2,
  map (fun x => ro_okay (snd x))
    (route_all [] [mkHreq 1 lpid a s1 true true; mkHreq 1 lpid a s2 true true;
                   mkHreq 11 lpid a s1 true true; mkHreq 11 lpid a s2 true true]) =
  [false; false; true; true].
Proof.
  intros. simpl. unfold route, handle_excl, mon_in. simpl. rewrite N.eqb_refl. simpl.
  rewrite N.eqb_refl. reflexivity.
Qed.
Example C104_requester_case :
  map (fun x => ro_okay (snd x))
    (route_all [] [mkHreq 1 0 64 1 true true; mkHreq 1 0 64 2 true true;
                   mkHreq 11 0 64 1 true true; mkHreq 11 0 64 2 true true]) = [false; false; true; true].
Proof. reflexivity. Qed.

(** C104, refuted: a store by anything else than an exclusive CleanUnique of another
    requester between the pair does not close the monitor. *)
Theorem C104_plain_store_refuted : forall lpid lp2 op a s1 s2,
  map (fun x => ro_okay (snd x))
    (route_all [] [mkHreq 1 lpid a s1 true true; mkHreq op lp2 a s2 false true;
                   mkHreq 11 lpid a s1 true true]) = [false; false; true].
Proof.
  intros. cbn [route_all]. unfold route. cbn [h_excl]. rewrite andb_false_r. simpl.
  unfold mon_in. simpl. rewrite N.eqb_refl. reflexivity.
Qed.
Example C104_plain_store_case :
  map (fun x => ro_okay (snd x))
    (route_all [] [mkHreq 1 0 64 1 true true; mkHreq 25 1 64 2 false true;
                   mkHreq 11 0 64 1 true true]) = [false; false; true].
Proof. reflexivity. Qed.

Print Assumptions C103_store_partial.
Print Assumptions C103_report.
Print Assumptions C103_pair_partial.
Print Assumptions C103_unaligned_refuted.
Print Assumptions C103_displaced_refuted.
Print Assumptions C103_hit_refuted.
Print Assumptions C103_shared_refuted.
Print Assumptions C103_reused_refuted.
Print Assumptions C104_monitor_partial.
Print Assumptions C104_others.
Print Assumptions C104_load_refuted.
Print Assumptions C104_failed.
Print Assumptions C104_address_refuted.
Print Assumptions C104_requester_refuted.
Print Assumptions C104_plain_store_refuted.
