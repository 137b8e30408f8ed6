(** Properties C16, C42, C43: the memory-mapped interconnect. *)
From Verif Require Import Base BaseFacts TlmModel TlmSpec.
From Verif Require Import IconnectModel IconnectSpec IconnectProofs.
Open Scope N_scope.

(** C16: for any map of at most N_TARGETS regions, whatever the uninitialised
    rest of the table holds, an access goes to the first region containing its
    address, with the target's own address; data, byte enables and answer pass
    unchanged. *)
Theorem C16_routed_partial {S} nt garbage rs mp ofs (ts : nat -> target S) s g i r :
  Forall region_ok rs -> (length rs <= nt)%nat ->
  map_all nt (ic_init nt garbage) (calls rs) = Ok mp ->
  let a := (g_addr g + ofs) mod u64 in
  first_region rs a i r -> (target_of r i < nt)%nat ->
  ic_transport nt mp ofs ts s g =
    Ok (ts (target_of r i) s
          (mkGp (g_cmd g) (local r a) (g_data g) (g_be g) (g_sw g) (g_status g)), a).
Proof.
  intros Hok Hl Hm a Hf Ht. rewrite init_map in Hm by assumption. injection Hm as <-.
  unfold ic_transport. fold a. rewrite (map_address_first rs a 0 i r _ Hok Hf). cbn [Nat.add].
  destruct (Nat.ltb_spec (target_of r i) nt); [reflexivity|lia].
Qed.

(** C16: every such configuration is accepted. *)
Theorem C16_map_accepted nt garbage rs : Forall region_ok rs -> (length rs <= nt)%nat ->
  exists mp, map_all nt (ic_init nt garbage) (calls rs) = Ok mp.
Proof. intros H1 H2. rewrite init_map by assumption. eauto. Qed.

(** C16 as stated, for initiators without an offset: unique region, address
    restored. *)
Theorem C16_unique_region_partial {S} nt garbage rs mp (ts : nat -> target S) s g i r :
  Forall region_ok rs -> (length rs <= nt)%nat ->
  map_all nt (ic_init nt garbage) (calls rs) = Ok mp ->
  g_addr g < u64 -> only_region rs (g_addr g) i r -> (target_of r i < nt)%nat ->
  ic_transport nt mp 0 ts s g =
    Ok (ts (target_of r i) s
          (mkGp (g_cmd g) (local r (g_addr g)) (g_data g) (g_be g) (g_sw g) (g_status g)), g_addr g).
Proof.
  intros Hok Hl Hm Hu Ho Ht.
  assert (E : (g_addr g + 0) mod u64 = g_addr g) by (rewrite N.add_0_r; apply N.mod_small, Hu).
  pose proof (C16_routed_partial nt garbage rs mp 0 ts s g i r Hok Hl Hm) as H.
  cbn zeta in H. rewrite E in H. apply H; [apply only_first, Ho|exact Ht].
Qed.

Definition ex_regions := [mkRegion 4096 255 true None; mkRegion 4352 255 true None;
                          mkRegion 0 (u64 - 2) false None].
Definition ex_map := match map_all 3 (ic_init 3 []) (calls ex_regions) with Ok m => m | _ => [] end.
Definition ex_targets : nat -> target (list (nat * N)) :=
  fun k s g => (s ++ [(k, g_addr g)], (g_data g, St_OK)).
Definition ex_read a := mkGp C_READ a [0;0;0;0] None 4 St_INCOMPLETE.

Example C16_case :
  map (fun a => ic_transport 3 ex_map 0 ex_targets [] (ex_read a)) [4351; 4352; 8000] =
  [Ok ([(0%nat, 255)], ([0;0;0;0], St_OK), 4351);
   Ok ([(1%nat, 0)], ([0;0;0;0], St_OK), 4352);
   Ok ([(2%nat, 8000)], ([0;0;0;0], St_OK), 8000)].
Proof. reflexivity. Qed.

(** C16: an address in no region does not give an address error; the access
    goes on with an offset that was never assigned. *)
Theorem C16_no_region_refuted :
  let rs := [mkRegion 4096 255 true None] in
  exists mp, map_all 1 (ic_init 1 [free_entry;free_entry;free_entry]) (calls rs) = Ok mp /\
    (forall i r, nth_error rs i = Some r -> ~ contains r 0) /\
    ic_transport 1 mp 0 ex_targets [] (ex_read 0) = UB.
Proof.
  eexists. split; [reflexivity|]. split; [|reflexivity].
  intros [|[|i]] r E; [injection E as <-|discriminate|discriminate].
  unfold contains. cbn. lia.
Qed.

(** C16: with an initiator offset the payload comes back with another address. *)
Theorem C16_address_not_restored_refuted :
  let g := ex_read 0 in
  exists s d, ic_transport 3 ex_map 4096 ex_targets [] g = Ok (s, (d, St_OK), 4096) /\ g_addr g = 0.
Proof. eexists _, _. split; reflexivity. Qed.

(** C42: a DMI grant below the last byte of the region comes back as the range
    of the initiator's address space it stands for, if regions and sockets are
    numbered alike. *)
Theorem C42_dmi_partial nt garbage rs mp ts a i r :
  Forall region_ok rs -> (length rs <= nt)%nat ->
  map_all nt (ic_init nt garbage) (calls rs) = Ok mp ->
  a < u64 -> first_region rs a i r -> r_idx r = None ->
  let d := ts i (local r a) in
  (r_rel r = true -> d_start d < r_last r /\ d_end d < r_last r) ->
  ic_dmi nt mp 0 ts a = Ok (mkDmi (d_ok d) (global r (d_start d)) (global r (d_end d))).
Proof.
  intros Hok Hl Hm Ha Hf Hi d Hd. rewrite init_map in Hm by assumption. injection Hm as <-.
  unfold ic_dmi. rewrite N.add_0_r, (N.mod_small a) by exact Ha.
  rewrite (map_address_first rs a 0 i r _ Hok Hf). cbn [Nat.add].
  assert (Et : target_of r i = i) by (unfold target_of; rewrite Hi; reflexivity). rewrite Et.
  destruct Hf as [Hn _].
  assert (Hin : (i < length rs)%nat) by (apply nth_error_Some; congruence).
  destruct (Nat.ltb_spec i nt); [|lia]. fold d.
  unfold unmap_offset. destruct (Nat.leb_spec nt i); [lia|].
  rewrite (entries_nth 0 rs i r _ Hn). cbn [m_rel m_size m_addr Nat.add].
  unfold global. destruct (r_rel r); [|reflexivity].
  destruct (Hd eq_refl) as [H1 H2].
  assert (Hr : region_ok r) by (rewrite Forall_forall in Hok; apply Hok; eapply nth_error_In, Hn).
  destruct Hr as [_ Hr].
  destruct (N.leb_spec (r_last r) (d_start d)); [lia|].
  destruct (N.leb_spec (r_last r) (d_end d)); [lia|].
  cbn [rbind]. rewrite !N.mod_small by lia. reflexivity.
Qed.

(** C42: a grant of the whole region stops the simulation; with two regions on
    one socket the wrong region's base is added. *)
Theorem C42_dmi_whole_region_refuted :
  ic_dmi 3 ex_map 0 (fun _ _ => mkDmi true 0 255) 4100 = AssertFail.
Proof. reflexivity. Qed.

Theorem C42_dmi_shared_socket_refuted :
  let rs := [mkRegion 4096 255 true None; mkRegion 8192 255 true (Some 0%nat)] in
  exists mp, map_all 2 (ic_init 2 []) (calls rs) = Ok mp /\
    ic_dmi 2 mp 0 (fun _ _ => mkDmi true 0 15) 8193 = Ok (mkDmi true 4096 4111).
Proof. eexists. split; reflexivity. Qed.

Example C42_case : ic_dmi 3 ex_map 0 (fun _ _ => mkDmi true 0 15) 4353 = Ok (mkDmi true 4352 4367).
Proof. reflexivity. Qed.

(** C43: debug accesses reach the target, but the count is always zero. *)
Theorem C43_debug_partial {S} nt garbage rs mp ts (s : S) g i r :
  Forall region_ok rs -> (length rs <= nt)%nat ->
  map_all nt (ic_init nt garbage) (calls rs) = Ok mp ->
  g_addr g < u64 -> first_region rs (g_addr g) i r -> (target_of r i < nt)%nat ->
  exists n, ic_debug nt mp 0 ts s g =
    Ok (fst (ts (target_of r i) s
          (mkGp (g_cmd g) (local r (g_addr g)) (g_data g) (g_be g) (g_sw g) (g_status g))), n).
Proof.
  intros Hok Hl Hm Ha Hf Ht. rewrite init_map in Hm by assumption. injection Hm as <-.
  exists 0. unfold ic_debug. rewrite N.add_0_r, (N.mod_small (g_addr g)) by exact Ha.
  rewrite (map_address_first rs _ 0 i r _ Hok Hf). cbn [Nat.add].
  destruct (Nat.ltb_spec (target_of r i) nt); [|lia]. unfold at_address.
  destruct (ts _ s _) as [[s' d] n]. reflexivity.
Qed.

Theorem C43_debug_count_refuted :
  ic_debug 3 ex_map 0 (fun _ (_ : unit) g => (tt, [1;2;3;4], g_len g)) tt (ex_read 4096)
  = Ok (tt, [1;2;3;4], 0).
Proof. reflexivity. Qed.

Print Assumptions C16_routed_partial.
Print Assumptions C16_map_accepted.
Print Assumptions C16_unique_region_partial.
Print Assumptions C16_no_region_refuted.
Print Assumptions C16_address_not_restored_refuted.
Print Assumptions C42_dmi_partial.
Print Assumptions C42_dmi_whole_region_refuted.
Print Assumptions C42_dmi_shared_socket_refuted.
Print Assumptions C43_debug_partial.
Print Assumptions C43_debug_count_refuted.
