From Verif Require Import Base BaseFacts TlmModel TlmSpec IconnectModel IconnectSpec.
Open Scope N_scope.

Fixpoint entries (i : nat) (rs : list region) : list mentry :=
  match rs with
  | [] => []
  | r :: rs' => mkMent (r_base r) (r_last r) (r_rel r) (target_of r i) :: entries (S i) rs'
  end.

Lemma entries_app i a b : entries i (a ++ b) = entries i a ++ entries (i + length a) b.
Proof.
  revert i; induction a as [|r a IH]; intros i; cbn [app entries length].
  - rewrite Nat.add_0_r. reflexivity.
  - rewrite IH. do 3 f_equal. lia.
Qed.
Lemma entries_length i rs : length (entries i rs) = length rs.
Proof. revert i; induction rs as [|r rs IH]; intros i; cbn; auto. Qed.

Lemma memmap_from_skip nt : forall rs i rest r,
  Forall region_ok rs ->
  (i + length rs < nt)%nat ->
  memmap_from nt i (entries i rs ++ free_entry :: rest) (r_base r) (r_last r) (r_rel r) (r_idx r)
  = Ok (entries i (rs ++ [r]) ++ rest).
Proof.
  induction rs as [|r0 rs IH]; intros i rest r Hok Hi.
  - cbn [entries app memmap_from free_entry m_size N.eqb]. unfold target_of.
    destruct (r_idx r); [reflexivity|]. cbn in Hi.
    destruct (Nat.ltb_spec i nt); [reflexivity|lia].
  - inversion Hok as [|? ? [H0 _] Hok']; subst. cbn [entries app memmap_from m_size].
    destruct (N.eqb_spec (r_last r0) 0); [lia|]. rewrite IH; [reflexivity|exact Hok'|cbn in Hi; lia].
Qed.

Lemma map_all_entries nt garbage : forall todo done,
  Forall region_ok (done ++ todo) -> (length (done ++ todo) <= nt)%nat ->
  map_all nt (entries 0 done ++ repeat free_entry (nt - length done) ++ garbage) (calls todo)
  = Ok (entries 0 (done ++ todo) ++ repeat free_entry (nt - length (done ++ todo)) ++ garbage).
Proof.
  induction todo as [|r todo IH]; intros done Hok Hl.
  - rewrite app_nil_r. reflexivity.
  - cbn [calls map map_all]. unfold memmap.
    rewrite app_length in Hl. cbn [length] in Hl.
    destruct (nt - length done)%nat as [|k] eqn:Ek; [lia|]. cbn [repeat app].
    rewrite memmap_from_skip; [|apply Forall_app in Hok; apply Hok|lia].
    cbn [rbind]. replace k with (nt - length (done ++ [r]))%nat
      by (rewrite app_length; cbn [length]; lia).
    replace (done ++ r :: todo) with ((done ++ [r]) ++ todo) in * by (rewrite <- app_assoc; reflexivity).
    apply IH; [exact Hok|]. rewrite !app_length. cbn [length]. lia.
Qed.

Lemma init_map nt garbage rs : Forall region_ok rs -> (length rs <= nt)%nat ->
  map_all nt (ic_init nt garbage) (calls rs)
  = Ok (entries 0 rs ++ repeat free_entry (nt - length rs) ++ garbage).
Proof.
  intros H1 H2. pose proof (map_all_entries nt garbage rs [] H1 H2) as H.
  cbn [entries app length] in H. rewrite Nat.sub_0_r in H. exact H.
Qed.

Lemma hit_contains r i a : region_ok r ->
  map_hit (mkMent (r_base r) (r_last r) (r_rel r) i) a = true <-> contains r a.
Proof.
  intros [H0 Hu]. unfold map_hit, contains. cbn [m_size m_addr].
  rewrite N.mod_small by exact Hu. lia.
Qed.

Lemma map_address_first rs a : forall i0 i r rest,
  Forall region_ok rs -> first_region rs a i r ->
  map_address (entries i0 rs ++ rest) a = Some (target_of r (i0 + i), local r a).
Proof.
  induction rs as [|r0 rs IH]; intros i0 i r rest Hok [Hn [Hc Hf]].
  - destruct i; discriminate.
  - inversion Hok as [|? ? H0 Hok']; subst. cbn [entries app map_address].
    destruct i as [|i].
    + injection Hn as ->. rewrite (proj2 (hit_contains r _ a H0) Hc).
      cbn [m_idx m_rel m_addr]. rewrite Nat.add_0_r. reflexivity.
    + destruct (map_hit _ a) eqn:E.
      * apply hit_contains in E; [|exact H0]. exfalso. apply (Hf 0%nat r0); [lia|reflexivity|exact E].
      * rewrite (IH (S i0) i r rest Hok'); [f_equal; f_equal; f_equal; lia|].
        split; [exact Hn|]. split; [exact Hc|].
        intros j r' Hj Hn'. apply (Hf (S j) r'); [lia|exact Hn'].
Qed.

Lemma only_first rs a i r : only_region rs a i r -> first_region rs a i r.
Proof. intros [H1 [H2 H3]]. split; [exact H1|]. split; [exact H2|]. intros j r' Hj. apply H3. lia. Qed.

Lemma entries_nth i0 rs i r rest : nth_error rs i = Some r ->
  nth i (entries i0 rs ++ rest) free_entry
  = mkMent (r_base r) (r_last r) (r_rel r) (target_of r (i0 + i)).
Proof.
  revert i0 i; induction rs as [|r0 rs IH]; intros i0 i Hn; [destruct i; discriminate|].
  destruct i as [|i]; cbn [entries app nth].
  - injection Hn as ->. rewrite Nat.add_0_r. reflexivity.
  - rewrite (IH (S i0) i Hn). do 2 f_equal. lia.
Qed.
