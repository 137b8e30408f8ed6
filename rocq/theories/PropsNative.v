(** C57, C58: the bridge to a host buffer. *)
From Verif Require Import Base TlmModel TlmSpec NativeModel.
Open Scope N_scope.

Definition width (g : gp) : N := if g_sw g =? 0 then g_len g else N.min (g_len g) (g_sw g).

Lemma loop_ok cap g : g_cmd g <> C_IGNORE ->
  forall n i m sw,
  sw = (if g_sw g =? 0 then g_len g else g_sw g) ->
  (i + n = length (g_data g))%nat -> g_addr g + width g <= cap -> cap <= u64 ->
  native_loop cap g sw (N.of_nat i) (skipn i (g_data g)) m =
  Ok (match g_cmd g with
      | C_READ => (m, map (get m) (map (access_at g) (seq i n)))
      | _ => (fold_left put (map (access_at g) (seq i n)) m, skipn i (g_data g))
      end).
Proof.
  intros NI n. induction n as [|n IH]; intros i m sw Hsw L A U.
  - rewrite skipn_all2 by lia. cbn. destruct (g_cmd g); easy.
  - assert (D : skipn i (g_data g) = nth i (g_data g) 0 :: skipn (S i) (g_data g)).
    { assert (Hi : (i < length (g_data g))%nat) by lia. clear -Hi. revert i Hi.
      induction (g_data g) as [|x l IHl]; intros i Hi; [cbn in Hi; lia|]. destruct i; [reflexivity|]. cbn. apply IHl. cbn in Hi. lia. }
    rewrite D. cbn [native_loop seq map fold_left].
    assert (SW : 0 < sw) by (subst sw; unfold g_len; destruct (N.eqb_spec (g_sw g) 0); lia).
    assert (X : access_at g i = mkAcc ((g_addr g + N.of_nat i mod sw) mod u64) (be_at (g_be g) (N.of_nat i)) (nth i (g_data g) 0)).
    { unfold access_at, byte_addr, stream_off. do 2 f_equal. f_equal. subst sw. destruct (N.eqb_spec (g_sw g) 0); [|reflexivity].
      symmetry. apply N.mod_small. unfold g_len. lia. }
    assert (Y : (g_addr g + N.of_nat i mod sw) mod u64 < cap).
    { assert (N.of_nat i mod sw < width g).
      { pose proof (N.mod_lt (N.of_nat i) sw ltac:(lia)). pose proof (N.mod_le (N.of_nat i) sw ltac:(lia)).
        unfold width. subst sw. unfold g_len in *. destruct (N.eqb_spec (g_sw g) 0); lia. }
      rewrite N.mod_small by lia. lia. }
    set (idx := (g_addr g + N.of_nat i mod sw) mod u64) in *.
    replace (N.of_nat i + 1) with (N.of_nat (S i)) by lia.
    rewrite X. unfold get at 1, put at 2. cbn [a_en a_addr a_byte].
    replace (match g_be g with None => true | Some l => _ end) with (be_at (g_be g) (N.of_nat i)) by (unfold be_at; destruct (g_be g) as [[|]|]; reflexivity).
    destruct (be_at (g_be g) (N.of_nat i)).
    + destruct (N.ltb_spec idx cap); [|lia]. destruct (g_cmd g) eqn:C; [| |easy].
      * rewrite (IH (S i) m sw) by (auto; lia). reflexivity.
      * rewrite (IH (S i) (upd m idx _) sw) by (auto; lia). reflexivity.
    + destruct (g_cmd g) eqn:C; [| |easy]; rewrite (IH (S i) m sw) by (auto; lia); reflexivity.
Qed.

(** ** C57 *)
(** An access inside the buffer does what the payload says: streaming width and
    byte enables included; one outside is refused without touching anything. *)
Theorem C57_native_memory size m g :
  0 < size -> size <= u64 -> g_cmd g <> C_IGNORE -> g_addr g + width g < u64 ->
  native_transport size size m g =
  if size <? g_addr g + width g then AssertFail else Ok (atomic_memory (fun _ => false) m g).
Proof.
  intros S U NI A. unfold native_transport.
  assert (W : N.min (g_len g) (if g_sw g =? 0 then g_len g else g_sw g) = width g).
  { unfold width. destruct (N.eqb_spec (g_sw g) 0); lia. }
  rewrite W, N.mod_small by lia. destruct (N.ltb_spec 0 size); [|lia]. rewrite andb_true_r.
  destruct (N.ltb_spec size (g_addr g + width g)); [reflexivity|].
  unfold atomic_memory. replace (existsb _ _) with false by (symmetry; clear; induction (accesses g); auto).
  assert (E := loop_ok size g NI (length (g_data g)) 0 m _ eq_refl ltac:(lia) ltac:(lia) U).
  cbn [skipn] in E. change (N.of_nat 0) with 0 in E. fold (accesses g) in E.
  destruct (negb _ || negb _) eqn:Q.
  - rewrite E. cbn [rbind]. destruct (g_cmd g); [reflexivity|reflexivity|easy].
  - apply orb_false_iff in Q as [_ Q]. apply negb_false_iff, N.eqb_eq in Q.
    assert (D : g_data g = []). { unfold g_len in Q. destruct (N.eqb_spec (g_sw g) 0); [|lia]. destruct (g_data g); [reflexivity|cbn in Q; lia]. }
    unfold accesses. rewrite D. cbn. destruct (g_cmd g); [reflexivity|reflexivity|easy].
Qed.

(** Addresses offered for direct access lie inside of the buffer. *)
Theorem C57_native_dmi size x :
  0 < size -> fst (native_dmi size) <= x <= snd (native_dmi size) -> x < size.
Proof. intros S. unfold native_dmi. destruct (N.ltb_spec 0 size); [cbn; lia|lia]. Qed.

Example C57_case :
  match native_transport 16 16 (fun x => x) (mkGp C_WRITE 12 [1; 2; 3; 4; 5; 6; 7; 8] (Some [BE_ON; BE_OFF; BE_ON]) 4 St_INCOMPLETE) with
  | Ok (m, (d, st)) => map m [11; 12; 13; 14; 15] = [11; 1; 6; 7; 4] /\ d = [1; 2; 3; 4; 5; 6; 7; 8] /\ st = St_OK
  | _ => False
  end /\
  native_transport 16 16 (fun x => x) (mkGp C_READ 13 [0; 0; 0; 0] None 4 St_INCOMPLETE) = AssertFail.
Proof. vm_compute. auto. Qed.

(** ** C58: every access *)
(** Just below 2^64 the sum in the range check wraps around: the access passes
    and leaves the buffer. *)
Theorem C58_native_wrap_refuted size m g :
  0 < size -> size < u64 -> g_be g = None -> 0 < g_len g -> g_addr g < u64 -> g_len g <= g_sw g ->
  u64 <= g_addr g + g_len g -> g_addr g + g_len g <= u64 + size -> size <= g_addr g ->
  native_transport size size m g = UB.
Proof.
  intros S U B L A SW W1 W2 H. unfold native_transport.
  destruct (N.eqb_spec (g_sw g) 0); [lia|]. rewrite N.min_l by lia.
  replace ((g_addr g + g_len g) mod u64) with (g_addr g + g_len g - u64).
  2: { replace (g_addr g + g_len g) with (g_addr g + g_len g - u64 + 1 * u64) at 2 by lia.
       rewrite N.mod_add by (unfold u64; lia). symmetry. apply N.mod_small. lia. }
  destruct (N.ltb_spec size (g_addr g + g_len g - u64)); [lia|]. cbn [andb].
  unfold g_be_len. rewrite B. destruct (N.eqb_spec (g_sw g) 0); [lia|]. cbn [N.eqb negb orb].
  unfold g_len in *. destruct (g_data g) as [|b ds]; [cbn in L; lia|].
  cbn [native_loop]. rewrite B, N.mod_0_l, N.add_0_r by lia. rewrite N.mod_small by exact A.
  destruct (N.ltb_spec (g_addr g) size); [lia|]. reflexivity.
Qed.
(** Without a size there is no check. *)
Theorem C58_native_unchecked_refuted cap m :
  cap < u64 -> native_transport 0 cap m (mkGp C_READ cap [0] None 1 St_INCOMPLETE) = UB.
Proof.
  intro H. unfold native_transport. cbn [g_len g_data length g_sw g_be g_be_len].
  change (1 =? 0) with false. change (0 <? 0) with false. rewrite andb_false_r. cbn [negb orb N.eqb].
  cbn [native_loop g_be g_addr]. change (0 mod 1) with 0. rewrite N.add_0_r, N.mod_small by exact H.
  rewrite N.ltb_irrefl. reflexivity.
Qed.
(** A payload with the IGNORE command is written to memory. *)
Theorem C58_native_ignore_refuted :
  match native_transport 16 16 (fun x => x) (mkGp C_IGNORE 0 [9] None 1 St_INCOMPLETE) with
  | Ok (m, _) => m 0 = 9
  | _ => False
  end.
Proof. vm_compute. reflexivity. Qed.

Print Assumptions C57_native_memory.
Print Assumptions C57_native_dmi.
Print Assumptions C58_native_wrap_refuted.
Print Assumptions C58_native_unchecked_refuted.
Print Assumptions C58_native_ignore_refuted.
