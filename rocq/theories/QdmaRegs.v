(** Sequences of accesses: contexts read back, read-only registers. *)
From Verif Require Import Base LeFacts BaseFacts QdmaModel QdmaSpec QdmaBits QdmaDefs QdmaProofs QdmaRun QdmaCtx.
From Coq Require Import ZifyN ZifyNat ZifyBool.
Open Scope N_scope.

Lemma ctxt_cmd_other s v s1 : ctxt_cmd s v = Ok s1 ->
  let q := N.land (N.shiftr v 7) 8191 in
  let cmd := N.land (N.shiftr v 5) 3 in
  let sel := N.land (N.shiftr v 1) 15 in
  (forall a b, (a, b) <> (q, sel) \/ cmd = 2 -> q_ctx s1 a b = q_ctx s a b) /\
  (forall x, x < 513 \/ 521 <= x -> q_regs s1 x = q_regs s x).
Proof.
  unfold ctxt_cmd. set (q := N.land (N.shiftr v 7) 8191). set (cmd := N.land (N.shiftr v 5) 3).
  set (sel := N.land (N.shiftr v 1) 15). clearbody q cmd sel. intro H. cbv zeta.
  assert (SC : forall w, (cmd =? 2) = false ->
    (forall a b, (a, b) <> (q, sel) \/ cmd = 2 -> q_ctx (set_ctx s q sel w) a b = q_ctx s a b) /\
    (forall x, x < 513 \/ 521 <= x -> q_regs (set_ctx s q sel w) x = q_regs s x)).
  { intros w C2. split; [|reflexivity]. intros a b [D|D]; [now apply ctx_other|].
    rewrite D in C2. discriminate. }
  assert (SR : forall w, 
    (forall a b, (a, b) <> (q, sel) \/ cmd = 2 -> q_ctx (set_regs s (put_data (q_regs s) w)) a b = q_ctx s a b) /\
    (forall x, x < 513 \/ 521 <= x -> q_regs (set_regs s (put_data (q_regs s) w)) x = q_regs s x)).
  { intro w. split; [reflexivity|]. intros x X. cbn [q_regs set_regs]. now apply put_out. }
  destruct (N.eqb_spec sel SELC_INT_COAL) as [E|E].
  - destruct (QDMA_QUEUE_COUNT <=? q); [discriminate|].
    destruct (N.eqb_spec cmd 0) as [C|C].
    { apply Ok_inj in H. subst s1. apply SC. now rewrite C. }
    destruct (N.eqb_spec cmd 1) as [C1|C1].
    { apply Ok_inj in H. subst s1. set (w := ctx_data (q_regs s)).
      destruct (SC w) as [A B]; [now rewrite C1|].
      destruct (it_valid w && _); split; assumption. }
    destruct (N.eqb_spec cmd 2) as [C2|C2].
    { apply Ok_inj in H. subst s1. apply SR. }
    apply Ok_inj in H. subst s1. apply SC. reflexivity.
  - destruct (QDMA_QUEUE_COUNT <=? q); [discriminate|].
    destruct (negb (supported sel)); [discriminate|].
    destruct (N.eqb_spec cmd 0) as [C|C].
    { apply Ok_inj in H. subst s1. apply SC. now rewrite C. }
    destruct (N.eqb_spec cmd 1) as [C1|C1].
    { apply Ok_inj in H. subst s1. apply SC. now rewrite C1. }
    destruct (N.eqb_spec cmd 2) as [C2|C2].
    { apply Ok_inj in H. subst s1. apply SR. }
    apply Ok_inj in H. subst s1. split; reflexivity.
Qed.

Lemma no_door cpm4 addr : (forall q' h2c, addr <> door cpm4 q' h2c) ->
  (DMAP cpm4 / 4 <=? addr / 4) = true ->
  (addr mod 16 =? 4) = false /\ (addr mod 16 =? 8) = false.
Proof.
  intros B L.
  assert (D : DMAP cpm4 = 25600 \/ DMAP cpm4 = 98304) by (destruct cpm4; auto).
  pose proof (B ((addr - DMAP cpm4) / 16) true) as B1. pose proof (B ((addr - DMAP cpm4) / 16) false) as B2.
  unfold door in B1, B2.
  assert (E : (if cpm4 then 25600 else 98304) = DMAP cpm4) by (now destruct cpm4). rewrite E in *.
  clear B E. apply N.leb_le in L.
  split; apply N.eqb_neq; intro X.
  - apply B1. clear B1 B2. destruct D as [D|D]; rewrite D in *; clear D; [change (25600 / 4) with 6400 in L|change (98304 / 4) with 24576 in L]; dm.
  - apply B2. clear B1 B2. destruct D as [D|D]; rewrite D in *; clear D; [change (25600 / 4) with 6400 in L|change (98304 / 4) with 24576 in L]; dm.
Qed.

Lemma bystander_keeps cpm4 q sel s addr d s1 o : bystander cpm4 q sel addr d ->
  cfg_write cpm4 s addr d = Ok (Some (s1, o)) ->
  o = None /\ q_ctx s1 q sel = q_ctx s q sel.
Proof.
  intros [B1 B2] H. unfold cfg_write in H.
  destruct (4 <? length d)%nat; [discriminate|].
  destruct ((DMAP cpm4 / 4 <=? addr / 4) && (addr / 4 <=? (DMAP cpm4 + 12 + 16 * QDMA_QUEUE_COUNT) / 4)) eqn:R.
  { apply andb_true_iff in R. destruct R as [R _]. destruct (no_door cpm4 addr B1 R) as [N4 N8].
    rewrite N4, N8 in H. apply Ok_inj in H. injection H as <- <-. split; reflexivity. }
  destruct (N.eqb_spec (addr / 4) (R_IND_CTXT_CMD cpm4)) as [C|C].
  { destruct (B2 ltac:(rewrite C; now destruct cpm4)) as (q' & cmd & sel' & Q & K & S & -> & D).
    destruct (ctxt_cmd s (le_dec (le_enc 4 (command q' cmd sel')))) as [s2| | |] eqn:CC; try discriminate.
    cbn [rmap] in H. apply Ok_inj in H. injection H as <- <-. split; [reflexivity|].
    destruct (command_fields q' cmd sel' Q K S) as (F1 & F2 & F3 & F4).
    rewrite le_dec_enc in CC. change (256 ^ N.of_nat 4) with (2 ^ 32) in CC. rewrite N.mod_small in CC by exact F4.
    destruct (ctxt_cmd_other _ _ _ CC) as [X _]. rewrite F1, F2, F3 in X.
    unfold set_reg. cbn [q_ctx set_regs]. apply X. destruct D as [D|D]; [left; congruence|now right]. }
  destruct ((addr / 4 =? R_CONFIG_BLOCK_IDENT) || (addr / 4 =? R_GLBL2_MISC_CAP)).
  { apply Ok_inj in H. injection H as <- <-. split; reflexivity. }
  destruct (addr / 4 =? R_GLBL_INTR_CFG).
  { apply Ok_inj in H. injection H as <- <-. split; reflexivity. }
  destruct (NREGS <=? addr / 4); [discriminate|].
  apply Ok_inj in H. injection H as <- <-. split; reflexivity.
Qed.

Lemma bystanders_keep cpm4 junk hbad cbad q sel ws : forall s ts s' ts',
  Forall (fun w => bystander cpm4 q sel (fst w) (snd w)) ws ->
  execs cpm4 junk hbad cbad (s, ts) (map (fun w => Write (fst w) (snd w)) ws) = Ok (s', ts') ->
  q_ctx s' q sel = q_ctx s q sel.
Proof.
  induction ws as [|[a d] ws IH]; intros s ts s' ts' F H; cbn [map execs] in H.
  - apply Ok_inj in H. now injection H as <- <-.
  - inversion F as [|? ? F1 F2]; subst. cbn [exec fst snd] in H.
    destruct (cfg_write cpm4 s a d) as [[[s1 o]|]| | |] eqn:W; try discriminate; cbn [rmap rbind] in H.
    + destruct (bystander_keeps _ _ _ _ _ _ _ _ F1 W) as [-> E].
      rewrite (IH _ _ _ _ F2 H). exact E.
    + exact (IH _ _ _ _ F2 H).
Qed.

(** ** Read-only registers *)
Lemma start_regs cpm4 s q h2c s1 t : start cpm4 s q h2c = Ok (s1, t) -> q_regs s1 = q_regs s.
Proof.
  unfold start. destruct (_ <? q); [discriminate|]. destruct (_ <=? q); [discriminate|].
  destruct (_ <=? _); [discriminate|]. intro H. apply Ok_inj, (f_equal fst) in H. cbn [fst] in H. now subst s1.
Qed.
Lemma cfg_reg0 cpm4 s a d s1 o : cfg_write cpm4 s a d = Ok (Some (s1, o)) -> q_regs s1 0 = q_regs s 0.
Proof.
  unfold cfg_write. destruct (4 <? length d)%nat; [discriminate|].
  destruct ((DMAP cpm4 / 4 <=? a / 4) && (a / 4 <=? (DMAP cpm4 + 12 + 16 * QDMA_QUEUE_COUNT) / 4)) eqn:R.
  { apply andb_true_iff in R. destruct R as [R _]. apply N.leb_le in R.
    assert (D : DMAP cpm4 / 4 = 6400 \/ DMAP cpm4 / 4 = 24576) by (destruct cpm4; auto).
    assert (NZ : 0 <> a / 4) by lia.
    assert (E : q_regs (set_reg s (a / 4) (le_dec d)) 0 = q_regs s 0) by (unfold set_reg; cbn [q_regs set_regs]; now apply upd_other).
    intro H. destruct (a mod 16 =? 4); [|destruct (a mod 16 =? 8)].
    - destruct (start cpm4 _ _ true) as [[s2 t]| | |] eqn:S; try discriminate. cbn [rmap fst snd] in H.
      apply Ok_inj in H. injection H as <- <-. apply start_regs in S. now rewrite S.
    - destruct (start cpm4 _ _ false) as [[s2 t]| | |] eqn:S; try discriminate. cbn [rmap fst snd] in H.
      apply Ok_inj in H. injection H as <- <-. apply start_regs in S. now rewrite S.
    - apply Ok_inj in H. now injection H as <- <-. }
  destruct (N.eqb_spec (a / 4) (R_IND_CTXT_CMD cpm4)) as [C|C].
  { destruct (ctxt_cmd s (le_dec d)) as [s2| | |] eqn:CC; try discriminate. cbn [rmap]. intro H.
    apply Ok_inj in H. injection H as <- <-. destruct (ctxt_cmd_other _ _ _ CC) as [_ X].
    unfold set_reg. cbn [q_regs set_regs]. rewrite upd_other by (rewrite C; destruct cpm4; discriminate).
    apply X. lia. }
  change R_CONFIG_BLOCK_IDENT with 0. destruct (N.eqb_spec (a / 4) 0) as [Z|Z]; cbn [orb].
  { intro H. apply Ok_inj in H. now injection H as <- <-. }
  destruct (a / 4 =? R_GLBL2_MISC_CAP).
  { intro H. apply Ok_inj in H. now injection H as <- <-. }
  assert (E : forall v, q_regs (set_reg s (a / 4) v) 0 = q_regs s 0).
  { intro v. unfold set_reg. cbn [q_regs set_regs]. apply upd_other. congruence. }
  destruct (a / 4 =? R_GLBL_INTR_CFG).
  { intro H. apply Ok_inj in H. injection H as <- <-. apply E. }
  destruct (NREGS <=? a / 4); [discriminate|].
  intro H. apply Ok_inj in H. injection H as <- <-. apply E.
Qed.

Lemma notify_regs s v s1 : notify s v = Ok s1 -> q_regs s1 = q_regs s.
Proof. unfold notify. destruct (_ <=? v); [discriminate|]. intro H. apply Ok_inj in H. now subst. Qed.
Lemma write_entry_regs cpm4 hbad s r e s1 : write_entry cpm4 hbad s r e = Ok s1 -> q_regs s1 = q_regs s.
Proof. intro H. now apply write_entry_spec in H. Qed.
Lemma aggregate_regs cpm4 junk hbad s t s1 : aggregate cpm4 junk hbad s t = Ok s1 -> q_regs s1 = q_regs s.
Proof.
  unfold aggregate. destruct (_ <=? _); [discriminate|]. destruct (negb _); [discriminate|]. intro H.
  destruct (write_entry _ _ _ _ _) as [s2| | |] eqn:W; try discriminate. cbn [rbind] in H.
  apply notify_regs in H. rewrite H. apply write_entry_regs in W. now rewrite W.
Qed.
Lemma step_regs cpm4 junk hbad cbad s t s1 t1 : step cpm4 junk hbad cbad s t = Ok (s1, t1) ->
  q_regs s1 = q_regs s.
Proof.
  unfold step. destruct (t_ph t); intro H.
  - destruct (_ =? _); [apply Ok_inj in H; now injection H as <- <-|].
    destruct (fetch _ _ _ _) as [d| | |]; try discriminate. cbn [rbind] in H.
    destruct (_ <? 32); [discriminate|].
    destruct (t_h2c t); (destruct (copy _ _ _ _ _ _ _) as [m| | |]; try discriminate);
      cbn [rmap rbind] in H; apply Ok_inj in H; now injection H as <- <-.
  - set (c' := if hw_cidx (hw_of s t) =? t_ring t - 1 then 0 else (hw_cidx (hw_of s t) + 1) mod 65536) in *.
    set (a := set_ctx s (t_q t) (hw_sel (t_h2c t)) (bf_set 0 16 (hw_of s t) c')) in *.
    assert (A : q_regs a = q_regs s) by reflexivity. rewrite <- A. clearbody a. clear A.
    destruct (negb _); [apply Ok_inj in H; now injection H as <- <-|].
    destruct (write_status hbad a t) as [b| | |] eqn:W; try discriminate. cbn [rbind] in H.
    assert (B : q_regs b = q_regs a).
    { unfold write_status in W. destruct (sw_writeback _); [|apply Ok_inj in W; now subst].
      destruct (fetch _ _ _ _) as [d| | |]; try discriminate. cbn [rbind] in W.
      destruct (hbad _); [discriminate|]. apply Ok_inj in W. now subst. }
    rewrite <- B. clear W B.
    destruct (negb _); [apply Ok_inj in H; now injection H as <- <-|].
    destruct (aggregated _ _ _ _).
    + destruct (aggregate _ _ _ _ _) as [e| | |] eqn:E; try discriminate. cbn [rmap] in H.
      apply Ok_inj in H. injection H as <- <-. now apply aggregate_regs in E.
    + destruct (notify _ _) as [e| | |] eqn:E; try discriminate. cbn [rmap] in H.
      apply Ok_inj in H. injection H as <- <-. now apply notify_regs in E.
  - apply Ok_inj in H. now injection H as <- <-.
Qed.

Lemma execs_reg0 cpm4 junk hbad cbad l : forall z z', q_regs (fst z) 0 = 533921793 ->
  execs cpm4 junk hbad cbad z l = Ok z' -> q_regs (fst z') 0 = 533921793.
Proof.
  induction l as [|e l IH]; intros z z' Z H; cbn [execs] in H; [apply Ok_inj in H; now subst|].
  destruct (exec cpm4 junk hbad cbad z e) as [z1| | |] eqn:E; try discriminate. cbn [rbind] in H.
  apply (IH z1 z'); [|exact H]. clear IH H. destruct z as [s ts]. cbn [fst] in Z.
  destruct e as [|a d|i]; cbn [exec fst snd] in E.
  - apply Ok_inj in E. subst z1. reflexivity.
  - destruct (cfg_write cpm4 s a d) as [[[s1 o]|]| | |] eqn:W; try discriminate; cbn [rmap] in E;
      apply Ok_inj in E; subst z1; [|exact Z].
    apply cfg_reg0 in W. destruct o; cbn [fst]; now rewrite W.
  - destruct (nth_error ts i) as [t|]; [|apply Ok_inj in E; now subst].
    destruct (step cpm4 junk hbad cbad s t) as [[s1 t1]| | |] eqn:S; try discriminate. cbn [rmap fst snd] in E.
    apply Ok_inj in E. subst z1. cbn [fst]. apply step_regs in S. now rewrite S.
Qed.
