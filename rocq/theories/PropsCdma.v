(** Properties C24, C46: the CDMA engine. *)
From Verif Require Import Base BaseFacts TlmModel TlmSpec TlmFacts RegapiModel.
From Verif Require Import CdmaModel CdmaSpec CdmaProofs.
Open Scope N_scope.

(** C24: program an idle engine and let it run to completion: for every length,
    on a memory that refuses everything outside source and destination, exactly
    the programmed bytes are copied; then the engine is idle with the completion
    bit set.  Source and destination must not overlap forwards. *)
Theorem C24_copy_partial bad junk regs m sa da n :
  length regs = R_MAX -> (64 <= length junk)%nat ->
  0 < n < u32 -> sa + n < u64 -> da + n < u64 ->
  (forall x, sa <= x < sa + n -> bad x = false) ->
  (forall x, da <= x < da + n -> bad x = false) ->
  da <= sa \/ sa + n <= da ->
  exists fuel regs1 regs2 m',
    cdma_writes regs (program sa da n) = Ok regs1 /\
    N.land (reg regs1 R_SR) SR_IDLE = 0 /\
    cdma_run fuel (atomic_memory bad) junk regs1 m = Some (regs2, m') /\
    (forall x, m' x = copied m sa da n x) /\
    reg regs2 R_BTT = 0 /\
    N.land (reg regs2 R_SR) SR_IDLE = SR_IDLE /\ N.land (reg regs2 R_SR) SR_IOC_IRQ = SR_IOC_IRQ.
Proof.
  intros W Hj Hn Us Ud Bs Bd Ho.
  destruct (programmed regs sa da n) as [r1 [E1 [W1 [S1 [D1 [B1 [C1 SR1]]]]]]]; try lia; [exact W|].
  destruct (run_copies bad junk Hj (N.to_nat n) r1 m sa da n W1 S1 D1 B1)
    as [r2 [m2 [E2 [M2 [W2 [B2 [S2 [D2 [C2 SR2]]]]]]]]]; try assumption; try lia.
  exists (N.to_nat n), r1, r2, m2. split; [exact E1|]. split.
  { rewrite SR1. apply N.bits_inj. intros k. rewrite N.land_spec, N.ldiff_spec, N.bits_0.
    destruct (N.testbit SR_IDLE k); [|apply andb_false_r]. cbn [negb]. rewrite andb_false_r. reflexivity. }
  split; [exact E2|]. split; [exact M2|]. split; [exact B2|].
  rewrite SR2. destruct (N.eqb_spec n 0); [lia|].
  split; apply N.bits_inj; intros k; rewrite N.land_spec, !N.lor_spec;
    destruct (N.testbit SR_IDLE k) eqn:A, (N.testbit SR_IOC_IRQ k) eqn:B;
    rewrite ?orb_true_r, ?andb_false_r; reflexivity.
Qed.

Definition ex_regs := repeat 0 11.
Definition ex_mem : mem := fun x => x mod 251.
Definition ex_run bad sa da n :=
  match cdma_writes ex_regs (program sa da n) with
  | Ok r => cdma_run 10 (atomic_memory bad) (repeat 170 64) r ex_mem
  | _ => None
  end.

Example C24_case :
  match ex_run (fun _ => false) 1000 5000 130 with
  | Some (regs, m) => map m [4999; 5000; 5063; 5064; 5129; 5130] =
                      map ex_mem [4999; 1000; 1063; 1064; 1129; 5130] /\ reg regs R_SR = 4098
  | None => False
  end.
Proof. vm_compute. split; reflexivity. Qed.

(** C24: a destination overlapping the end of the source receives bytes that
    were already overwritten. *)
Theorem C24_overlap_refuted :
  match ex_run (fun _ => false) 1000 1032 100 with
  | Some (_, m) => m 1099 <> copied ex_mem 1000 1032 100 1099
  | None => False
  end.
Proof. vm_compute. discriminate. Qed.

(** C46: after a transfer that could not read its source the status register
    looks exactly as after a good one, and the destination holds whatever was
    on the stack. *)
Theorem C46_errors_refuted :
  match ex_run (fun x => x <? 2000) 1000 5000 16, ex_run (fun _ => false) 1000 5000 16 with
  | Some (regs, m), Some (regs', _) => regs = regs' /\ m 5000 = 170 /\ ex_mem 1000 <> 170
  | _, _ => False
  end.
Proof. vm_compute. repeat split; discriminate. Qed.

(** C46: register accesses beyond the last register leave the register array. *)
Theorem C46_register_range_refuted : cdma_transport ex_regs (reg_write 44 1) = UB.
Proof. reflexivity. Qed.

(** C46: inside the block every access that is not a 4-byte access without byte
    enables is refused without effect. *)
Theorem C46_bad_accesses_partial regs g : g_len g <> 4 \/ g_be g <> None ->
  cdma_transport regs g = Ok (regs, (g_data g, St_GENERIC)).
Proof.
  intros H. unfold cdma_transport. destruct (N.eqb_spec (g_len g) 4); cbn [negb orb]; [|reflexivity].
  destruct (g_be g); [reflexivity|]. destruct H; congruence.
Qed.

Print Assumptions C24_copy_partial.
Print Assumptions C24_overlap_refuted.
Print Assumptions C46_errors_refuted.
Print Assumptions C46_register_range_refuted.
Print Assumptions C46_bad_accesses_partial.
