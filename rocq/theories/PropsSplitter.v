(** Property C13: the transaction and wire splitters. *)
From Verif Require Import Base TlmModel TlmSpec SplitterModel SplitterSpec SplitterProofs.
Open Scope N_scope.

(** Each output is called exactly once, in order, with the command, address,
    byte enables and streaming width of the original. *)
Theorem C13_each_output_once {S} check (ts : list (target S)) s g s' calls d st :
  split_transport check (logged_from 0 ts) (s, []) g = Ok ((s', calls), (d, st)) ->
  map call_out calls = seq 0 (length ts) /\
  Forall (fun c => same_request g (call_gp c)) calls.
Proof.
  intros H. destruct (split_loop_log _ _ _ _ _ _ _ _ _ _ _ _ H) as [new [-> [N1 [N2 _]]]].
  auto.
Qed.

(** Writes: every output receives the original data. *)
Theorem C13_writes_same_data {S} check (ts : list (target S)) s g s' calls d st :
  Forall write_keeps_data ts -> g_cmd g <> C_READ ->
  split_transport check (logged_from 0 ts) (s, []) g = Ok ((s', calls), (d, st)) ->
  Forall (fun c => g_data (call_gp c) = g_data g) calls.
Proof.
  intros Ht Hc H. destruct (split_loop_write _ _ Ht _ _ _ _ _ _ _ _ _ _ Hc H) as [new [-> F]].
  exact F.
Qed.

(** The result is OK exactly when all outputs answered OK; otherwise it is the
    answer of one of the failing outputs. *)
Theorem C13_ok_iff_all_ok {S} check (ts : list (target S)) s g s' calls d st :
  split_transport check (logged_from 0 ts) (s, []) g = Ok ((s', calls), (d, st)) ->
  (st = St_OK <-> Forall (fun c => call_status c = St_OK) calls) /\
  (st <> St_OK -> exists c, In c calls /\ call_status c = st).
Proof.
  intros H. destruct (split_loop_log _ _ _ _ _ _ _ _ _ _ _ _ H)
    as [new [-> [_ [_ [-> _]]]]]. cbn [app]. split.
  - rewrite last_error_ok. tauto.
  - intros Hne. destruct (last_error_is new St_OK) as [E|[c [I1 [E _]]]]; [congruence|].
    exists c. auto.
Qed.

(** With read checking on, a read that completes had the same data from every
    output, and that is what the initiator gets (if there is any output). *)
Theorem C13_checked_reads_agree {S} (ts : list (target S)) s g s' calls d st :
  g_cmd g = C_READ ->
  split_transport true (logged_from 0 ts) (s, []) g = Ok ((s', calls), (d, st)) ->
  Forall (fun c => call_data c = d) calls.
Proof.
  intros Hc H. destruct (split_loop_log _ _ _ _ _ _ _ _ _ _ _ _ H)
    as [new [-> [_ [_ [_ [_ [N5 [_ N7]]]]]]]]. cbn [app].
  apply Forall_forall. intros c Hin.
  destruct new as [|c0 new]; [contradiction|].
  assert (Hl : exists cl, In cl (c0 :: new) /\ d = call_data cl).
  { rewrite N7. clear. generalize c0. clear. induction new as [|x new IH]; intros c0.
    - exists c0. cbn. auto.
    - destruct (IH x) as [cl [I1 E]]. exists cl. split; [right; exact I1|]. exact E. }
  destruct Hl as [cl [I1 ->]]. apply (N5 eq_refl Hc eq_refl); assumption.
Qed.

(** Without checking, or for writes, the splitter never fails by itself. *)
Theorem C13_always_completes {S} check (ts : list (target S)) s g :
  check = false \/ g_cmd g <> C_READ ->
  exists r, split_transport check (logged_from 0 ts) (s, []) g = Ok r.
Proof.
  intros H. destruct (split_loop_defined check ts 0 s [] g None St_OK H) as [s' [l' [d [r E]]]].
  eexists. exact E.
Qed.

(** Wires: every output gets the input value. *)
Theorem C13_wire_splitter v outs : 
  length (wire_split v outs) = length outs /\ Forall (fun o => o = v) (wire_split v outs).
Proof.
  split; [apply map_length|]. apply Forall_map, Forall_forall. reflexivity.
Qed.

Example C13_case :
  let ok : target N := fun s g => (s + 1, (g_data g, St_OK)) in
  let bad : target N := fun s g => (s + 100, (g_data g, St_BURST)) in
  exists calls,
  split_transport true (logged_from 0 [ok; bad; ok]) (0, [])
    (mkGp C_WRITE 64 [1;2;3] None 3 St_INCOMPLETE) = Ok ((102, calls), ([1;2;3], St_BURST)) /\
  map call_status calls = [St_OK; St_BURST; St_OK].
Proof. eexists. split; vm_compute; reflexivity. Qed.

Example C13_case_mismatch :
  let t (v : N) : target unit := fun s g => (s, (map (fun _ => v) (g_data g), St_OK)) in
  split_transport true (logged_from 0 [t 1; t 2]) (tt, [])
    (mkGp C_READ 64 [0;0] None 2 St_INCOMPLETE) = AssertFail.
Proof. vm_compute; reflexivity. Qed.

Print Assumptions C13_each_output_once.
Print Assumptions C13_writes_same_data.
Print Assumptions C13_ok_iff_all_ok.
Print Assumptions C13_checked_reads_agree.
Print Assumptions C13_always_completes.
Print Assumptions C13_wire_splitter.
