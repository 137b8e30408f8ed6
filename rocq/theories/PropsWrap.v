(** Properties C14 and C40: the wrap expander. *)
From Verif Require Import Base TlmModel TlmSpec TlmFacts WrapModel WrapSpec WrapProofs.
From Coq Require Import Permutation.
Open Scope N_scope.

(** C14, two-payload mode (or a start on the block boundary): whatever the
    target does, it receives the bytes of the wrapping burst in burst order,
    all of them if the result is OK, else up to the failing payload. *)
Theorem C14_wrap_expanded_partial {S} two (t : bool -> target S) (g : gp) (s : S) :
  gp_ok g -> 0 < g_len g -> not_streaming g -> keeps_length (t true) ->
  two = true \/ g_addr g mod g_len g = 0 ->
  exists s' log d st,
    we_transport two (fun w => recording (t w)) (s, []) true g = Ok ((s', log), (d, st)) /\
    delivered (fun _ => True) (g_cmd g) (wrap_accesses g) st log.
Proof.
  intros H1 H2 H3 H4 H5.
  destruct (we_run two (fun w => recording (t w)) g (s, [])) as [[s' log] [d [st [E R]]]]; auto.
  { apply recording_keeps_length, H4. }
  exists s', log, d, st. split; [exact E|].
  destruct (run_recording _ _ _ _ _ _ _ _ R) as [log' [El [D _]]]. cbn in El. subst log'. exact D.
Qed.

(** C14: on a byte-serial target the effect is that of the wrapping burst. *)
Theorem C14_wrap_effect_partial {S} two (f : bool -> byte_step S) (g : gp) (s : S) :
  gp_ok g -> 0 < g_len g -> not_streaming g -> errors_are_errors (f true) ->
  two = true \/ g_addr g mod g_len g = 0 ->
  we_transport two (fun w => serial_target (f w)) s true g =
    Ok (let '(s', d, e) := serial (f true) s (g_cmd g) (wrap_accesses g) in (s', (d, status_of e))).
Proof.
  intros H1 H2 H3 H4 H5.
  destruct (we_run two (fun w => serial_target (f w)) g s) as [s' [d [st [E R]]]]; auto.
  { apply serial_keeps_length. }
  destruct (run_serial _ _ _ _ _ _ _ _ H4 R) as [e [E' ->]]. rewrite E, E'. reflexivity.
Qed.

(** C14: the bytes touched are exactly those of the aligned block. *)
Theorem C14_wrap_touches_block (g : gp) :
  0 < g_len g -> wrap_base g + g_len g <= u64 ->
  Permutation (map a_addr (wrap_accesses g))
              (map (fun i => wrap_base g + N.of_nat i) (seq 0 (length (g_data g)))) /\
  wrap_base g mod g_len g = 0 /\ wrap_base g <= g_addr g < wrap_base g + g_len g.
Proof.
  intros H0 Hu. split; [apply wrap_addresses; assumption|].
  pose proof (pos_lt g H0). pose proof (base_le g H0). split; [|lia].
  unfold wrap_base. apply N.mod_mul. lia.
Qed.

(** C14: payloads without the wrap attribute pass unchanged. *)
Theorem C14_plain_unchanged {S} two (t : bool -> target S) g s :
  we_transport two t s false g = Ok (t false s g).
Proof. reflexivity. Qed.

(** C14, single-payload mode: the data is sent to the block in burst order, so
    byte 0 of the burst lands on the block base instead of the start address. *)
Definition wrap_ex := mkGp C_WRITE 20 [1;2;3;4;5;6;7;8] None 8 St_INCOMPLETE.
Theorem C14_single_payload_refuted :
  exists m d,
    we_transport false (fun _ => atomic_memory (fun _ => false)) (fun _ => 0) true wrap_ex
      = Ok (m, (d, St_OK)) /\
    map a_addr (firstn 1 (wrap_accesses wrap_ex)) = [20] /\
    m 20 = 5 /\ nth 0 (g_data wrap_ex) 0 = 1.
Proof. eexists _, _. repeat split. Qed.

Example C14_case :
  exists m, we_transport true (fun _ => atomic_memory (fun _ => false)) (fun _ => 0) true wrap_ex
      = Ok (m, (g_data wrap_ex, St_OK)) /\
    map m [15;16;17;18;19;20;21;22;23;24] = [0;5;6;7;8;1;2;3;4;0].
Proof. eexists. split; [vm_compute; reflexivity|reflexivity]. Qed.

(** C40: payloads after expansion are plain: a second expander must pass them on
    unchanged.  It does not: the wrap attribute is still set on the parts. *)
Theorem C40_expanded_still_wrapping_refuted :
  let memory := fun _ : bool => atomic_memory (fun _ => false) in
  let second : bool -> target mem := fun w m g =>
    match we_transport true memory m w g with Ok r => r | _ => (m, (g_data g, St_GENERIC)) end in
  let g := mkGp C_WRITE 22 [1;2;3;4;5;6;7;8] None 8 St_INCOMPLETE in
  exists m1 m2,
    we_transport true memory (fun _ => 0) true g = Ok (m1, (g_data g, St_OK)) /\
    we_transport true second (fun _ => 0) true g = Ok (m2, (g_data g, St_OK)) /\
    map m1 [12;13;16;17;18;19] = [0;0;3;4;5;6] /\
    map m2 [12;13;16;17;18;19] = [5;6;3;4;0;0].
Proof. eexists _, _. repeat split; vm_compute; reflexivity. Qed.

Print Assumptions C14_wrap_expanded_partial.
Print Assumptions C14_wrap_effect_partial.
Print Assumptions C14_wrap_touches_block.
Print Assumptions C14_plain_unchanged.
Print Assumptions C14_single_payload_refuted.
Print Assumptions C40_expanded_still_wrapping_refuted.
