(** Remote memory accesses. *)
From Verif Require Import Base BaseFacts TlmModel RpProtoModel RpProtoSpec RpMemModel RpMemSpec
  RpMemProofs.
Open Scope N_scope.

(** C08.  A non-posted read or write through remote-port does on an arbitrary target
    what the access made directly does: same new target state, same data for reads,
    buffer untouched by writes, same outcome class.  Whatever both sides negotiated,
    whatever is in the receive buffers. *)
Theorem C08_remote_equals_local :
  forall S (t : target S) pl pr s id dev clk1 clk2 buf1 buf2 g a s' d st,
  wf_access g a id dev clk1 -> clk2 < u64 -> a_posted a = false -> g_be g = None ->
  rxbuf_ok buf1 -> rxbuf_ok buf2 -> target_ok t ->
  t s (at_target g) (attrs_at_target a) = (s', d, st) ->
  remote_access pl pr t s id dev clk1 clk2 buf1 buf2 g a =
  Ok (s', match g_cmd g with C_READ => d | _ => g_data g end, status_class st).
Proof. exact @access_ok. Qed.
Print Assumptions C08_remote_equals_local.

(** C08 for a byte memory decoding [lo, hi): new contents, data and status. *)
Theorem C08_remote_memory :
  forall pl pr (m : mem) lo hi id dev clk1 clk2 buf1 buf2 g a,
  byte_mem m ->
  wf_access g a id dev clk1 -> clk2 < u64 -> a_posted a = false -> g_be g = None ->
  rxbuf_ok buf1 -> rxbuf_ok buf2 ->
  remote_access pl pr (mem_target lo hi) m id dev clk1 clk2 buf1 buf2 g a =
  Ok (if (lo <=? g_addr g) && (g_addr g + g_len g <=? hi) then
        match g_cmd g with
        | C_READ => (m, mem_read m g, St_OK)
        | _ => (mem_write m g, g_data g, St_OK)
        end
      else (m, match g_cmd g with C_READ => repeat 0 (length (g_data g)) | _ => g_data g end,
            St_ADDRESS)).
Proof. exact access_mem. Qed.
Print Assumptions C08_remote_memory.

(** C08, byte enables: refused without any effect when the peer did not announce
    them (the peers of this library do not). *)
Theorem C08_byte_enables_refused :
  forall S (t : target S) pl pr s id dev clk1 clk2 buf1 buf2 g a,
  g_be g <> None -> c_byte_en pl = false ->
  remote_access pl pr t s id dev clk1 clk2 buf1 buf2 g a = Ok (s, g_data g, St_BYTE_ENABLE).
Proof. exact @be_refused. Qed.
Print Assumptions C08_byte_enables_refused.

Definition ex_att := mkAttr false 77 true true false false.
Definition ex_wr := mkGp C_WRITE 4098 [10; 20; 30] None 3 St_INCOMPLETE.
Definition ex_rd := mkGp C_READ 4097 [7; 7; 7; 7] None 4 St_INCOMPLETE.
Definition ex_old := mkCaps false false false false.
Definition ex_new := mkCaps true false true true.
Example C08_case :
  wf_access ex_wr ex_att 5 1 1000 /\ wf_access ex_rd ex_att 6 1 1000 /\
  byte_mem (fun _ => 1) /\
  exists m, remote_access ex_old ex_new (mem_target 4096 8192) (fun _ => 1) 5 1 1000 2000
     (repeat 0 148) (repeat 9 200) ex_wr ex_att = Ok (m, [10; 20; 30], St_OK) /\
   remote_access ex_new ex_old (mem_target 4096 8192) m 6 1 1000 2000
     (repeat 0 148) (repeat 9 200) ex_rd ex_att = Ok (m, [1; 10; 20; 30], St_OK).
Proof.
  split; [unfold wf_access; lits|]. split; [unfold wf_access; lits|].
  split; [intros x; reflexivity|].
  eexists. split; vm_compute; reflexivity.
Qed.

(** C09.  Whatever attribute word comes back, the initiator reports OK exactly when
    the response field is 0, an address error exactly when it is 2, and a generic
    error otherwise.  With C08: OK iff the target said OK. *)
Theorem C09_response_classes : forall id g r b e d st,
  r_pl r = PBus b e -> slave_finish id g r = Ok (d, st) ->
  (st = St_OK <-> (b_attr b / 256) mod 16 = 0) /\
  (st = St_ADDRESS <-> (b_attr b / 256) mod 16 = 2) /\
  (st = St_OK \/ st = St_ADDRESS \/ st = St_GENERIC).
Proof. exact finish_status. Qed.
Print Assumptions C09_response_classes.

Theorem C09_failure_never_reported_as_success :
  forall S (t : target S) pl pr s id dev clk1 clk2 buf1 buf2 g a s' d st d' st',
  wf_access g a id dev clk1 -> clk2 < u64 -> a_posted a = false -> g_be g = None ->
  rxbuf_ok buf1 -> rxbuf_ok buf2 -> target_ok t ->
  t s (at_target g) (attrs_at_target a) = (s', d, st) ->
  remote_access pl pr t s id dev clk1 clk2 buf1 buf2 g a = Ok (s', d', st') ->
  (st' = St_OK <-> st = St_OK) /\ (st' = St_ADDRESS <-> st = St_ADDRESS).
Proof.
  intros S t pl pr s id dev clk1 clk2 buf1 buf2 g a s' d st d' st' H1 H2 H3 H4 H5 H6 H7 E R.
  rewrite (access_ok t pl pr s id dev clk1 clk2 buf1 buf2 g a s' d st H1 H2 H3 H4 H5 H6 H7 E) in R.
  injection R as _ <-. destruct st; cbn; intuition discriminate.
Qed.
Print Assumptions C09_failure_never_reported_as_success.

Example C09_case :
  remote_access ex_new ex_new (mem_target 4096 4097) (fun _ => 1) 5 1 1000 2000
     (repeat 0 148) (repeat 9 200) ex_wr ex_att = Ok ((fun _ => 1), [10; 20; 30], St_ADDRESS).
Proof. vm_compute. reflexivity. Qed.

(** C37.  Of the attributes, IO access is lost on the way (the others arrive: C08,
    [attrs_at_target]). *)
Theorem C37_io_access_refuted : exists (t : target bool) g a,
  wf_access g a 5 1 1000 /\ a_io a = true /\
  (forall s g a, t s g a = (a_io a, g_data g, St_OK)) /\
  remote_access ex_new ex_new t true 5 1 1000 2000 (repeat 0 148) (repeat 0 148) g a
  = Ok (false, g_data g, St_OK).
Proof.
  exists (fun s g a => (a_io a, g_data g, St_OK)), ex_wr, (mkAttr false 77 true true true false).
  split; [unfold wf_access; lits|]. split; [reflexivity|]. split; [reflexivity|].
  vm_compute. reflexivity.
Qed.
Print Assumptions C37_io_access_refuted.

Theorem C37_attributes_partial :
  forall S (t : target S) pl pr s id dev clk1 clk2 buf1 buf2 g a,
  wf_access g a id dev clk1 -> clk2 < u64 -> a_posted a = false -> g_be g = None ->
  rxbuf_ok buf1 -> rxbuf_ok buf2 -> target_ok t ->
  exists a', a_posted a' = a_posted a /\ a_master a' = a_master a /\ a_eop a' = a_eop a /\
    a_secure a' = a_secure a /\
    exists d st, remote_access pl pr t s id dev clk1 clk2 buf1 buf2 g a =
      Ok (fst (fst (t s (at_target g) a')), d, st).
Proof.
  intros S t pl pr s id dev clk1 clk2 buf1 buf2 g a H1 H2 H3 H4 H5 H6 H7.
  exists (attrs_at_target a). do 4 (split; [reflexivity|]).
  destruct (t s (at_target g) (attrs_at_target a)) as [[s' d] st] eqn:E.
  do 2 eexists. exact (access_ok t pl pr s id dev clk1 clk2 buf1 buf2 g a s' d st H1 H2 H3 H4 H5 H6 H7 E).
Qed.
Print Assumptions C37_attributes_partial.

(** C38.  A posted write is carried out with its data, but the status the initiator
    sees is whatever it was before: never OK for a fresh payload. *)
Theorem C38_posted_write_partial :
  forall S (t : target S) pl pr s id dev clk1 clk2 buf1 buf2 g a s' d st,
  wf_access g a id dev clk1 -> a_posted a = true -> g_cmd g = C_WRITE -> g_be g = None ->
  rxbuf_ok buf1 ->
  t s (at_target g) (attrs_at_target a) = (s', d, st) ->
  remote_access pl pr t s id dev clk1 clk2 buf1 buf2 g a = Ok (s', g_data g, g_status g).
Proof. exact @posted_ok. Qed.
Print Assumptions C38_posted_write_partial.

Theorem C38_posted_status_refuted : exists g a m m' d st,
  wf_access g a 5 1 1000 /\ a_posted a = true /\ g_cmd g = C_WRITE /\
  mem_target 0 8192 m (at_target g) a = (m', d, St_OK) /\
  remote_access ex_new ex_new (mem_target 0 8192) m 5 1 1000 2000 (repeat 0 148) (repeat 0 148) g a
  = Ok (m', d, st) /\ st <> St_OK.
Proof.
  exists ex_wr, (mkAttr true 77 true true false false), (fun _ => 1). do 3 eexists.
  split; [unfold wf_access; lits|]. split; [reflexivity|]. split; [reflexivity|].
  split; [reflexivity|]. split; [vm_compute; reflexivity|discriminate].
Qed.
Print Assumptions C38_posted_status_refuted.

(** C39.  Not every access keeps the stream in step.  An access with command IGNORE
    announces its data but does not send them: the next packet is swallowed. *)
Theorem C39_ignore_desync_refuted : exists g a bytes rest r rest',
  g_cmd g = C_IGNORE /\ slave_send ex_new 5 1 1000 g a = Ok (S_wait bytes) /\
  rest = rp_encode_sync 6 0 2000 0 /\
  rx_one (repeat 0 148) (bytes ++ rest) = Ok (r, rest') /\ rest' <> rest.
Proof.
  exists (mkGp C_IGNORE 4096 (repeat 3 12) None 12 St_INCOMPLETE), ex_att. do 4 eexists.
  split; [reflexivity|]. split; [vm_compute; reflexivity|]. split; [reflexivity|].
  split; [vm_compute; reflexivity|]. vm_compute. discriminate.
Qed.
Print Assumptions C39_ignore_desync_refuted.

(** With a peer that announced byte enables but not the extended layout, the
    byte-enable bytes are sent but not counted. *)
Theorem C39_byte_enable_desync_refuted : exists p g a bytes r rest,
  p = mkCaps false true false false /\ g_be g = Some [255; 0] /\
  slave_send p 5 1 1000 g a = Ok (S_wait bytes) /\
  rx_one (repeat 0 148) bytes = Ok (r, rest) /\ rest <> [].
Proof.
  exists (mkCaps false true false false), (mkGp C_WRITE 4096 [1; 2] (Some [255; 0]) 2 St_INCOMPLETE),
    ex_att. do 3 eexists.
  split; [reflexivity|]. split; [reflexivity|]. split; [vm_compute; reflexivity|].
  split; [vm_compute; reflexivity|]. discriminate.
Qed.
Print Assumptions C39_byte_enable_desync_refuted.
