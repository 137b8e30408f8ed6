(** Blocking read and write over an arbitrary operating system schedule. *)
From Verif Require Import Base RpProtoModel RpIoModel RpIoSpec RpIoProofs PropsRpProto.
Open Scope nat_scope.

(** C04.  A read of [n] that returns has returned the next bytes of the stream, in
    order, and left the others; fewer than [n] only at the end of file. *)
Theorem C04_read_returns_next_bytes : forall evs stream n d evs' st,
  safe_read evs stream [] n = Ret d evs' st ->
  stream = d ++ st /\ length d <= n /\
  exists used, evs = used ++ evs' /\ Forall good_or_eof used /\
    (length d < n -> In Zero used \/ st = []).
Proof.
  intros evs stream n d evs' st H. apply safe_read_sound in H; [|apply Nat.le_0_l].
  destruct H as (got & used & -> & -> & -> & H1 & H2 & H3). cbn in *. eauto 10.
Qed.
Print Assumptions C04_read_returns_next_bytes.

(** It fails only on an error other than EINTR. *)
Theorem C04_read_fails_only_on_error : forall evs stream n,
  safe_read evs stream [] n = Fail -> In Eagain evs \/ In Eother evs.
Proof. intros evs stream n. exact (safe_read_fail evs stream [] n). Qed.
Print Assumptions C04_read_fails_only_on_error.

(** It does return all [n] bytes if the OS goes on delivering, in whatever pieces
    and with whatever interruptions. *)
Theorem C04_read_completes : forall evs stream n,
  n <= length stream -> Forall good evs -> Nat.max 1 n <= calls evs ->
  exists evs', safe_read evs stream [] n = Ret (firstn n stream) evs' (skipn n stream).
Proof.
  intros evs stream n H1 H2 H3.
  destruct (safe_read_complete evs stream [] n) as (evs' & R); cbn; try rewrite Nat.sub_0_r;
    auto using Nat.le_0_l.
  exists evs'. cbn [length] in R. rewrite Nat.sub_0_r in R. exact R.
Qed.
Print Assumptions C04_read_completes.

Example C04_case :
  safe_read [Eintr; Some_bytes 1; Eintr; Eintr; Some_bytes 0; Some_bytes 9]
    [1; 2; 3; 4; 5; 6]%N [] 5 = Ret [1; 2; 3; 4; 5]%N [] [6]%N
  /\ safe_read [Some_bytes 1; Zero] [1; 2; 3]%N [] 3 = Ret [1; 2]%N [] [3]%N.
Proof. split; reflexivity. Qed.

(** C04 for packets: whatever the schedule, the receiver sees the packet that is at
    the head of the byte stream, and an error-free schedule does deliver it. *)
Theorem C04_packet_reception_schedule_independent : forall evs buf stream r evs' rest,
  rx_one_os evs buf stream = Some (Ok (r, evs', rest)) -> rx_one buf stream = Ok (r, rest).
Proof. exact rx_one_os_sound. Qed.
Print Assumptions C04_packet_reception_schedule_independent.

Theorem C04_packet_reception_completes : forall evs buf stream r rest,
  rx_one buf stream = Ok (r, rest) -> Forall good evs -> 2 + length stream <= calls evs ->
  exists evs', rx_one_os evs buf stream = Some (Ok (r, evs', rest)).
Proof. exact rx_one_os_complete. Qed.
Print Assumptions C04_packet_reception_completes.

Example C04_packet_case :
  let bytes := rp_encode_sync 10 0 100 0 in
  exists r evs',
    rx_one_os ([Eintr; Some_bytes 3; Some_bytes 7] ++ repeat (Some_bytes 2) 30)
      (repeat 0%N 148) bytes = Some (Ok (r, evs', [])) /\ r_pl r = PSync 100.
Proof. do 2 eexists. split; [vm_compute; reflexivity|reflexivity]. Qed.

(** C05.  What was sent is a prefix of the buffer, its length is the returned
    count, and it is short only after EAGAIN. *)
Theorem C05_write_sends_prefix : forall evs buf d evs' left,
  safe_write evs buf [] = Ret d evs' left ->
  buf = d ++ left /\
  exists used, evs = used ++ evs' /\ (left <> [] -> In Eagain used).
Proof.
  intros evs buf d evs' left H. apply safe_write_sound in H.
  destruct H as (out & used & -> & -> & -> & H). cbn. eauto.
Qed.
Print Assumptions C05_write_sends_prefix.

Theorem C05_write_fails_only_on_error : forall evs buf,
  safe_write evs buf [] = Fail -> In Eother evs.
Proof. intros evs buf. exact (safe_write_fail evs buf []). Qed.
Print Assumptions C05_write_fails_only_on_error.

Theorem C05_write_completes : forall evs buf,
  Forall good evs -> Nat.max 1 (length buf) <= calls evs ->
  exists evs', safe_write evs buf [] = Ret buf evs' [].
Proof. intros evs buf. exact (safe_write_complete evs buf []). Qed.
Print Assumptions C05_write_completes.

Example C05_case :
  safe_write [Some_bytes 1; Eintr; Some_bytes 0; Some_bytes 9] [1; 2; 3; 4; 5]%N []
  = Ret [1; 2; 3; 4; 5]%N [] []
  /\ safe_write [Some_bytes 1; Eagain] [1; 2; 3]%N [] = Ret [1; 2]%N [] [3]%N.
Proof. split; reflexivity. Qed.
