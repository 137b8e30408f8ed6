(** Model of libremote-port/safeio.c (rp_safe_read, rp_safe_write) and of the
    rp_read/rp_write wrappers of remote-port-tlm.cc.  The operating system is a
    list of results of the successive read(2)/write(2) calls. *)
From Verif Require Import Base RpProtoModel.
Open Scope nat_scope.

(** Result of one system call.  [Some_bytes k]: up to k+1 bytes are transferred
    (never more than asked for or available).  [Zero]: 0 is returned (end of
    file).  [Eintr], [Eagain], [Eother]: -1 with that errno. *)
Inductive os := Some_bytes (k : nat) | Zero | Eintr | Eagain | Eother.

(** Outcome: returned count with the bytes transferred so far, what is left of
    the oracle and of the stream; -1; or still blocked in a call. *)
Inductive io :=
| Ret (done : list N) (evs : list os) (stream : list N)
| Fail
| Blocked.

(** safeio.c:50-67 rp_safe_read; [done] are the bytes already in the buffer.
    On an empty stream every read returns 0.  A [continue] in the do-while goes
    to the loop test with r = -1, i.e. loops iff rlen < count. *)
Fixpoint safe_read (evs : list os) (stream done : list N) (count : nat) : io :=
  match evs with
  | [] => Blocked
  | e :: evs' =>
    match e with
    | Eintr => if length done <? count then safe_read evs' stream done count
               else Ret done evs' stream
    | Eagain | Eother => Fail
    | Zero => Ret done evs' stream
    | Some_bytes k =>
      let n := Nat.min (S k) (count - length done) in
      let got := firstn n stream in
      let done' := done ++ got in
      let stream' := skipn n stream in
      if (length done' <? count) && negb (length got =? 0)
      then safe_read evs' stream' done' count
      else Ret done' evs' stream'
    end
  end.

(** safeio.c:69-89 rp_safe_write: [rest] is the unsent part of the buffer, [sent]
    what went out.  The returned count is the length of [sent]. *)
Fixpoint safe_write (evs : list os) (rest sent : list N) : io :=
  match evs with
  | [] => Blocked
  | e :: evs' =>
    match e with
    | Eintr => match rest with [] => Ret sent evs' rest | _ => safe_write evs' rest sent end
    | Eagain => Ret sent evs' rest
    | Eother => Fail
    | Zero => match rest with [] => Ret sent evs' rest | _ => safe_write evs' rest sent end
    | Some_bytes k =>
      let sent' := sent ++ firstn (S k) rest in
      let rest' := skipn (S k) rest in
      match rest' with
      | [] => Ret sent' evs' []
      | _ => safe_write evs' rest' sent'
      end
    end
  end.

(** remote-port-tlm.cc:413-424 rp_read: exit on a short count (AssertFail) or
    error; None while blocked. *)
Definition rp_read (evs : list os) (stream : list N) (count : nat)
  : option (res (list N * list os * list N)) :=
  match safe_read evs stream [] count with
  | Blocked => None
  | Fail => Some AssertFail
  | Ret d evs' st => Some (if length d <? count then AssertFail else Ok (d, evs', st))
  end.

(** remote-port-tlm.cc:520-543 with rp_read at the mercy of the OS: like
    RpProtoModel.rx_one, but the bytes come from [rp_read]. *)
Definition rx_one_os (evs : list os) (buf stream : list N)
  : option (res (rxpkt * list os * list N)) :=
  match rp_read evs stream 20 with
  | None => None
  | Some (Ok (hd, evs1, st1)) =>
    let buf1 := overlay 0 hd buf in
    let h := rp_decode_hdr buf1 in
    let n := N.to_nat (h_len h) in
    let buf2 := pkt_alloc (20 + n) buf1 in
    match rp_read evs1 st1 n with
    | None => None
    | Some (Ok (pay, evs2, st2)) =>
      let buf3 := overlay 20 pay buf2 in
      Some (rbind (rp_decode_payload h buf3) (fun '(pl, used) =>
              Ok (mkRx h pl used buf3, evs2, st2)))
    | Some AssertFail => Some AssertFail
    | Some UB => Some UB
    | Some Unmodelled => Some Unmodelled
    end
  | Some AssertFail => Some AssertFail
  | Some UB => Some UB
  | Some Unmodelled => Some Unmodelled
  end.
