(** Model of tlm-bridges/axi2tlm-bridge.h (class axi2tlm_bridge), ACE_MODE_OFF.

    Modelled: the Transaction constructor (l.261-356), GetDataLen (l.374-381),
    FillData (l.393-426), GetData (l.428-478), TryDropBE (l.512-532), the
    response codes of read_data_phase (l.966-982) and write_resp_phase
    (l.1276-1292), the signals sampled by the address phases (l.894-906,
    l.1095-1107) and the end of a write burst (l.1222-1236); further down the
    scheduling of transactions (l.656-848).  Reset, the reserved burst type and
    beats wider than the bus are not modelled. *)
From Verif Require Import Base TlmModel TlmSpec AxiSpec.
Open Scope N_scope.

(** Address channel signals. *)
Record asig := mkSig { s_burst : aburst; s_id : N; s_prot : N; s_lock : N }.

(** The attributes set; AXI_PROT_NS is 2. *)
Record aattr := mkAattr { at_ns : bool; at_bw : N; at_id : N; at_excl : bool; at_wrap : bool }.

Definition align (a n : N) : N := a / n * n.

Definition data_len (B : N) (b : aburst) : N :=
  let nb := b_bytes b in
  match b_kind b with
  | B_FIXED => b_beats b * B
  | _ => nb - (b_addr b - align (b_addr b) nb) + (b_beats b - 1) * nb
  end.
Definition tr_addr (B : N) (b : aburst) : N :=
  match b_kind b with B_FIXED => align (b_addr b) B | _ => b_addr b end.
Definition tr_sw (B : N) (b : aburst) : N :=
  match b_kind b with
  | B_FIXED => B
  | B_INCR => data_len B b
  | B_WRAP => b_bytes b * b_beats b
  end.
Definition tr_attr (s : asig) (prot : N) : aattr :=
  mkAattr (N.land prot 2 =? 2) (b_bytes (s_burst s)) (s_id s) (s_lock s =? 1)
          (match b_kind (s_burst s) with B_WRAP => true | _ => false end).

(** FillData: entries of the data and byte-enable arrays filled so far, in
    order; the byte of a disabled entry is what the buffer held ([junk]). *)
Definition fill_beat (B len addr : N) (first : bool) (junk : nat -> N) (filled : list (bool * N)) (w : wbeat)
  : list (bool * N) :=
  let i0 := if first then N.to_nat (addr - align addr B) else 0%nat in
  filled ++ firstn (N.to_nat len - length filled)
    (map (fun l => if nth l (w_strb w) false then (true, nth l (w_data w) 0)
                   else (false, junk (length filled + (l - i0))%nat))
         (seq i0 (N.to_nat B - i0))).
Fixpoint fill_beats (B len addr : N) (first : bool) (junk : nat -> N) (filled : list (bool * N)) (ws : list wbeat) :=
  match ws with
  | [] => filled
  | w :: ws' => fill_beats B len addr false junk (fill_beat B len addr first junk filled w) ws'
  end.

(** TryDropBE: the byte-enable array, if any byte is disabled. *)
Definition entries_be (f : list (bool * N)) : option (list N) :=
  if forallb fst f then None
  else Some (map (fun e : bool * N => if fst e then BE_ON else BE_OFF) f).

(** A write burst: the payload and attributes handed to the target.  [ar] is what
    the read address channel holds at the time: l.1102 samples arprot.  Byte
    enables never filled in would be read uninitialised by TryDropBE. *)
Definition a2t_write (B : N) (aw ar : asig) (junk : nat -> N) (ws : list wbeat) : res (gp * aattr) :=
  let b := s_burst aw in
  let len := data_len B b in
  if negb (N.of_nat (length ws) =? b_beats b) then Unmodelled
  else if negb (w_last (last ws (mkW [] [] false))) then AssertFail
  else
    let f := fill_beats B len (tr_addr B b) true junk [] ws in
    if N.of_nat (length f) <? len then UB
    else
      Ok (mkGp C_WRITE (tr_addr B b) (map snd f) (entries_be f) (tr_sw B b) St_INCOMPLETE,
          tr_attr aw (s_prot ar)).

(** A read burst before the target is called. *)
Definition a2t_read (B : N) (ar : asig) (junk : nat -> N) : gp * aattr :=
  let b := s_burst ar in
  (mkGp C_READ (tr_addr B b) (map junk (seq 0 (N.to_nat (data_len B b)))) None (tr_sw B b) St_INCOMPLETE,
   tr_attr ar (s_prot ar)).

(** GetData: lanes of beat [beat], counted from one; lanes not set keep what rdata
    held.  Result: lanes and number of bytes taken. *)
Definition beat_lanes (B : N) (b : aburst) (beat : N) : N * N :=
  match b_kind b with
  | B_FIXED => (0, B - 1)
  | _ =>
    let nb := b_bytes b in
    let addr := b_addr b in
    let al := align addr nb in
    if beat =? 1 then (addr - align addr B, al + (nb - 1) - align addr B)
    else let a := al + (beat - 1) * nb in
         let lo := a - align a B in (lo, lo + (nb - 1))
  end.
Definition get_data (B : N) (b : aburst) (beat idx : N) (data prev : list N) : list N * N :=
  let '(lo, up) := beat_lanes B b beat in
  (map (fun i => if (lo <=? N.of_nat i) && (N.of_nat i <=? up)
                 then nth (N.to_nat (idx + (N.of_nat i - lo))) data 0 else nth i prev 0)
       (seq 0 (N.to_nat B)),
   N.min (up + 1) B - lo).

(** read_data_phase, l.1011-1032: the beats with RLAST; reading past the data
    buffer is undefined. *)
Fixpoint read_out (n : nat) (B : N) (b : aburst) (beat idx : N) (data prev : list N)
  : res (list (list N * bool)) :=
  match n with
  | O => Ok []
  | S n' =>
    let '(l, k) := get_data B b beat idx data prev in
    if N.of_nat (length data) <? idx + k then UB
    else rmap (cons (l, beat =? b_beats b)) (read_out n' B b (beat + 1) (idx + k) data l)
  end.
Definition a2t_rdata (B : N) (b : aburst) (data prev : list N) : res (list (list N * bool)) :=
  read_out (N.to_nat (b_beats b)) B b 1 0 data prev.

(** RRESP and BRESP, l.966-982 and l.1276-1292. *)
Definition a2t_resp (st : status) (excl handled : bool) : N :=
  match st with
  | St_ADDRESS => 3
  | St_GENERIC => 2
  | _ => if excl && handled then 1 else 0
  end.

(** read_data_phase in ACE mode, l.966-1007.  A signal: current and next value;
    read() returns the current one until the next delta cycle. *)
Record signal := mkSigv { sg_cur : N; sg_new : N }.
Definition sg_write (s : signal) (v : N) : signal := mkSigv (sg_cur s) v.
Definition sg_update (s : signal) : signal := mkSigv (sg_new s) (sg_new s).
(** [waited]: the snoop channel was busy, so time passed before l.1003.  Bits 2
    and 3 are PassDirty and IsShared. *)
Definition ace_rresp (rresp : signal) (st : status) (excl handled dirty shared waited : bool) : signal :=
  let s1 := sg_write rresp (a2t_resp st excl handled) in
  let tmp := sg_cur s1 in
  let s2 := if waited then sg_update s1 else s1 in
  sg_update (sg_write s2 (tmp mod 4 + (if dirty then 4 else 0) + (if shared then 8 else 0))).
