(** Model of /repo/rtl-bridges/pcie-host/axi/tlm/tlm2axi-hw-bridge.h and of the helpers it
    uses from tlm-hw-bridge-base.h and /repo/tlm-bridges/amba.h: how a TLM transaction is put
    into the descriptor and the memories of the bridge in hardware, and how its result is read
    back.

    The memory of the device is a function from byte offsets to bytes.  The registers of the
    descriptor are collected in a record instead of being written one by one.  The hardware
    between the two flips of the ownership is a parameter.  Simplified: unsigned int does not
    overflow (sizes far below 2^29); the device accepts each access (dev_access, base l.319-370,
    asserts it); a byte enable pointer is null exactly when its length is 0; the mutex, the
    waits and the interrupt (l.410-420) are left out. *)
From Coq Require Import ZArith.
From Verif Require Import Base RegapiModel.
Open Scope N_scope.

(** The memories of the bridge, as used in tlm2axi-hw-bridge.h l.246, l.456, l.464
    (values: private/user_master_addr.h l.194-196) *)
Definition DRAM_READ : N := 0x8000.
Definition DRAM_WRITE : N := 0xC000.
Definition DRAM_WSTRB : N := 0x10000.

Definition mem := N -> N.
(** dev_copy_to, base l.418-423: n bytes of a buffer *)
Definition put (m : mem) (a n : N) (d : mem) : mem :=
  fun x => if (a <=? x) && (x <? a + n) then d (x - a) else m x.
(** dev_write32, base l.380-387 *)
Definition put32 (m : mem) (a v : N) : mem := put m a 4 (fun k => N.shiftr v (8 * k) mod 256).
(** dev_read32, base l.372-378 *)
Definition get32 (m : mem) (a : N) : N :=
  m a + 256 * m (a + 1) + 65536 * m (a + 2) + 16777216 * m (a + 3).

(** l.278-292: j counts from 4 - n *)
Fixpoint be_word (n : nat) (j v off size bit : N) (be : N -> bool) (be_len : N) : N :=
  match n with
  | O => v
  | S n' =>
      let p := bit + j in
      if p <? off then be_word n' (j + 1) v off size bit be be_len
      else if off + size <=? p then v
      else be_word n' (j + 1)
             (if be ((p - off) mod be_len) then N.lor v (N.shiftl 255 (j * 8)) else v)
             off size bit be be_len
  end.
(** l.262-293: one word of strobes, for the byte positions bit .. bit + 3 *)
Definition strb_word (off size bit : N) (be : N -> bool) (be_len : N) : N :=
  if be_len =? 0 then
    (if bit <=? off then mask64 ((off - bit) * 8) (N.min size 4 * 8)
     else if bit - off <? size then mask64 0 ((size - (bit - off)) * 8)
     else 0) mod u32
  else be_word 4 0 0 off size bit be be_len.
(** l.258-300: the words of one beat *)
Fixpoint strb_lanes (n : nat) (m : mem) (bit off size : N) (be : N -> bool) (be_len : N) : mem :=
  match n with
  | O => m
  | S n' => strb_lanes n' (put32 m (DRAM_WSTRB + bit) (strb_word off size bit be be_len))
              (bit + 4) off size be be_len
  end.
(** l.257-301: the beats; a beat has (W + 3) / 4 words *)
Fixpoint strb_beats (n : nat) (m : mem) (W bit off size : N) (be : N -> bool) (be_len : N) : mem :=
  match n with
  | O => m
  | S n' =>
      let k := (W + 3) / 4 in
      strb_beats n' (strb_lanes (N.to_nat k) m bit off size be be_len) W (bit + 4 * k) off size be be_len
  end.
(** l.254, l.343 *)
Definition nr_beats (W off size : N) : N := (off + size + W - 1) / W.
(** desc_setup_wstrb, l.240-302 *)
Definition setup_wstrb (W : N) (m : mem) (addr size : N) (be : N -> bool) (be_len : N) : mem :=
  let off := addr mod W in
  strb_beats (N.to_nat (nr_beats W off size)) m W 0 off size be be_len.

(** map_size_to_axsize, amba.h l.75-96; None is -1 *)
Definition axsize_of (size : N) : option N :=
  if size =? 128 then Some 7 else if size =? 64 then Some 6 else if size =? 32 then Some 5
  else if size =? 16 then Some 4 else if size =? 8 then Some 3 else if size =? 4 then Some 2
  else if size =? 2 then Some 1 else if size =? 1 then Some 0 else None.
(** map_size_to_nearest_axsize, amba.h l.107-126 *)
Definition nearest_axsize (size : N) : res N :=
  if size =? 1 then Ok 0 else if size =? 2 then Ok 1 else if size <=? 4 then Ok 2
  else if size <=? 8 then Ok 3 else if size <=? 16 then Ok 4 else if size <=? 32 then Ok 5
  else if size <=? 64 then Ok 6 else if size <=? 128 then Ok 7 else AssertFail.

Record gattr : Type := mkGattr { ga_secure : bool; ga_qos : N; ga_region : N }.
(** compute_attr, l.304-325; [None]: no extension *)
Definition compute_attr (a : option gattr) : N :=
  match a with
  | None => 0
  | Some a =>
      N.lor (N.lor (N.shiftl (N.b2n (ga_secure a)) 9) (N.shiftl (ga_qos a) 11))
            (N.shiftl (ga_region a) 15) mod u32
  end.
(** How the bridge for the other direction reads such a register: axi2tlm-hw-bridge.h l.331,
    l.340-341, l.347 (AXI_PROT_NS is 2, amba.h l.48) and genattr.h l.236-239 *)
Definition slave_secure (attr : N) : bool := negb (N.testbit (N.land (N.shiftr attr 8) 7) 1).
Definition slave_qos (attr : N) : N := N.land (N.shiftr attr 11) 15.

(** The registers of a descriptor, l.388-408 *)
Record desc : Type := mkDesc {
  d_addr_lo : N; d_addr_hi : N; d_data_off : N; d_attr : N; d_size : N; d_axsize : N; d_type : N }.

Definition is_none {A} (o : option A) : bool := match o with None => true | Some _ => false end.
(** desc_access, l.327-408: the memory and the descriptor that the hardware gets *)
Definition desc_setup (W : N) (lite : bool) (m : mem) (addr : N) (wr : bool) (size : N)
    (be : N -> bool) (be_len : N) (a : option gattr) : res (mem * desc) :=
  let off := addr mod W in
  let total := nr_beats W off size * W in
  let ax := if (size <=? W) && negb lite then axsize_of size else None in
  let off := if is_none ax then off else 0 in
  let need := (is_none ax || negb (be_len =? 0)) && wr in
  let m := if need then setup_wstrb W m addr size be be_len else m in
  rbind (if lite then match axsize_of W with Some s => Ok s | None => AssertFail end
         else match ax with
              | Some s => Ok s
              | None => if W <=? off + size then nearest_axsize W else nearest_axsize (off + size)
              end) (fun s =>
  Ok (m, mkDesc (addr mod u32) (N.shiftr addr 32 mod u32) DRAM_WRITE
           (N.lor (compute_attr a) 1) total s
           (N.lor (if wr then 0 else 1) (if need then 2 else 0)))).

(** dev_copy_from, base l.448-453: n bytes of the word v, from position pos *)
Fixpoint copy_in (n : nat) (pos v : N) (be : N -> bool) (be_len : N) (buf : mem) : mem :=
  match n with
  | O => buf
  | S n' => copy_in n' (pos + 1) (v / 256) be be_len
              (if be (pos mod be_len) then (fun x => if x =? pos then v mod 256 else buf x) else buf)
  end.
(** base l.439-461; each turn copies at least one byte, so that len turns suffice *)
Fixpoint copy_loop (fuel : nat) (m : mem) (i wo offset len : N) (be : N -> bool) (be_len : N)
    (buf : mem) : mem :=
  match fuel with
  | O => buf
  | S f =>
      if i <? len then
        let n := N.min (len - i) (4 - wo) in
        copy_loop f m (i + n) 0 (offset + 4) len be be_len
          (copy_in (N.to_nat n) i (get32 m offset / 256 ^ wo) be be_len buf)
      else buf
  end.
(** dev_copy_from, base l.425-462 *)
Definition copy_from (m : mem) (offset len : N) (be : N -> bool) (be_len : N) (buf : mem) : mem :=
  if be_len =? 0 then fun x => if x <? len then m (offset + x) else buf x
  else
    let wo := offset mod 4 in
    copy_loop (N.to_nat len) m 0 wo (offset - wo) len be be_len buf.

Inductive status : Type := TLM_OK | TLM_ADDRESS_ERROR | TLM_GENERIC_ERROR | TLM_BURST_ERROR.
(** tlm_gp_set_axi_resp, amba.h l.130-153 (AXI_DECERR is 3, l.37) *)
Definition axi_status (r : N) : status :=
  if (r =? 0) || (r =? 1) then TLM_OK else if r =? 3 then TLM_ADDRESS_ERROR else TLM_GENERIC_ERROR.

Record txn : Type := mkTxn {
  t_wr : bool; t_addr : N; t_len : N; t_sw : N; t_data : mem;
  t_be : N -> bool;       (* be[i] == TLM_BYTE_ENABLED *)
  t_be_len : N; t_attr : option gattr }.

Record outcome : Type := mkOut {
  o_given : option (mem * desc);   (* what the hardware got *)
  o_data : mem;                    (* the buffer of the transaction *)
  o_status : status }.

(** b_transport, l.427-484, with descriptor 0 (l.461); [hw] is what the hardware does: the
    memory afterwards and the register STATUS_RESP *)
Definition b_transport (W base : N) (lite : bool) (hw : mem -> desc -> mem * N) (m : mem)
    (t : txn) : res outcome :=
  if negb (t_sw t =? 0) && (t_sw t <? t_len t) then Ok (mkOut None (t_data t) TLM_BURST_ERROR)
  else
    let addr := (t_addr t + base) mod u64 in
    let off := addr mod W in
    let m := if t_wr t then put m (DRAM_WRITE + off) (t_len t) (t_data t) else m in
    rbind (desc_setup W lite m addr (t_wr t) (t_len t) (t_be t) (t_be_len t) (t_attr t))
      (fun '(m1, d) =>
    let '(m2, sr) := hw m1 d in
    let resp := N.land sr 3 in
    let buf :=
      if negb (t_wr t) && ((resp =? 0) || (resp =? 1))
      then copy_from m2 (DRAM_READ + off) (t_len t) (t_be t) (t_be_len t) (t_data t)
      else t_data t in
    Ok (mkOut (Some (m1, d)) buf (axi_status resp))).

(** configure_aligner, l.159-184, called without a test by reset_thread (l.197); the aligner
    exists only with aligner_enable (l.130, l.134-146): the largest length it lets through *)
Inductive kind : Type := AXI3 | AXI4 | AXI4LITE.
Definition max_burstlen (k : kind) : N :=
  match k with AXI3 => 16 - 1 | AXI4 => 256 - 1 | AXI4LITE => 1 end.
Definition configure_aligner (enabled : bool) (k : kind) (W : N) : res N :=
  if enabled then Ok (max_burstlen k * W) else UB.
