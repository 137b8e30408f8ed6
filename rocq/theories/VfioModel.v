(** Model of the bridge from TLM to a device mapped through VFIO:
    /repo/tlm-bridges/tlm2vfio-bridge.h l.46-310, with the copies of
    /repo/utils/dev-access.h l.35-101. *)
From Coq Require Import ZArith.
From Verif Require Import Base.
Open Scope N_scope.

(** What the device sees: one access of [len] bytes at [off] of the region, or a memcpy, whose
    accesses are not specified; [wr] tells writes from reads. *)
Inductive op :=
| Single (wr : bool) (off len : N)
| Copy (wr : bool) (off len : N).

(** Contents of the mapped region by offset *)
Definition mem := N -> N.

(** [n] bytes of the region from [off] *)
Fixpoint get (m : mem) (off : N) (n : nat) : list N :=
  match n with
  | O => []
  | S n' => m off :: get m (off + 1) n'
  end.

(** The region after the bytes [l] were stored from [off] on *)
Fixpoint put (m : mem) (off : N) (l : list N) : mem :=
  match l with
  | [] => m
  | b :: l' => put (fun i => if i =? off then b else m i) (off + 1) l'
  end.

(** An integer of the host in memory and back; [big]: a big endian host *)
Definition load (big : bool) (l : list N) : N := if big then be_dec l else le_dec l.
Definition store (big : bool) (k : nat) (v : N) : list N := if big then be_enc k v else le_enc k v.

(** The access is made with one load or store: dev-access.h l.49, l.52-57 and l.85, l.89-94; [addr]
    is the address in the host *)
Definition single (addr len : N) : bool :=
  (len =? 1)
  || (len =? 2) && (N.land addr 1 =? 0)
  || (len =? 4) && (N.land addr 3 =? 0)
  || (len =? 8) && (N.land addr 7 =? 0).

(** memcpy_from_io: dev-access.h l.35-65; [base] is the host address of the region *)
Definition from_io (big : bool) (base : N) (m : mem) (off : N) (len : nat) : list N * list op :=
  let n := N.of_nat len in
  if n =? 1 then (get m off 1, [Single false off 1])                        (* l.49-50 *)
  else if single (base + off) n
  then (firstn len (store big 8 (load big (get m off len))), [Single false off n]) (* l.52-57, l.63 *)
  else (get m off len, [Copy false off n]).                                 (* l.60 *)

(** memcpy_to_io: dev-access.h l.67-101.  The union v holds the bytes of the buffer in their
    order (l.88) and its members are stored in the same order (l.90-94). *)
Definition to_io (base : N) (m : mem) (off : N) (data : list N) : mem * list op :=
  let n := N.of_nat (length data) in
  if single (base + off) n
  then (put m off data, [Single true off n])                                (* l.85-94 *)
  else (put m off data, [Copy true off n]).                                 (* l.97 *)

Inductive status := Incomplete | OkResp | ByteEnableError | BurstError | GenericError.

(** Transaction; [t_be]: it has byte enables *)
Record trans := mkTrans {
  t_addr : N; t_write : bool; t_data : list N; t_be : bool; t_sw : N; t_status : status;
  t_dmi : bool }.

(** Bridge: l.142-144, the mapping of its region and the endianness of its host *)
Record cfg := mkCfg { c_base : N; c_size : N; c_offset : N; c_big : bool }.

(** b_transport: tlm2vfio-bridge.h l.251-298.  An access outside of the mapping is UB.  The
    flag of the result tells whether irq_ack is called (l.293-294). *)
Definition b_transport (c : cfg) (m : mem) (t : trans) : res (trans * mem * list op * bool) :=
  let len := N.of_nat (length (t_data t)) in
  let answer (d : list N) (s : status) (dmi : bool) :=
    mkTrans (t_addr t) (t_write t) d (t_be t) (t_sw t) s dmi in
  if t_be t then Ok (answer (t_data t) ByteEnableError (t_dmi t), m, [], false)   (* l.265-268 *)
  else if negb (t_sw t =? 0) && (t_sw t <? len)
  then Ok (answer (t_data t) BurstError (t_dmi t), m, [], false)                  (* l.270-273 *)
  else
    let addr := (t_addr t + c_offset c) mod u64 in                                (* l.275 *)
    (* l.277-279 set a status that l.297 overwrites: there is no return *)
    if c_size c <? addr + len then UB
    else if t_write t then
      let '(m', ops) := to_io (c_base c) m addr (t_data t) in                     (* l.282 *)
      Ok (answer (t_data t) OkResp true, m', ops, len <? 8)                       (* l.293-297 *)
    else
      let '(d, ops) := from_io (c_big c) (c_base c) m addr (length (t_data t)) in (* l.284 *)
      Ok (answer d OkResp true, m, ops, len <? 8).

(** DMI region: pointer, first and last address *)
Record dmi := mkDmi { d_ptr : N; d_start : N; d_end : N }.

(** get_direct_mem_ptr: l.300-310 *)
Definition get_dmi (c : cfg) : dmi := mkDmi (c_base c) 0 ((c_size c + u64 - 1) mod u64).

(** tlm_mm_vfio: the buffers of payload [i] (l.92-96) and the bytes mapped (l.51, l.70, l.88) and
    unmapped (l.104); products in 32 bits.  nr_gp is not negative here. *)
Definition mm_size (nr size : N) : N := (nr * size * 2) mod u32.                 (* l.51 *)
Definition mm_data (map nr size i : N) : N := map + (i * size) mod u32.          (* l.93 *)
Definition mm_be (map nr size i : N) : N := map + (nr * size + i * size) mod u32. (* l.94 *)
Definition mm_mapped (nr size : N) : N := mm_size nr size * 2.                   (* l.70, l.88 *)
Definition mm_unmapped (nr size : N) : N := mm_size nr size.                     (* l.104 *)

(** Interrupts.  Where the thread irq_poll is: before l.235, in the read of l.237, before l.242 *)
Inductive phase := PStart | PRead | PSet.

(** [level]: the line INTx of the device; [masked], [cnt]: the mask of VFIO and whether the
    eventfd counts; [irq_val] l.146; [ev]: event (l.145) notified or the process irq_proxy not
    yet started; [out]: the output irq *)
Record st := mkSt {
  level : bool; masked : bool; cnt : bool; ph : phase; irq_val : bool; ev : bool; out : bool }.

Definition init : st := mkSt false false false PStart false true false.

(** VFIO on a change of the line: an interrupt that is not masked counts the eventfd and masks
    itself (the kernel; set up in /repo/utils/vfio/vfio-ll.h l.312-355). *)
Definition set_line (s : st) (b : bool) : st :=
  if b && negb (masked s)
  then mkSt b true true (ph s) (irq_val s) (ev s) (out s)
  else mkSt b (masked s) (cnt s) (ph s) (irq_val s) (ev s) (out s).

(** unmask_irq: vfio-ll.h l.160-176; while the line is up the kernel counts and masks at once *)
Definition unmask (s : st) : st :=
  mkSt (level s) (level s) (cnt s || level s) (ph s) (irq_val s) (ev s) (out s).

(** irq_poll: l.229-249, one step of the thread; the read of l.237 succeeds *)
Definition poll (s : st) : st :=
  match ph s with
  | PStart => let s' := unmask s in
      mkSt (level s') (masked s') (cnt s') PRead (irq_val s') (ev s') (out s')     (* l.235 *)
  | PRead => if cnt s
      then mkSt (level s) (masked s) false PSet (irq_val s) (ev s) (out s)         (* l.237 *)
      else s
  | PSet => mkSt (level s) (masked s) (cnt s) PRead true true (out s)              (* l.242-246 *)
  end.

(** irq_ack: l.218-227 *)
Definition irq_ack (s : st) : st :=
  if irq_val s
  then unmask (mkSt (level s) (masked s) (cnt s) (ph s) false true (out s))
  else s.

(** The end of a transaction of [len] bytes: l.293-294 *)
Definition access (s : st) (len : N) : st := if len <? 8 then irq_ack s else s.

(** irq_proxy: l.210-216 *)
Definition proxy (s : st) : st :=
  if ev s then mkSt (level s) (masked s) (cnt s) (ph s) (irq_val s) false (irq_val s) else s.

Inductive event := Line (b : bool) | Poll | Access (len : N) | Proxy.

Definition step (s : st) (e : event) : st :=
  match e with
  | Line b => set_line s b
  | Poll => poll s
  | Access n => access s n
  | Proxy => proxy s
  end.

Definition run (s : st) (es : list event) : st := fold_left step es s.
