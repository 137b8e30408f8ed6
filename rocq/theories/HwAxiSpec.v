(** What C110 says, in terms of the transaction and of the AXI protocol. *)
From Coq Require Import ZArith.
From Verif Require Import Base HwAxiModel.
Open Scope N_scope.

(** Widths of the data bus in bytes *)
Definition bus_width (W : N) : Prop := In W [4; 8; 16; 32; 64; 128].

(** Byte i of a transaction takes part (TLM: the byte enables repeat) *)
Definition takes_part (t : txn) (i : N) : bool :=
  (i <? t_len t) && ((t_be_len t =? 0) || t_be t (i mod t_be_len t)).

(** The address, direction and lengths in a descriptor *)
Definition axaddr (d : desc) : N := d_addr_lo d + 2 ^ 32 * d_addr_hi d.
Definition is_read (d : desc) : bool := N.testbit (d_type d) 0.
Definition has_strobes (d : desc) : bool := N.testbit (d_type d) 1.
Definition beats (W : N) (d : desc) : N := d_size d / W.

(** AXI A3.4: the addresses that a burst of type INCR can touch: from its address up to
    the end of its last container *)
Definition burst_end (W : N) (d : desc) : N :=
  let s := 2 ^ d_axsize d in axaddr d / s * s + beats W d * s.

(** What the hardware writes: the byte at address x.  Position p of the memories belongs to
    address p beyond the beat of the first address.  Without strobes, all of the burst. *)
Definition written (W : N) (m : mem) (d : desc) (x : N) : option N :=
  let p := x - axaddr d / W * W in
  if (axaddr d <=? x) && (x <? burst_end W d)
     && (negb (has_strobes d) || (m (DRAM_WSTRB + p) =? 255))
  then Some (m (DRAM_WRITE + p)) else None.

(** What the initiator asked for, the first byte being at address a *)
Definition asked (t : txn) (a x : N) : option N :=
  if (a <=? x) && takes_part t (x - a) then Some (t_data t (x - a)) else None.

(** Transactions for which the bridge picks AxSIZE from the length must be aligned to it *)
Definition one_size (W : N) (lite : bool) (len : N) : Prop :=
  lite = false /\ len <= W /\ exists s, len = 2 ^ s.

(** AXI A3.4.4: the responses, and the TLM status of each *)
Definition resp_status (r : N) : status :=
  match r with
  | 0 | 1 => TLM_OK
  | 3 => TLM_ADDRESS_ERROR
  | _ => TLM_GENERIC_ERROR
  end.
