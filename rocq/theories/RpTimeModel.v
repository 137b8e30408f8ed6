(** Model of remote-port-tlm.cc:55-117, the quantum keeper based time accounting.
    Times are whole nanoseconds, the time resolution is 1 ns (map_time is then
    the identity); tlm_quantumkeeper (TLM-2.0) keeps a local offset on top of the
    kernel time and sync() waits for it. *)
From Verif Require Import Base.
Open Scope Z_scope.

(** Kernel time, local offset and global quantum. *)
Record clk := mkClk { k_now : Z; k_local : Z; k_quantum : Z }.
Definition cur (c : clk) : Z := k_now c + k_local c.

(** tlm_quantumkeeper set / inc / sync *)
Definition qk_set (c : clk) (t : Z) : clk := mkClk (k_now c) t (k_quantum c).
Definition qk_inc (c : clk) (d : Z) : clk := qk_set c (k_local c + d).
Definition qk_sync (c : clk) : clk := mkClk (k_now c + k_local c) 0 (k_quantum c).

(** remote-port-tlm.cc:62-93 account_time *)
Definition account_time (c : clk) (rclk : Z) : clk :=
  let lclk := cur c in
  let delta0 := if rclk <=? lclk then 1 else rclk - lclk in
  let delta := if k_quantum c <? delta0 then k_quantum c else delta0 in
  if k_quantum c <=? k_local c + delta then qk_set c (k_quantum c)
  else qk_inc c delta.

(** Operations on the clock: a packet with a peer timestamp (pre_sync_cmd,
    pre_wire_cmd, pre_memory_master_cmd: l.99-101, 170-172, 184-195, 209-214), a sync
    (post_any_cmd etc., or kernel time passing by it), the 1 ns advance of l.110-112,
    and a local b_transport that returns a larger local offset
    (remote-port-tlm-memory-master.cc:60, 94). *)
Inductive top := TAccount (rclk : Z) | TSync | TInc (d : Z) | TTransport (delay : Z).
Definition tstep (c : clk) (o : top) : clk :=
  match o with
  | TAccount r => account_time c r
  | TSync => qk_sync c
  | TInc d => qk_inc c d
  | TTransport d => qk_set c d
  end.
Definition trun (c : clk) (os : list top) : clk := fold_left tstep os c.
