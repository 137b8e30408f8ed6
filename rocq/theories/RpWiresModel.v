(** Model of libremote-port/remote-port-tlm-wires.cc. *)
From Verif Require Import Base RpProtoModel.
Open Scope N_scope.

(** remote-port-tlm-wires.cc:134-158, one pass of wire_update: [ev] and [val] give
    for each input wire whether it had an event and its current value.  Result:
    interrupt packets to be written, in order, as (id, line, value, flags); the
    next packet id; and the id to be waited for, if any (l.160-166). *)
Fixpoint wire_pass (posted_cfg : bool) (i : N) (ws : list (bool * bool)) (n_ev : nat) (id : N)
  : list (N * N * N * N) * N :=
  match ws with
  | [] => ([], id)
  | (ev, v) :: ws' =>
    if ev then
      let n' := pred n_ev in
      let flags := if (Nat.eqb n' 0) && negb posted_cfg then 0 else FLAG_posted in
      let '(l, id') := wire_pass posted_cfg (i + 1) ws' n' ((id + 1) mod 4294967296) in
      ((id, i, (if v then 1 else 0), flags) :: l, id')
    else wire_pass posted_cfg (i + 1) ws' n_ev id
  end.

Definition wire_update (posted_cfg : bool) (ws : list (bool * bool)) (id : N)
  : list (N * N * N * N) * N :=
  wire_pass posted_cfg 0 ws (length (filter fst ws)) id.

(** Bytes of one pass (l.151-156). *)
Definition wire_bytes (dev clk : N) (l : list (N * N * N * N)) : list N :=
  flat_map (fun '(id, line, v, fl) => rp_encode_interrupt id dev clk line 0 v fl) l.

(** remote-port-tlm-wires.cc:104-110 interrupt_action on the output wires. *)
Definition interrupt_action (dev : N) (h : hdr) (line val : N) (outs : list bool)
  : res (list bool) :=
  if negb (h_dev h =? dev) then AssertFail
  else if N.of_nat (length outs) <=? line then AssertFail
  else Ok (firstn (N.to_nat line) outs ++ [negb (val =? 0)]
           ++ skipn (S (N.to_nat line)) outs).

(** remote-port-tlm-wires.cc:86-99: is the update acknowledged? *)
Definition wire_ack (p : caps) (h : hdr) : bool :=
  c_wire_posted p && negb (has_flag (h_flags h) FLAG_posted).

(** The peer's handling of received wire packets, in order. *)
Fixpoint wires_apply (dev : N) (rs : list rxpkt) (outs : list bool) : res (list (list bool)) :=
  match rs with
  | [] => Ok []
  | r :: rs' =>
    match r_pl r with
    | PIrq _ _ line val =>
      rbind (interrupt_action dev (r_hdr r) line val outs) (fun o =>
        rbind (wires_apply dev rs' o) (fun l => Ok (o :: l)))
    | _ => Unmodelled
    end
  end.

(** The thread around it (l.117-168).  Simulation proceeds in cycles; in each, the
    input wires have values, and the awaited acknowledgement may arrive.  The thread
    is either at [wait()] (l.133), where it sees the wires whose value differs from
    the previous cycle, or blocked in response_wait (l.163); SystemC drops events
    of the static sensitivity list that occur while the thread waits elsewhere. *)
Record wthread := mkWt { t_prev : list bool; t_blocked : bool; t_id : N }.

Definition wire_events (prev vals : list bool) : list (bool * bool) :=
  map (fun '(a, b) => (negb (Bool.eqb a b), b)) (combine prev vals).

(** One cycle: packets sent and the new thread state.  [ack_cap]: the peer announced
    wire_posted_updates, so non-posted updates are acknowledged. *)
Definition wire_cycle (posted_cfg ack_cap : bool) (t : wthread) (c : list bool * bool)
  : list (N * N * N * N) * wthread :=
  let '(vals, ack) := c in
  if t_blocked t then ([], mkWt vals (negb ack) (t_id t))
  else
    let '(l, id') := wire_update posted_cfg (wire_events (t_prev t) vals) (t_id t) in
    (l, mkWt vals (ack_cap && existsb (fun '(_, fl) => fl =? 0) l) id').

(** A run: packets and thread state after each cycle. *)
Fixpoint wire_run (posted_cfg ack_cap : bool) (t : wthread) (cs : list (list bool * bool))
  : list (list (N * N * N * N)) * wthread :=
  match cs with
  | [] => ([], t)
  | c :: cs' =>
    let '(l, t') := wire_cycle posted_cfg ack_cap t c in
    let '(ls, t'') := wire_run posted_cfg ack_cap t' cs' in
    (l :: ls, t'')
  end.
