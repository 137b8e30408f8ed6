(** Model of the CHI link layer, tlm-bridges/private/chi/common.h: TxChannel, RxChannel and
    PortState of two bridges connected back to back.

    A step is one rising clock edge.  Every thread reads the signals as they were before the
    edge and its writes are seen at the next one.  Each direction has a list of channels
    that share its linkactive wires.  Packets are numbers; every packet is one flit (see
    C92 for longer ones).  Credits are natural numbers, bounded by the theorems.
    The order in which PortState and the receivers run at an edge is not fixed by SystemC:
    it matters for m_credits, which PortState reads directly, and is an input of the step.
    Not modelled: flitpend (the receiver ignores it), sactive, the consumer of received
    packets; [c_got] keeps what was pushed on the receiver's list, in order. *)
From Verif Require Import Base.

Inductive lstate := Stop | Activate | Run | Deactivate.
(** GetLinkState, l.190-200, l.354-364, l.438-448 *)
Definition link_state (req ack : bool) : lstate :=
  match req, ack with
  | true, true => Run
  | true, false => Activate
  | false, true => Deactivate
  | false, false => Stop
  end.

Inductive flit := Pkt (x : N) | Ret.
(** One channel: the transmitter's credits, list and whether the front packet is Done, the
    signals flitv/flit and lcrdv, the receiver's credits and what it received. *)
Record chan := mkC { c_tx : nat; c_list : list N; c_done : bool; c_fv : option flit;
                     c_lv : bool; c_rx : nat; c_got : list flit }.
Definition MAX_CREDITS : nat := 15.
Definition chan0 : chan := mkC 0 [] false None false MAX_CREDITS [].

(** TxChannel::Process, l.98-103, up to its wait *)
Definition process (c : chan) (xs : list N) : chan :=
  mkC (c_tx c) (c_list c ++ xs) (c_done c) (c_fv c) (c_lv c) (c_rx c) (c_got c).
(** tx_thread, l.106-177, with lcrdv as sampled *)
Definition tx_edge (st : lstate) (lv : bool) (c : chan) : chan :=
  match st with
  | Stop => c
  | _ =>
      let n := if lv then S (c_tx c) else c_tx c in
      match st with
      | Activate => mkC n (c_list c) (c_done c) None (c_lv c) (c_rx c) (c_got c)
      | _ =>
          let l := match c_list c with
                   | x :: l => if c_done c then l else x :: l
                   | [] => []
                   end in
          match n, l with
          | S n', x :: _ => mkC n' l true (Some (Pkt x)) (c_lv c) (c_rx c) (c_got c)
          | S n', [] =>
              match st with
              | Deactivate => mkC n' l false (Some Ret) (c_lv c) (c_rx c) (c_got c)
              | _ => mkC n l false None (c_lv c) (c_rx c) (c_got c)
              end
          | O, _ => mkC n l false None (c_lv c) (c_rx c) (c_got c)
          end
      end
  end.
(** rx_thread, l.301-352, with flitv and flit as sampled *)
Definition rx_edge (st : lstate) (fv : option flit) (c : chan) : chan :=
  match st with
  | Stop => mkC (c_tx c) (c_list c) (c_done c) (c_fv c) false (c_rx c) (c_got c)
  | _ =>
      let (n, got) := match fv with
                      | Some f => (S (c_rx c), c_got c ++ [f])
                      | None => (c_rx c, c_got c)
                      end in
      match st, n with
      | Deactivate, _ | _, O => mkC (c_tx c) (c_list c) (c_done c) (c_fv c) false n got
      | _, S n' => mkC (c_tx c) (c_list c) (c_done c) (c_fv c) true n' got
      end
  end.
Definition chan_edge (st : lstate) (c : chan) : chan :=
  rx_edge st (c_fv c) (tx_edge st (c_lv c) c).
(** Deactivated, l.297 *)
Definition deactivated (c : chan) : bool := Nat.eqb (c_rx c) MAX_CREDITS.

(** One direction: linkactivereq and linkactiveack, and the channels. *)
Record dir := mkD { d_req : bool; d_ack : bool; d_ch : list chan }.
Definition d_st (d : dir) : lstate := link_state (d_req d) (d_ack d).
Fixpoint offer (cs : list chan) (news : list (list N)) : list chan :=
  match cs with
  | [] => []
  | c :: cs' => process c (hd [] news) :: offer cs' (tl news)
  end.
Definition edges (d : dir) (news : list (list N)) : list chan :=
  map (chan_edge (d_st d)) (offer (d_ch d) news).
(** RxChnlsDeactivated: [early i] when PortState reads the credits of channel [i] before
    the receiver's thread has run at this edge. *)
Fixpoint all_deactivated (early : nat -> bool) (i : nat) (old new : list chan) : bool :=
  match old, new with
  | c :: old', c' :: new' =>
      deactivated (if early i then c else c') && all_deactivated early (S i) old' new'
  | _, _ => true
  end.

(** PortState: m_state and deactivateTx *)
Record port := mkP { p_state : lstate; p_deact : bool }.
Definition is_run (s : lstate) : bool := match s with Run => true | _ => false end.
Definition is_stop (s : lstate) : bool := match s with Stop => true | _ => false end.
(** state_thread, l.462-532: the port, the new txlinkactivereq and rxlinkactiveack *)
Definition port_edge (p : port) (tx rx : dir) (idle : bool) : port * bool * bool :=
  let '(ack, deact) :=
    match d_st rx with
    | Activate => (true, p_deact p)
    | Deactivate =>
        (if idle then false else d_ack rx,
         match d_st tx with Run | Activate => true | _ => p_deact p end)
    | _ => (d_ack rx, p_deact p)
    end in
  match d_st tx with
  | Stop => (mkP (p_state p) deact, is_run (p_state p) || d_req tx, ack)
  | Run =>
      let deact := is_stop (p_state p) || deact in
      if deact then (mkP (p_state p) false, false, ack)
      else (mkP (p_state p) false, d_req tx, ack)
  | _ => (mkP (p_state p) deact, d_req tx, ack)
  end.

(** Two bridges: A sends on [s_ab], B on [s_ba]. *)
Record sys := mkS { s_ab : dir; s_ba : dir; s_a : port; s_b : port }.
(** What happens before and at an edge: packets given to each channel, the states last set
    with SetState, and the order of the threads. *)
Record label := mkL { l_ab : list (list N); l_ba : list (list N); l_a : lstate; l_b : lstate;
                      l_ea : nat -> bool; l_eb : nat -> bool }.
Definition step (s : sys) (l : label) : sys :=
  let ab := edges (s_ab s) (l_ab l) in
  let ba := edges (s_ba s) (l_ba l) in
  let '(a, ab_req, ba_ack) :=
    port_edge (mkP (l_a l) (p_deact (s_a s))) (s_ab s) (s_ba s)
      (all_deactivated (l_ea l) 0 (d_ch (s_ba s)) ba) in
  let '(b, ba_req, ab_ack) :=
    port_edge (mkP (l_b l) (p_deact (s_b s))) (s_ba s) (s_ab s)
      (all_deactivated (l_eb l) 0 (d_ch (s_ab s)) ab) in
  mkS (mkD ab_req ab_ack ab) (mkD ba_req ba_ack ba) a b.
Definition run (s : sys) (ls : list label) : sys := fold_left step ls s.
(** [n] channels from A to B and [m] back. *)
Definition start (n m : nat) : sys :=
  mkS (mkD false false (repeat chan0 n)) (mkD false false (repeat chan0 m))
    (mkP Run false) (mkP Run false).

(** A reset of both bridges, l.110-115, l.208-229, l.309-313, l.471-476: the lists are
    cleared and the signals low; the credits and deactivateTx stay.  ClearList deletes the
    packets given to Process, which the bridges keep on the stack. *)
Definition reset_chan (c : chan) : chan :=
  mkC (c_tx c) [] false None false (c_rx c) (c_got c).
Definition busy (d : dir) : bool :=
  existsb (fun c => match c_list c with [] => false | _ => true end) (d_ch d).
Definition reset_dir (d : dir) : dir := mkD false false (map reset_chan (d_ch d)).
Definition reset (s : sys) : res sys :=
  if busy (s_ab s) || busy (s_ba s) then UB
  else Ok (mkS (reset_dir (s_ab s)) (reset_dir (s_ba s)) (s_a s) (s_b s)).
