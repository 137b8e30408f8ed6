(** Model of the CXS link of tlm-bridges/tlm2cxs-bridge.h: private/ccix/txlink.h,
    rxlink.h and portstate.h, and of pkts.h the classes CXSCntl (l.1321-1466), TLP
    (l.1468-1681) and the collecting part of TLPAssembler (l.1683-1730).

    One direction of the link is a [link]: the wires and the registers of the
    transmitter and of the receiver.  One [edge] is one rising clock edge seen by
    the threads of both ends; they read the wires as they were before the edge.
    The threads of one edge run in any order, which is visible only in the credit
    counter that state_thread reads ([late]).  A flit is a list of bytes. *)
From Verif Require Import Base.
Open Scope N_scope.

(** tlm2cxs-bridge.h l.39-80: bytes of a flit, packets per flit, pointer widths *)
Record cfg := mkCfg { c_bytes : nat; c_pkts : nat; c_sw : N; c_ew : N }.
Definition cxs256 := mkCfg 32 2 1 3.
Definition cxs512 := mkCfg 64 4 2 4.
Definition cxs1024 := mkCfg 128 4 3 5.

(** ** CXSCntl *)
Section Cntl.
Variable c : cfg.
Definition P : N := N.of_nat (c_pkts c).
Definition end_bits : N := P + P * c_sw c.
Definition end_ptrs : N := end_bits + P + P.
Definition cntl_width : N := 3 * P + P * c_sw c + P * c_ew c.

(** to_uint64, l.1375-1416.  The pointers are unsigned int, so they are shifted
    in 32 bits; the bits are shifted as int. *)
Fixpoint put_ptrs (bit0 ptr0 width : N) (i : N) (l : list N) (v : N) : res N :=
  match l with
  | [] => Ok v
  | p :: l' =>
    if (31 <=? bit0 + i) || (32 <=? ptr0 + i * width) then UB
    else put_ptrs bit0 ptr0 width (i + 1) l'
      (N.lor (N.lor v (N.shiftl 1 (bit0 + i)))
             (N.shiftl (p mod 2 ^ width) (ptr0 + i * width) mod u32))
  end.
Definition cntl_enc (starts ends : list N) : res N :=
  rbind (put_ptrs 0 P (c_sw c) 0 starts 0) (put_ptrs end_bits end_ptrs (c_ew c) 0 ends).
(** txcntl is sc_bv<CNTL_WIDTH> *)
Definition cntl_wire (v : N) : N := v mod 2 ^ cntl_width.
(** ParseCntl, l.1429-1462 *)
Definition get_ptrs (bit0 ptr0 width : N) (v : N) : list N :=
  flat_map (fun k => let i := N.of_nat k in
    if N.testbit v (bit0 + i) then [N.shiftr v (ptr0 + i * width) mod 2 ^ width] else [])
    (seq 0 (c_pkts c)).
Definition cntl_dec (v : N) : list N * list N :=
  (get_ptrs 0 P (c_sw c) v, get_ptrs end_bits end_ptrs (c_ew c) v).

(** ** TLP::CreateFlit, l.1504-1546, from flit position 0 *)
(** [n] iterations left, byte [i] of the flit, [pos] is m_pos *)
Fixpoint fill (n i : nat) (b : list N) (pos : nat) (flit : list N) (ss ee : list N)
  : list N * list N * list N * nat :=
  match n with
  | O => (flit, ss, ee, pos)
  | S n' =>
    if Nat.eqb pos (length b) then (flit, ss, ee, pos)
    else
      fill n' (i + 1) b (pos + 1) (overlay i [nth pos b 0] flit)
        (if Nat.eqb pos 0 then ss ++ [8 * N.of_nat i / 128] else ss)
        (if Nat.eqb (pos + 4) (length b) then ee ++ [8 * N.of_nat i / 32] else ee)
  end.
Definition create_flit (old : list N) (b : list N) (pos : nat) : res (list N * N * nat) :=
  let '(flit, ss, ee, pos') := fill (c_bytes c) 0 b pos old [] [] in
  rmap (fun v => (flit, cntl_wire v, pos')) (cntl_enc ss ee).

(** ** Receiving a flit: rxlink.h l.182-282, TLPAssembler *)
Record asm := mkAsm { s_start : N; s_end : option N; s_data : list N }.
Fixpoint set_ends (l : list asm) (ends : list N) : res (list asm) :=
  match ends, l with
  | [], _ => Ok l
  | e :: ends', a :: l' =>
    rmap (cons (mkAsm (s_start a) (Some (e * 32)) (s_data a))) (set_ends l' ends')
  | _ :: _, [] => AssertFail
  end.
(** l.244-272: word [k] of the flit *)
Fixpoint rx_words (n k : nat) (flit : list N) (l : list asm) (out : list (list N))
  : list asm * list (list N) :=
  match n with
  | O => (l, out)
  | S n' =>
    match l with
    | [] => rx_words n' (k + 1) flit l out
    | a :: l' =>
      let p := 32 * N.of_nat k in
      if s_start a <=? p then
        let d := s_data a ++ slice (4 * k) 4 flit in
        if match s_end a with Some e => e =? p | None => false end
        then rx_words n' (k + 1) flit l' (out ++ [d])
        else rx_words n' (k + 1) flit (mkAsm (s_start a) (s_end a) d :: l') out
      else rx_words n' (k + 1) flit l out
    end
  end.
Definition rx_flit (l : list asm) (flit : list N) (cntl : N) : res (list asm * list (list N)) :=
  let '(ss, ee) := cntl_dec cntl in
  rbind (set_ends (l ++ map (fun s => mkAsm (s * 128) None []) ss) ee) (fun l1 =>
  let '(l2, out) := rx_words (c_bytes c / 4) 0 flit l1 [] in
  match l2 with
  | [] => Ok ([], out)
  | [a] => Ok ([mkAsm 0 (s_end a) (s_data a)], out)
  | _ => AssertFail                                                 (* l.280 *)
  end).
End Cntl.

(** ** The link *)
Inductive lstate := Stop | Activate | Run | Deactivate.
(** GetLinkState, txlink.h l.156-166, rxlink.h l.284-294, portstate.h l.73-83 *)
Definition link_state (req ack : bool) : lstate :=
  match req, ack with
  | true, true => Run | true, false => Activate | false, true => Deactivate | false, false => Stop
  end.
Definition MAX_CREDITS : N := 15.

Record link := mkLink {
  l_req : bool; l_ack : bool; l_valid : bool; l_rtn : bool; l_gnt : bool;
  l_flit : list N; l_cntl : N;
  l_txc : N; l_rxc : N;                       (* m_credits of the two ends *)
  l_queue : list (list N * nat);              (* m_tlpList with m_pos *)
  l_okd : list (list N);                      (* TLPs answered TLM_OK_RESPONSE *)
  l_asms : list asm;                          (* m_assemblers *)
  l_recv : list (list N) }.                   (* TLPs received, oldest first *)
(** after construction *)
Definition link0 (flit : list N) : link :=
  mkLink false false false false false flit 0 0 MAX_CREDITS [] [] [] [].

Definition front_done (q : list (list N * nat)) : bool :=
  match q with (b, pos) :: _ => Nat.eqb pos (length b) | [] => false end.

Record txout := mkTx { o_valid : bool; o_rtn : bool; o_flit : list N; o_cntl : N; o_txc : N;
  o_queue : list (list N * nat); o_okd : list (list N) }.
(** txlink.h l.89-154 *)
Definition tx_edge (c : cfg) (l : link) : res txout :=
  let st := link_state (l_req l) (l_ack l) in
  match st with
  | Stop => Ok (mkTx (l_valid l) (l_rtn l) (l_flit l) (l_cntl l) (l_txc l) (l_queue l) (l_okd l))
  | _ =>
    let txc := if l_gnt l then l_txc l + 1 else l_txc l in
    match st with
    | Activate => Ok (mkTx false false (l_flit l) (l_cntl l) txc (l_queue l) (l_okd l))
    | _ =>
      let q := if front_done (l_queue l) then tl (l_queue l) else l_queue l in
      let okd := match l_queue l with
                 | (b, _) :: _ => if front_done (l_queue l) then l_okd l ++ [b] else l_okd l
                 | [] => l_okd l end in
      match q with
      | (b, pos) :: q' =>
        if 0 <? txc then
          rmap (fun f => let '(flit, cntl, pos') := f in
                  mkTx true false flit cntl (txc - 1) ((b, pos') :: q') okd)
            (create_flit c (l_flit l) b pos)
        else Ok (mkTx false false (l_flit l) (l_cntl l) txc q okd)
      | [] =>
        if (0 <? txc) && match st with Deactivate => true | _ => false end
        then Ok (mkTx false true (l_flit l) (l_cntl l) (txc - 1) [] okd)
        else Ok (mkTx false false (l_flit l) (l_cntl l) txc [] okd)
      end
    end
  end.

(** rxlink.h l.108-155: grant, credits, assemblers, received *)
Definition rx_edge (c : cfg) (l : link) : res (bool * N * list asm * list (list N)) :=
  let st := link_state (l_req l) (l_ack l) in
  match st with
  | Stop => Ok (false, l_rxc l, l_asms l, l_recv l)
  | _ =>
    rbind (if l_valid l
           then rmap (fun r => (fst r, l_recv l ++ snd r, l_rxc l + 1)) (rx_flit c (l_asms l) (l_flit l) (l_cntl l))
           else Ok (l_asms l, l_recv l, if l_rtn l then l_rxc l + 1 else l_rxc l)) (fun r =>
    let '(asms, recv, rxc) := r in
    match st with
    | Deactivate => Ok (false, rxc, asms, recv)
    | _ => if 0 <? rxc then Ok (true, rxc - 1, asms, recv) else Ok (false, rxc, asms, recv)
    end)
  end.

(** One clock edge.  portstate.h l.95-161: the receiver of the direction drives
    ack, the sender req; [raise] and [drop] are the sender's wishes. *)
Definition edge (c : cfg) (raise drop late : bool) (l : link) : res link :=
  let st := link_state (l_req l) (l_ack l) in
  rbind (tx_edge c l) (fun t =>
  rbind (rx_edge c l) (fun r =>
  let '(gnt, rxc, asms, recv) := r in
  let ack := match st with
             | Activate => true
             | Deactivate => negb ((if late then rxc else l_rxc l) =? MAX_CREDITS)
             | _ => l_ack l end in
  let req := match st with
             | Stop => raise
             | Run => negb drop
             | _ => l_req l end in
  Ok (mkLink req ack (o_valid t) (o_rtn t) gnt (o_flit t) (o_cntl t) (o_txc t) rxc
        (o_queue t) (o_okd t) asms recv))).

(** b_transport_txlink: TxLink::Process, l.81-86 *)
Definition submit (b : list N) (l : link) : link :=
  mkLink (l_req l) (l_ack l) (l_valid l) (l_rtn l) (l_gnt l) (l_flit l) (l_cntl l) (l_txc l) (l_rxc l)
    (l_queue l ++ [(b, 0%nat)]) (l_okd l) (l_asms l) (l_recv l).

(** Reset of both ends, txlink.h l.94-98, l.173-192, rxlink.h l.116-120,
    l.315-323, portstate.h l.101-106.  The credit counters and txcrdrtn stay.
    A TLP whose last flit was put on the wires is answered OK (NotifyDone, pkts.h
    l.1629-1638), the others TLM_GENERIC_ERROR_RESPONSE. *)
Definition reset (l : link) : link :=
  mkLink false false false (l_rtn l) false (l_flit l) (l_cntl l) (l_txc l) (l_rxc l)
    [] (l_okd l ++ map fst (filter (fun q => Nat.eqb (snd q) (length (fst q))) (l_queue l)))
    [] (l_recv l).

(** ** Executions *)
Inductive event := Edge (raise drop late : bool) | Submit (b : list N) | Reset.
Definition step (c : cfg) (e : event) (l : link) : res link :=
  match e with
  | Edge r d o => edge c r d o l
  | Submit b => Ok (submit b l)
  | Reset => Ok (reset l)
  end.
Fixpoint run (c : cfg) (es : list event) (l : link) : res link :=
  match es with
  | [] => Ok l
  | e :: es' => rbind (step c e l) (run c es')
  end.
