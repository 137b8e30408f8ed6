(** Model of soc/net/ethernet/xilinx/mrmac/mrmac.cc, mrmac.h and of the registers it
    uses (regs-mrmac.h); soc/net/ethernet/ethernet.h.

    A step is one call of b_transport on one of the three target sockets, one
    turn of phy_rx_thread (which takes one frame from rxfifo), or a rising edge
    of rst.  Registers are a function of the address.  The state starts as after
    a reset: the constructor of regapi_block does not initialise the registers.

    Simplified: b_transport calls do not overlap, and phy_rx_thread's turn is not
    interrupted (mac_rx_socket's target may wait); rxfifo is brought up to date
    (sc_fifo's update phase) after every step.  Not modelled: registers other
    than those in [known]; the warnings; the memory of lost frames, and
    `delete` of an array. *)
From Verif Require Import Base CrcModel.
Open Scope N_scope.

(** struct stats, mrmac.h l.44-103 *)
Inductive dir := Tx | Rx.
Inductive ctr :=
| TotalPackets | TotalGoodPackets | TotalBytes | TotalGoodBytes
| P64 | P65_127 | P128_255 | P256_511 | P512_1023 | P1024_1518 | P1519_1522
| P1523_1548 | P1549_2047 | P2048_4095 | P4096_8191 | P8192_9215 | PLarge | PSmall
| BadFcs | Unicast | Multicast | Broadcast | Vlan | Pause.

Definition dir_eqb (a b : dir) : bool :=
  match a, b with Tx, Tx | Rx, Rx => true | _, _ => false end.
Definition ctr_n (c : ctr) : N :=
  match c with
  | TotalPackets => 0 | TotalGoodPackets => 1 | TotalBytes => 2 | TotalGoodBytes => 3
  | P64 => 4 | P65_127 => 5 | P128_255 => 6 | P256_511 => 7 | P512_1023 => 8
  | P1024_1518 => 9 | P1519_1522 => 10 | P1523_1548 => 11 | P1549_2047 => 12
  | P2048_4095 => 13 | P4096_8191 => 14 | P8192_9215 => 15 | PLarge => 16
  | PSmall => 17 | BadFcs => 18 | Unicast => 19 | Multicast => 20 | Broadcast => 21
  | Vlan => 22 | Pause => 23
  end.
Definition ctr_eqb (a b : ctr) : bool := ctr_n a =? ctr_n b.

(** Register addresses, regs-mrmac.h l.36-90, l.522, l.532-626 (TX) and l.928-1050 (RX). *)
Definition A_MODE : N := 0x8.
Definition A_TX1 : N := 0xc.
Definition A_RX1 : N := 0x10.
Definition A_TICK : N := 0x2c.
Definition A_READY : N := 0x7d0.
Definition a_stat (d : dir) (c : ctr) : N :=
  match d, c with
  | Tx, TotalPackets => 0x818 | Rx, TotalPackets => 0xe30
  | Tx, TotalGoodPackets => 0x820 | Rx, TotalGoodPackets => 0xe38
  | Tx, TotalBytes => 0x828 | Rx, TotalBytes => 0xe40
  | Tx, TotalGoodBytes => 0x830 | Rx, TotalGoodBytes => 0xe48
  | Tx, P64 => 0x838 | Rx, P64 => 0xe50
  | Tx, P65_127 => 0x840 | Rx, P65_127 => 0xe58
  | Tx, P128_255 => 0x848 | Rx, P128_255 => 0xe60
  | Tx, P256_511 => 0x850 | Rx, P256_511 => 0xe68
  | Tx, P512_1023 => 0x858 | Rx, P512_1023 => 0xe70
  | Tx, P1024_1518 => 0x860 | Rx, P1024_1518 => 0xe78
  | Tx, P1519_1522 => 0x868 | Rx, P1519_1522 => 0xe80
  | Tx, P1523_1548 => 0x870 | Rx, P1523_1548 => 0xe88
  | Tx, P1549_2047 => 0x878 | Rx, P1549_2047 => 0xe90
  | Tx, P2048_4095 => 0x880 | Rx, P2048_4095 => 0xe98
  | Tx, P4096_8191 => 0x888 | Rx, P4096_8191 => 0xea0
  | Tx, P8192_9215 => 0x890 | Rx, P8192_9215 => 0xea8
  | Tx, PLarge => 0x898 | Rx, PLarge => 0xeb0
  | Tx, PSmall => 0x8a0 | Rx, PSmall => 0xeb8
  | Tx, BadFcs => 0x8d0 | Rx, BadFcs => 0xee8
  | Tx, Unicast => 0x8e8 | Rx, Unicast => 0xf00
  | Tx, Multicast => 0x8f0 | Rx, Multicast => 0xf08
  | Tx, Broadcast => 0x8f8 | Rx, Broadcast => 0xf10
  | Tx, Vlan => 0x900 | Rx, Vlan => 0xf18
  | Tx, Pause => 0x908 | Rx, Pause => 0xf20
  end.
(** The calls of stats_update64 in tick, mrmac.cc l.164-222, in their order. *)
Definition ctrs : list ctr :=
  [TotalPackets; TotalGoodPackets; TotalBytes; TotalGoodBytes; P64; P65_127; P128_255;
   P256_511; P512_1023; P1024_1518; P1519_1522; P1523_1548; P1549_2047; P2048_4095;
   P4096_8191; P8192_9215; PLarge; PSmall; BadFcs; Unicast; Multicast; Broadcast; Vlan;
   Pause].
Definition updates : list (dir * ctr) := map (pair Tx) ctrs ++ map (pair Rx) ctrs.

Definition known (a : N) : bool :=
  existsb (N.eqb a) [A_MODE; A_TX1; A_RX1; A_TICK; A_READY]
  || existsb (fun x => (a =? a_stat (fst x) (snd x)) || (a =? a_stat (fst x) (snd x) + 4)) updates.

(** A frame in rxfifo: its bytes and the streaming width of its payload. *)
Record frame := mkF { f_bytes : list N; f_sw : N }.

Record mst := mkM {
  m_regs : N -> N; m_acc : dir -> ctr -> N;
  m_txbuf : list N;                     (* txbuf[0 .. txpos) *)
  m_fifo : list frame }.

Definition set_regs s r := mkM r (m_acc s) (m_txbuf s) (m_fifo s).
Definition set_acc s a := mkM (m_regs s) a (m_txbuf s) (m_fifo s).
Definition set_txbuf s b := mkM (m_regs s) (m_acc s) b (m_fifo s).
Definition set_fifo s f := mkM (m_regs s) (m_acc s) (m_txbuf s) f.

Definition wr (r : N -> N) (a v : N) : N -> N := fun x => if x =? a then v else r x.

(** rb.reg_reset_all (regapi.h l.141-156): the .reset fields of the known registers. *)
Definition regs0 : N -> N := fun a => if a =? A_TX1 then 0xc03 else if a =? A_RX1 then 0x33 else 0.
Definition acc0 : dir -> ctr -> N := fun _ _ => 0.
Definition m0 : mst := mkM regs0 acc0 [] [].
(** reset_thread, mrmac.cc l.68-76 *)
Definition reset (s : mst) : mst := mkM regs0 acc0 (m_txbuf s) (m_fifo s).

Definition tx_enable s := N.testbit (m_regs s A_TX1) 0.
Definition tx_ins s := N.testbit (m_regs s A_TX1) 1.
Definition tx_ignore s := N.testbit (m_regs s A_TX1) 2.
Definition rx_enable s := N.testbit (m_regs s A_RX1) 0.
Definition rx_ignore s := N.testbit (m_regs s A_RX1) 2.
Definition extend s := N.testbit (m_regs s A_MODE) 15.

(** stats_add, stats_add48, stats_add64: mrmac.h l.113-137 *)
Definition ctr_max (c : ctr) : N :=
  match c with TotalBytes | TotalGoodBytes => 2 ^ 64 - 1 | _ => 2 ^ 48 - 1 end.
Definition stats_add (ext : bool) (c v max : N) : N :=
  if (max - c <? v) && negb ext then c else N.land ((c + v) mod 2 ^ 64) max.
Definition add (s : mst) (d : dir) (c : ctr) (v : N) : mst :=
  set_acc s (fun d' c' =>
    if dir_eqb d' d && ctr_eqb c' c then stats_add (extend s) (m_acc s d c) v (ctr_max c)
    else m_acc s d' c').

(** stats_update_tx_hist and stats_update_rx_hist, mrmac.cc l.100-162 *)
Definition bin (len : N) : ctr :=
  if len <? 64 then PSmall else if len =? 64 then P64 else if len <? 128 then P65_127
  else if len <? 256 then P128_255 else if len <? 512 then P256_511
  else if len <? 1024 then P512_1023 else if len <? 1519 then P1024_1518
  else if len <? 1523 then P1519_1522 else if len <? 1549 then P1523_1548
  else if len <? 2048 then P1549_2047 else if len <? 4096 then P2048_4095
  else if len <? 8192 then P4096_8191 else if len <? 9216 then P8192_9215 else PLarge.

(** ethernet.h l.39-61 *)
Definition is_multicast (f : list N) : bool := N.odd (nth 0 f 0).
Definition is_broadcast (f : list N) : bool := forallb (N.eqb 255) (firstn 6 f).
Definition get_type (f : list N) : N := nth 12 f 0 * 256 + nth 13 f 0.
Definition b2n (b : bool) : N := if b then 1 else 0.

(** The statistics of a good frame, mrmac.cc l.267-287 and l.336-355. *)
Definition add_good (s : mst) (d : dir) (f : list N) : mst :=
  let s := add s d TotalGoodPackets 1 in
  let s := add s d TotalGoodBytes (N.of_nat (length f)) in
  let s := add s d Unicast (b2n (negb (is_multicast f))) in
  let s := add s d Multicast (b2n (is_multicast f && negb (is_broadcast f))) in
  let s := add s d Broadcast (b2n (is_broadcast f)) in
  let t := get_type f in
  if t =? 0x8100 then add s d Vlan 1 else if t =? 0x8808 then add s d Pause 1 else s.
Definition add_all (s : mst) (d : dir) (f : list N) : mst :=
  let s := add s d TotalPackets 1 in
  let s := add s d TotalBytes (N.of_nat (length f)) in
  add s d (bin (N.of_nat (length f))) 1.

(** The frame check sequence at the end of [f] is right. *)
Definition fcs_ok (f : list N) : bool :=
  let n := (length f - 4)%nat in le_dec (skipn n f) =? crc32 0 (firstn n f).

(** What leaves the model: a transaction on phy_tx_socket, one on mac_rx_socket.
    [RxTook] marks a frame phy_rx_thread takes while reception is enabled,
    [Ticked] a call of tick. *)
Inductive out :=
| PhyTx (bytes : list N) | MacRx (bytes : list N) (sw : N) | RxTook (bytes : list N) | Ticked.

Definition bufsize : N := 65536.

(** mac_b_transport and push_stream, mrmac.cc l.224-301 and l.78-98 *)
Definition mac_tx (s : mst) (data : list N) (eop : bool) : res (mst * list out) :=
  if negb (tx_enable s) then Ok (s, [])
  else if 2 ^ 31 <=? N.of_nat (length data) then UB
  else if negb (N.of_nat (length data) <? bufsize - N.of_nat (length (m_txbuf s))) then AssertFail
  else
    let buf := m_txbuf s ++ data in
    if negb eop then Ok (set_txbuf s buf, [])
    else if N.of_nat (length buf) <? 14 then Ok (set_txbuf s buf, [])
    else
      rbind (if tx_ins s then
               if bufsize <? N.of_nat (length buf) + 4 then UB
               else Ok (buf ++ le_enc 4 (crc32 0 buf), true)
             else Ok (buf, tx_ignore s || fcs_ok buf)) (fun x =>
      let (f, good) := x : list N * bool in
      let s := if good then s else add s Tx BadFcs 1 in
      let s := if good then add_good s Tx f else s in
      let s := add_all s Tx f in
      Ok (set_txbuf s [], [PhyTx f])).

(** phy_b_transport, mrmac.cc l.372-394; [ins] is cfg.insert_rx_crc, rxfifo has two
    places. *)
Definition phy_rx (ins : bool) (s : mst) (data : list N) (sw : N) : res mst :=
  if 2 ^ 31 - 4 <=? N.of_nat (length data) then UB else
  let f := if ins then data ++ le_enc 4 (crc32 0 data) else data in
  Ok (if (length (m_fifo s) <? 2)%nat then set_fifo s (m_fifo s ++ [mkF f sw]) else s).

(** One turn of phy_rx_thread, mrmac.cc l.303-370.  `len -= 4` (l.360) changes a local
    variable that is not read again. *)
Definition rx_turn (s : mst) : res (mst * list out) :=
  match m_fifo s with
  | [] => Ok (s, [])
  | x :: rest =>
      let s := set_fifo s rest in
      let f := f_bytes x in
      if negb (rx_enable s) then Ok (s, [])
      else if negb (rx_ignore s) && (length f <? 4)%nat then UB
      else
        let good := rx_ignore s || fcs_ok f in
        let s := if good then s else add s Rx BadFcs 1 in
        let s := add_all s Rx f in
        if good then
          if (length f <? 14)%nat then UB
          else Ok (add_good s Rx f, [RxTook f; MacRx f (f_sw x)])
        else Ok (s, [RxTook f])
  end.

(** stats_update64 (mrmac.h l.142-149) and tick *)
Definition update64 (s : mst) (x : dir * ctr) : mst :=
  let (d, c) := x in
  let v := m_acc s d c in
  let r := wr (m_regs s) (a_stat d c) (v mod 2 ^ 32) in
  let r := wr r (a_stat d c + 4) (N.shiftr v 32 mod 2 ^ 32) in
  mkM r (fun d' c' => if dir_eqb d' d && ctr_eqb c' c then 0 else m_acc s d' c')
      (m_txbuf s) (m_fifo s).
Definition tick (s : mst) : mst := fold_left update64 updates s.

(** reg_b_transport, mrmac.cc l.396-416, with regapi.h l.88-177 and the deposit
    of l.82-86: an access of another
    size than 4 bytes leaves registers and data alone, a write of a register with
    w1c bits clears them.  [data] holds the bytes written, or the buffer of a
    read.  The new data comes back; the response is always TLM_OK_RESPONSE. *)
Definition w1c (a : N) : N := if (a =? A_TICK) || (a =? A_READY) then 1 else 0.
Definition reg_acc (s : mst) (is_read : bool) (addr : N) (data : list N)
    : res (mst * list N * list out) :=
  rbind (if (length data =? 4)%nat then
           if negb (known addr) then Unmodelled
           else if is_read then Ok (s, le_enc 4 (m_regs s addr))
           else Ok (set_regs s (wr (m_regs s) addr (N.ldiff (le_dec data) (w1c addr))), data)
         else Ok (s, data)) (fun x =>
  let (s, data) := x : mst * list N in
  if (4 <? length data)%nat then UB
  else if addr =? A_TICK then
    let s := tick s in
    let s := if N.odd (le_dec data)
             then set_regs s (wr (m_regs s) A_READY (N.lor (N.ldiff (m_regs s A_READY) 3) 3))
             else s in
    Ok (s, data, [Ticked])
  else Ok (s, data, [])).

Inductive op :=
| OTx (data : list N) (eop : bool) | OPhy (data : list N) (sw : N) | OTurn
| OReg (is_read : bool) (addr : N) (data : list N) | OReset.

Definition step (ins : bool) (s : mst) (o : op) : res (mst * list out) :=
  match o with
  | OTx data eop => mac_tx s data eop
  | OPhy data sw => rmap (fun s => (s, [])) (phy_rx ins s data sw)
  | OTurn => rx_turn s
  | OReg r a d => rmap (fun x => (fst (fst x), snd x)) (reg_acc s r a d)
  | OReset => Ok (reset s, [])
  end.

Fixpoint run (ins : bool) (s : mst) (l : list op) : res (mst * list out) :=
  match l with
  | [] => Ok (s, [])
  | o :: l' =>
      rbind (step ins s o) (fun x =>
      rmap (fun y => (fst y, snd x ++ snd y)) (run ins (fst x) l'))
  end.
