(** Model of libremote-port/remote-port-proto.{h,c}: packet layouts, the encode
    and decode functions, capability processing; and of the receive loop of
    libremote-port/remote-port-tlm.cc as far as it cuts the byte stream into
    packets.

    Host is little-endian (the code supports both; the byte-swapping macros of
    remote-port-proto.c:54-90 make the wire format the same).  Signed 64-bit
    clocks are represented by their unsigned 64-bit value. *)
From Verif Require Import Base.
Open Scope N_scope.

(** remote-port-proto.h:64-75 enum rp_cmd *)
Definition CMD_nop := 0.
Definition CMD_hello := 1.
Definition CMD_cfg := 2.
Definition CMD_read := 3.
Definition CMD_write := 4.
Definition CMD_interrupt := 5.
Definition CMD_sync := 6.
Definition CMD_ats_req := 7.
Definition CMD_ats_inv := 8.

(** remote-port-proto.h:85-97 packet flags (bit numbers) *)
Definition FLAG_optional := 1.
Definition FLAG_response := 2.
Definition FLAG_posted := 4.
Definition has_flag (flags f : N) : bool := negb (N.land flags f =? 0).

(** remote-port-proto.h:158-177 bus attributes *)
Definition ATTR_EOP := 1.
Definition ATTR_SECURE := 2.
Definition ATTR_EXT_BASE := 4.
Definition ATTR_PHYS_ADDR := 8.
Definition ATTR_IO_ACCESS := 16.
Definition RESP_SHIFT := 8.
Definition RESP_MASK := 3840.      (* 0xF << 8 *)

(** remote-port-proto.h:99-105 struct rp_pkt_hdr; memory order cmd, len, id,
    flags, dev. *)
Record hdr := mkHdr { h_cmd : N; h_len : N; h_id : N; h_flags : N; h_dev : N }.

(** Sizes of the packed structs, remote-port-proto.h:99-281. *)
Definition SZ_hdr : nat := 20.
Definition SZ_hello : nat := 32.
Definition SZ_bus : nat := 58.
Definition SZ_ext : nat := 80.
Definition SZ_irq : nat := 41.
Definition SZ_sync : nat := 28.
Definition SZ_ats : nat := 88.

(** remote-port-proto.c:215-223 rp_encode_hdr.  Arguments are uint32_t, so
    each is reduced to 32 bits by [be_enc 4]. *)
Definition rp_encode_hdr (cmd id dev len flags : N) : list N :=
  be_enc 4 cmd ++ be_enc 4 len ++ be_enc 4 id ++ be_enc 4 flags ++ be_enc 4 dev.

(** remote-port-proto.c:110-121 rp_decode_hdr *)
Definition rp_decode_hdr (buf : list N) : hdr :=
  mkHdr (fld 0 4 buf) (fld 4 4 buf) (fld 8 4 buf) (fld 12 4 buf) (fld 16 4 buf).

(** remote-port-proto.c:225-249 rp_encode_hello_caps, followed by the caller's
    write of the encoded capability array (remote-port-tlm.cc:468-472).
    [rsv] is the content of the caps.reserved0 field, which the encoder does not
    touch. *)
Definition rp_encode_hello_caps (id dev major minor : N) (caps : list N)
    (rsv : list N) : list N :=
  let n := N.of_nat (length caps) in
  rp_encode_hdr CMD_hello id dev (32 + 4 * n - 20) 0
  ++ be_enc 2 major ++ be_enc 2 minor
  ++ be_enc 4 32 ++ be_enc 2 n ++ rsv
  ++ flat_map (be_enc 4) caps.

(** remote-port-proto.h:303-308 peer capability record *)
Record caps := mkCaps {
  c_ext_base : bool; c_byte_en : bool; c_wire_posted : bool; c_ats : bool }.

(** remote-port-proto.h:435-448 struct rp_encode_busaccess_in *)
Record busin := mkIn {
  i_cmd : N; i_id : N; i_flags : N; i_dev : N; i_clk : N; i_master : N;
  i_addr : N; i_attr : N; i_size : N; i_width : N; i_sw : N; i_be_len : N }.

(** remote-port-proto.c:251-263 rp_encode_busaccess_common (struct order:
    timestamp, attributes, addr, len, width, stream_width, master_id). *)
Definition encode_bus_common (clk master addr attr size width sw : N) : list N :=
  be_enc 8 clk ++ be_enc 8 attr ++ be_enc 8 addr ++ be_enc 4 size
  ++ be_enc 4 width ++ be_enc 4 sw ++ be_enc 2 master.

(** remote-port-proto.c:325-332: number of data bytes counted in the header. *)
Definition bus_hsize (i : busin) : N :=
  if (i_cmd i =? CMD_write) && negb (has_flag (i_flags i) FLAG_response)
  then i_size i
  else if (i_cmd i =? CMD_read) && has_flag (i_flags i) FLAG_response
  then i_size i
  else 0.

(** remote-port-proto.c:329-332: ret_size, the data bytes the caller is told to
    write together with the header (read responses only). *)
Definition bus_ret_size (i : busin) : N :=
  if (i_cmd i =? CMD_read) && has_flag (i_flags i) FLAG_response
  then i_size i else 0.

(** remote-port-proto.c:338: old layout chosen? *)
Definition bus_old_layout (p : caps) (i : busin) : bool :=
  negb (c_ext_base p) && negb (has_flag (i_attr i) ATTR_EXT_BASE).

(** remote-port-proto.c:318-369 rp_encode_busaccess: header bytes written at the
    start of the packet buffer (without data) and the returned size. *)
Definition rp_encode_busaccess (p : caps) (i : busin) : res (list N * N) :=
  let hsize := bus_hsize i in
  if bus_old_layout p i then
    if i_master i <? 65535 then
      Ok (rp_encode_hdr (i_cmd i) (i_id i) (i_dev i) (58 - 20 + hsize) (i_flags i)
          ++ encode_bus_common (i_clk i) (i_master i) (i_addr i) (i_attr i)
               (i_size i) (i_width i) (i_sw i),
          58 + bus_ret_size i)
    else AssertFail
  else
    Ok (rp_encode_hdr (i_cmd i) (i_id i) (i_dev i)
          (80 - 20 + (hsize + i_be_len i)) (i_flags i)
        ++ encode_bus_common (i_clk i) (i_master i) (i_addr i)
             (N.lor (i_attr i) ATTR_EXT_BASE) (i_size i) (i_width i) (i_sw i)
        ++ be_enc 2 (i_master i / 65536)
        ++ be_enc 4 (i_master i / 4294967296)
        ++ be_enc 4 80 ++ be_enc 4 0
        ++ be_enc 4 (80 + hsize) ++ be_enc 4 (i_be_len i),
        80 + bus_ret_size i).

(** remote-port-proto.c:371-392 rp_encode_interrupt(_f) *)
Definition rp_encode_interrupt (id dev clk line vec val flags : N) : list N :=
  rp_encode_hdr CMD_interrupt id dev (41 - 20) flags
  ++ be_enc 8 clk ++ be_enc 8 vec ++ be_enc 4 line ++ be_enc 1 val.

(** remote-port-proto.c:429-451 rp_encode_sync / rp_encode_sync_resp *)
Definition rp_encode_sync (id dev clk flags : N) : list N :=
  rp_encode_hdr CMD_sync id dev (28 - 20) flags ++ be_enc 8 clk.

(** remote-port-proto.c:394-427 rp_encode_ats_req/inv; [rsv] is the content of
    the four reserved words, which the encoder does not touch. *)
Definition rp_encode_ats (cmd id dev clk attr addr len result flags : N)
    (rsv : list N) : list N :=
  rp_encode_hdr cmd id dev (88 - 20) flags
  ++ be_enc 8 clk ++ be_enc 8 attr ++ be_enc 8 addr ++ be_enc 8 len
  ++ be_enc 4 result ++ rsv.

(** Decoded payloads, in host order. *)
Record bus := mkBus {
  b_ts : N; b_attr : N; b_addr : N; b_len : N; b_width : N; b_sw : N;
  b_master : N }.
Record ext := mkExt {
  e_mid_31_16 : N; e_mid_63_32 : N; e_data_off : N; e_next_off : N;
  e_be_off : N; e_be_len : N }.
Inductive payload :=
| PHello (major minor caps_off caps_len : N) (caps : list N)
| PBus (b : bus) (e : option ext)
| PIrq (ts vec line val : N)
| PSync (ts : N)
| PAts (ts attr addr len result : N)
| POther.

(** Capability words at [off], [n] of them: remote-port-proto.c:143-152. *)
Fixpoint read_caps (n off : nat) (buf : list N) : list N :=
  match n with
  | O => []
  | S n' => fld off 4 buf :: read_caps n' (off + 4) buf
  end.

(** remote-port-proto.c:123-213 rp_decode_payload on the packet buffer [buf]
    (header already decoded to [h]).  Result: decoded payload and the returned
    [used].  Capability words are converted in place at an offset taken from
    the packet: outside the buffer this is UB, inside the fixed part it would
    rewrite already decoded fields (Unmodelled).
    l.172-189: the 64-bit master id is reassembled but stored into the 16-bit
    busaccess.master_id field; master_id_31_16/63_32 stay in wire order.
    l.202-208: the ATS timestamp is not converted and [used] stays 0.
    Reads beyond the buffer cannot happen for the fixed parts because the
    receive buffer always has at least 148 bytes (remote-port-tlm.cc:520). *)
Definition rp_decode_payload (h : hdr) (buf : list N) : res (payload * N) :=
  if h_cmd h =? CMD_hello then
    if 4 <=? h_len h then
      let major := fld 20 2 buf in
      let minor := fld 22 2 buf in
      if 8 <=? h_len h - 4 then
        let off := fld 24 4 buf in
        let n := fld 28 2 buf in
        if n =? 0 then Ok (PHello major minor off n [], h_len h)
        else if N.of_nat (length buf) <? off + 4 * n then UB
        else if off <? 32 then Unmodelled
        else Ok (PHello major minor off n
                   (read_caps (N.to_nat n) (N.to_nat off) buf), h_len h)
      else Ok (PHello major minor 0 0 [], h_len h)
    else AssertFail
  else if (h_cmd h =? CMD_write) || (h_cmd h =? CMD_read) then
    if 38 <=? h_len h then
      let ts := fld 20 8 buf in
      let attr := fld 28 8 buf in
      let addr := fld 36 8 buf in
      let len := fld 44 4 buf in
      let width := fld 48 4 buf in
      let sw := fld 52 4 buf in
      let mid := fld 56 2 buf in
      if has_flag attr ATTR_EXT_BASE then
        if 60 <=? h_len h then
          let mid64 := N.lor (N.lor mid (fld 58 2 buf * 65536))
                             (fld 60 4 buf * 4294967296) in
          Ok (PBus (mkBus ts attr addr len width sw (mid64 mod 65536))
                   (Some (mkExt (le_dec (slice 58 2 buf)) (le_dec (slice 60 4 buf))
                            (fld 64 4 buf) (fld 68 4 buf)
                            (fld 72 4 buf) (fld 76 4 buf))),
              60)
        else AssertFail
      else Ok (PBus (mkBus ts attr addr len width sw mid) None, 38)
    else AssertFail
  else if h_cmd h =? CMD_interrupt then
    Ok (PIrq (fld 20 8 buf) (fld 28 8 buf) (fld 36 4 buf) (fld 40 1 buf), h_len h)
  else if h_cmd h =? CMD_sync then
    Ok (PSync (fld 20 8 buf), h_len h)
  else if (h_cmd h =? CMD_ats_req) || (h_cmd h =? CMD_ats_inv) then
    Ok (PAts (le_dec (slice 20 8 buf)) (fld 28 8 buf) (fld 36 8 buf)
             (fld 44 8 buf) (fld 52 4 buf), 0)
  else Ok (POther, 0).

(** remote-port-proto.c:453-480 rp_process_caps *)
Definition process_cap (c : caps) (w : N) : caps :=
  if w =? 1 then mkCaps true (c_byte_en c) (c_wire_posted c) (c_ats c)
  else if w =? 2 then mkCaps (c_ext_base c) true (c_wire_posted c) (c_ats c)
  else if w =? 3 then mkCaps (c_ext_base c) (c_byte_en c) true (c_ats c)
  else if w =? 4 then mkCaps (c_ext_base c) (c_byte_en c) (c_wire_posted c) true
  else c.
Definition rp_process_caps (c : caps) (l : list N) : res caps :=
  if c_ext_base c then AssertFail else Ok (fold_left process_cap l c).

(** remote-port-tlm.cc:232-243 remoteport_packet::alloc: grow with zeroes. *)
Definition pkt_alloc (n : nat) (buf : list N) : list N :=
  buf ++ repeat 0 (n - length buf).

(** What rp_process hands on for one packet: decoded header and payload, the
    data area ([datalen] = hdr.len - dlen bytes after header and decoded part)
    and the whole buffer (remote-port-tlm.cc:541-543). *)
Record rxpkt := mkRx { r_hdr : hdr; r_pl : payload; r_used : N; r_buf : list N }.

Definition rx_data (r : rxpkt) : list N :=
  slice (20 + N.to_nat (r_used r)) (N.to_nat (h_len (r_hdr r) - r_used r)) (r_buf r).

(** remote-port-tlm.cc:520-543: one iteration of rp_process up to the dispatch,
    on the bytes still to come ([stream]) and the reused packet buffer.
    rp_read (l.413-424) exits when the stream ends early: AssertFail. *)
Definition rx_one (buf stream : list N) : res (rxpkt * list N) :=
  if (length stream <? 20)%nat then AssertFail
  else
    let buf1 := overlay 0 (firstn 20 stream) buf in
    let h := rp_decode_hdr buf1 in
    let n := N.to_nat (h_len h) in
    let rest := skipn 20 stream in
    let buf2 := pkt_alloc (20 + n) buf1 in
    if (length rest <? n)%nat then AssertFail
    else
      let buf3 := overlay 20 (firstn n rest) buf2 in
      rbind (rp_decode_payload h buf3) (fun '(pl, used) =>
        Ok (mkRx h pl used buf3, skipn n rest)).

(** The receive loop (remote-port-tlm.cc:521-602 and process() l.625-627)
    restricted to stream cutting: packets until the stream is exhausted.  The
    packet buffer persists inside one rp_process call and is fresh in a new one;
    both are covered because theorems quantify over [buf].  [fuel] bounds the
    number of packets; exhaustion is reported as Unmodelled. *)
Fixpoint rx_all (fuel : nat) (buf stream : list N) : res (list rxpkt) :=
  match stream with
  | [] => Ok []
  | _ =>
    match fuel with
    | O => Unmodelled
    | S f =>
      rbind (rx_one buf stream) (fun '(p, rest) =>
        rbind (rx_all f (r_buf p) rest) (fun l => Ok (p :: l)))
    end
  end.

(** remote-port-proto.h:377-389 rp_busaccess_rx_dataptr and the read of [n]
    bytes there. *)
Definition rx_dataptr (b : bus) (e : option ext) : nat :=
  match e with
  | Some x => N.to_nat (e_data_off x)
  | None => 58
  end.

(** remote-port-proto.h:391-405 rp_busaccess_byte_en_ptr *)
Definition rx_byte_en (h : hdr) (e : option ext) : res (option nat) :=
  match e with
  | None => Ok None
  | Some x =>
    if e_be_len x =? 0 then Ok None
    else if e_be_off x <? 80 then AssertFail
    else if h_len h + 20 <? e_be_off x + e_be_len x then AssertFail
    else Ok (Some (N.to_nat (e_be_off x)))
  end.

(** remote-port-proto.h:532-536 rp_get_busaccess_response *)
Definition bus_response (attr : N) : N := N.shiftr (N.land attr RESP_MASK) RESP_SHIFT.

(** remote-port-proto.h:451-466 rp_encode_busaccess_in_rsp_init *)
Definition rsp_init (h : hdr) (b : bus) : busin :=
  mkIn (h_cmd h) (h_id h) (N.lor (h_flags h) FLAG_response) (h_dev h) 0
       (b_master b) (b_addr b) 0 (b_len b) (b_width b) (b_sw b) 0.
