(** Model of libremote-port/remote-port-tlm-memory-slave.cc (the initiator side of
    a remote access) and remote-port-tlm-memory-master.cc (the target side).
    Clocks are arbitrary parameters. *)
From Verif Require Import Base TlmModel RpProtoModel.
Open Scope N_scope.

(** The attributes that the two files look at: genattr posted, master_id, eop,
    secure, IO_access (tlm-extensions/genattr.h) and atsattr is_phys_addr. *)
Record mattr := mkAttr {
  a_posted : bool; a_master : N; a_eop : bool; a_secure : bool; a_io : bool;
  a_phys : bool }.

Definition flag_if (b : bool) (f : N) : N := if b then f else 0.

(** remote-port-tlm-memory-slave.cc:66-77 genattr_to_rpattr and l.111-114 *)
Definition slave_attr (a : mattr) : N :=
  N.lor (N.lor (flag_if (a_eop a) ATTR_EOP) (flag_if (a_secure a) ATTR_SECURE))
        (flag_if (a_phys a) ATTR_PHYS_ADDR).

(** remote-port-tlm-memory-slave.cc:117-128: the encoder input.
    [master_id] goes through a uint16_t variable (l.94, 107). *)
Definition slave_in (id dev clk : N) (g : gp) (a : mattr) : busin :=
  mkIn (match g_cmd g with C_READ => CMD_read | _ => CMD_write end)
       id (flag_if (a_posted a) FLAG_posted) dev clk (a_master a mod 65536)
       (g_addr g) (slave_attr a) (g_len g) 0 (g_sw g) (g_be_len g).

(** What b_transport has done when it starts to wait (or returns). *)
Inductive slave_out :=
| S_return (st : status)          (* returned with this status, nothing sent *)
| S_posted (bytes : list N)       (* sent, returned; status left alone *)
| S_wait (bytes : list N).        (* sent, waiting for the response *)

(** remote-port-tlm-memory-slave.cc:79-147 b_transport up to response_wait.
    l.136-138 writes the data only for TLM_WRITE_COMMAND; l.139-141 writes the
    byte enables whenever their length is not 0. *)
Definition slave_send (p : caps) (id dev clk : N) (g : gp) (a : mattr) : res slave_out :=
  match g_be g, c_byte_en p with
  | Some _, false => Ok (S_return St_BYTE_ENABLE)
  | _, _ =>
    rbind (rp_encode_busaccess p (slave_in id dev clk g a)) (fun '(hd, plen) =>
      let bytes := firstn (N.to_nat plen) hd
                   ++ (match g_cmd g with C_WRITE => g_data g | _ => [] end)
                   ++ (match g_be g with Some b => b | None => [] end) in
      Ok (if a_posted a then S_posted bytes else S_wait bytes))
  end.

(** remote-port-tlm-memory-slave.cc:179-190: merge of the read data. *)
Fixpoint merge_read (be : option (list N)) (i : N) (old new : list N) : list N :=
  match old, new with
  | o :: old', n :: new' =>
    (if be_at be i then n else o) :: merge_read be (i + 1) old' new'
  | _, _ => old
  end.

(** remote-port-tlm-memory-slave.cc:147-193 b_transport from the response on. *)
Definition slave_finish (id : N) (g : gp) (r : rxpkt) : res (list N * status) :=
  if negb (h_id (r_hdr r) =? id) then AssertFail
  else match r_pl r with
  | PBus b e =>
    let st := match bus_response (b_attr b) with
              | 0 => St_OK
              | 2 => St_ADDRESS
              | _ => St_GENERIC
              end in
    match g_cmd g with
    | C_READ =>
      let off := rx_dataptr b e in
      let n := length (g_data g) in
      (* reading beyond the packet buffer is UB *)
      if (length (slice off n (r_buf r)) <? n)%nat then UB
      else Ok (merge_read (g_be g) 0 (g_data g) (slice off n (r_buf r)), st)
    | _ => Ok (g_data g, st)
    end
  | _ => Unmodelled
  end.

(** A target behind the memory master: an arbitrary device.  It gets the payload
    (command, address, data buffer, streaming width; never byte enables) and
    attributes, and returns its new state, the data buffer and a status. *)
Definition target (S : Type) := S -> gp -> mattr -> S * list N * status.

Definition resp_code (st : status) : N :=
  match st with St_OK => 0 | St_ADDRESS => 2 | _ => 1 end.

(** remote-port-tlm-memory-master.cc:51-100 rp_bus_access *)
Definition bus_access {S} (t : target S) (s : S) (h : hdr) (b : bus) (cmd : command)
    (data : list N) : res (S * list N * N) :=
  if negb (b_width b =? 0) then AssertFail
  else
    let g := mkGp cmd (b_addr b) data None (b_sw b) St_INCOMPLETE in
    let a := mkAttr (has_flag (h_flags h) FLAG_posted) (b_master b)
               (has_flag (b_attr b) ATTR_EOP) (has_flag (b_attr b) ATTR_SECURE)
               (has_flag (b_attr b) ATTR_IO_ACCESS) false in
    let '(s', d, st) := t s g a in
    Ok (s', d, resp_code st).

(** remote-port-tlm-memory-master.cc:129-131 and 162-164: response input. *)
Definition rsp_in (h : hdr) (b : bus) (clk resp : N) : busin :=
  let i := rsp_init h b in
  mkIn (i_cmd i) (i_id i) (i_flags i) (i_dev i) clk (i_master i) (i_addr i)
       (N.lor (i_attr i) (resp * 256)) (i_size i) (i_width i) (i_sw i) (i_be_len i).

(** remote-port-tlm-memory-master.cc:102-137 cmd_read_null with a device.  The
    transmit buffer is fresh and zeroed; the device fills the data at the place
    predicted from the peer's capabilities (l.119), then the header is written
    over the front of the buffer and [plen] bytes are sent. *)
Definition master_read {S} (p : caps) (t : target S) (s : S) (clk : N) (h : hdr) (b : bus)
  : res (S * list N) :=
  let n := N.to_nat (b_len b) in
  let buf := repeat 0 (Nat.max 88 (80 + n)) in
  let off := if c_ext_base p then 80%nat else 58%nat in
  rbind (bus_access t s h b C_READ (slice off n buf)) (fun '(s', d, resp) =>
    let buf1 := overlay off d buf in
    rbind (rp_encode_busaccess p (rsp_in h b clk resp)) (fun '(hd, plen) =>
      Ok (s', firstn (N.to_nat plen) (overlay 0 hd buf1)))).

(** remote-port-tlm-memory-master.cc:139-173 cmd_write_null with a device; [data]
    is the data area that rp_process passes (remote-port-tlm.cc:542-543). *)
Definition master_write {S} (p : caps) (t : target S) (s : S) (clk : N) (h : hdr) (b : bus)
    (data : list N) : res (S * list N) :=
  rbind (bus_access t s h b C_WRITE data) (fun '(s', _, resp) =>
    if has_flag (h_flags h) FLAG_posted then Ok (s', [])
    else
      rbind (rp_encode_busaccess p (rsp_in h b clk resp)) (fun '(hd, plen) =>
        Ok (s', firstn (N.to_nat plen) (overlay 0 hd (repeat 0 88))))).

(** remote-port-tlm.cc:576-602: dispatch of a bus request. *)
Definition master_handle {S} (p : caps) (t : target S) (s : S) (clk : N) (r : rxpkt)
  : res (S * list N) :=
  match r_pl r with
  | PBus b _ =>
    if h_cmd (r_hdr r) =? CMD_write
    then master_write p t s clk (r_hdr r) b (rx_data r)
    else master_read p t s clk (r_hdr r) b
  | _ => Unmodelled
  end.

(** One non-posted remote access from start to end: request bytes to the remote
    receive loop, handling there, response bytes to the local receive loop, rest
    of b_transport.  [pl] are the capabilities the initiator side knows of its
    peer, [pr] those the remote side knows.  [buf1], [buf2] are the two receive
    buffers. *)
Definition remote_access {S} (pl pr : caps) (t : target S) (s : S) (id dev clk1 clk2 : N)
    (buf1 buf2 : list N) (g : gp) (a : mattr) : res (S * list N * status) :=
  rbind (slave_send pl id dev clk1 g a) (fun o =>
    match o with
    | S_return st => Ok (s, g_data g, st)
    | S_posted bytes =>
      rbind (rx_one buf1 bytes) (fun '(r, _) =>
        rbind (master_handle pr t s clk2 r) (fun '(s', _) =>
          Ok (s', g_data g, g_status g)))
    | S_wait bytes =>
      rbind (rx_one buf1 bytes) (fun '(r, _) =>
        rbind (master_handle pr t s clk2 r) (fun '(s', rsp) =>
          rbind (rx_one buf2 rsp) (fun '(r2, _) =>
            rbind (slave_finish id g r2) (fun '(d, st) => Ok (s', d, st)))))
    end).
