(** Specification of the remote-port wire protocol, independent of the encoder
    and decoder: the messages a sender means, and what a receiver has to see. *)
From Verif Require Import Base RpProtoModel.
Open Scope N_scope.

(** A message as the sender means it. *)
Inductive msg :=
| MHello (id dev major minor : N) (cap : list N)
| MBus (i : busin) (data be : list N)
| MIrq (id dev clk line vec val flags : N)
| MSync (id dev clk flags : N)
| MAts (cmd id dev clk attr addr len result flags : N).

(** Does a bus message carry data?  Write requests and read responses do. *)
Definition carries_data (i : busin) : bool :=
  ((i_cmd i =? CMD_write) && negb (has_flag (i_flags i) FLAG_response))
  || ((i_cmd i =? CMD_read) && has_flag (i_flags i) FLAG_response).

(** Field ranges: every C parameter fits its type, data and byte enables have
    the announced lengths, and the packet length fits the 32-bit length field. *)
Definition wf_in (i : busin) : Prop :=
  i_cmd i < u32 /\ i_id i < u32 /\ i_flags i < u32 /\ i_dev i < u32 /\
  i_clk i < u64 /\ i_master i < u64 /\ i_addr i < u64 /\ i_attr i < u64 /\
  i_size i < u32 /\ i_width i < u32 /\ i_sw i < u32 /\ i_be_len i < u32.

Definition wf_msg (m : msg) : Prop :=
  match m with
  | MHello id dev major minor cap =>
      id < u32 /\ dev < u32 /\ major < u16 /\ minor < u16 /\
      Forall (fun c => c < u32) cap /\ N.of_nat (length cap) < u16
  | MBus i data be =>
      wf_in i /\ (i_cmd i = CMD_read \/ i_cmd i = CMD_write) /\
      N.of_nat (length data) = (if carries_data i then i_size i else 0) /\
      N.of_nat (length be) = i_be_len i /\
      bytes_ok data /\ bytes_ok be /\
      80 + i_size i + i_be_len i < u32
  | MIrq id dev clk line vec val flags =>
      id < u32 /\ dev < u32 /\ clk < u64 /\ line < u32 /\ vec < u64 /\
      val < u8 /\ flags < u32
  | MSync id dev clk flags => id < u32 /\ dev < u32 /\ clk < u64 /\ flags < u32
  | MAts cmd id dev clk attr addr len result flags =>
      (cmd = CMD_ats_req \/ cmd = CMD_ats_inv) /\
      id < u32 /\ dev < u32 /\ clk < u64 /\ attr < u64 /\ addr < u64 /\
      len < u64 /\ result < u32 /\ flags < u32
  end.

(** The bytes the sender writes for a message.  Bus messages: header, then the
    data, then the byte enables (remote-port-tlm-memory-slave.cc:131-141 for
    requests; for read responses header and data are one buffer,
    remote-port-tlm-memory-master.cc:118-135).  Others: one buffer, for hello
    followed by the capability array (remote-port-tlm.cc:468-472).  [junk] is the
    content of reserved fields. *)
Definition wire (p : caps) (junk : list N) (m : msg) : res (list N) :=
  match m with
  | MHello id dev major minor cap =>
      Ok (rp_encode_hello_caps id dev major minor cap (firstn 2 junk))
  | MBus i data be =>
      rmap (fun '(hd, _) => hd ++ data ++ be) (rp_encode_busaccess p i)
  | MIrq id dev clk line vec val flags =>
      Ok (rp_encode_interrupt id dev clk line vec val flags)
  | MSync id dev clk flags => Ok (rp_encode_sync id dev clk flags)
  | MAts cmd id dev clk attr addr len result flags =>
      Ok (rp_encode_ats cmd id dev clk attr addr len result flags (firstn 32 junk))
  end.

(** What the receiver must see for each message. *)
Definition hdr_is (h : hdr) (cmd id dev flags : N) : Prop :=
  h_cmd h = cmd /\ h_id h = id /\ h_dev h = dev /\ h_flags h = flags.

Definition sees (p : caps) (m : msg) (r : rxpkt) : Prop :=
  match m with
  | MHello id dev major minor cap =>
      hdr_is (r_hdr r) CMD_hello id dev 0 /\
      r_pl r = PHello major minor 32 (N.of_nat (length cap)) cap /\ rx_data r = []
  | MBus i data be =>
      hdr_is (r_hdr r) (i_cmd i) (i_id i) (i_dev i) (i_flags i) /\
      exists b e,
        r_pl r = PBus b e /\
        b_ts b = i_clk i /\ b_addr b = i_addr i /\ b_len b = i_size i /\
        b_width b = i_width i /\ b_sw b = i_sw i /\
        b_master b = i_master i /\
        (* attributes: the extended-layout marker aside, as given *)
        N.lor (b_attr b) ATTR_EXT_BASE = N.lor (i_attr i) ATTR_EXT_BASE /\
        (* data and byte enables where the receiver looks for them *)
        slice (rx_dataptr b e) (length data) (r_buf r) = data /\
        (e = None -> be = []) /\
        rx_byte_en (r_hdr r) e =
          Ok (if i_be_len i =? 0 then None else Some (rx_dataptr b e + length data)%nat) /\
        slice (rx_dataptr b e + length data) (length be) (r_buf r) = be /\
        (* the data area handed to the device model *)
        rx_data r = data ++ be
  | MIrq id dev clk line vec val flags =>
      hdr_is (r_hdr r) CMD_interrupt id dev flags /\
      r_pl r = PIrq clk vec line val /\ rx_data r = []
  | MSync id dev clk flags =>
      hdr_is (r_hdr r) CMD_sync id dev flags /\ r_pl r = PSync clk /\ rx_data r = []
  | MAts cmd id dev clk attr addr len result flags =>
      hdr_is (r_hdr r) cmd id dev flags /\
      exists ts, r_pl r = PAts ts attr addr len result
  end.

(** Messages the stream theorem covers: ids fit 16 bits (see the refutation for
    larger ones); for the old layout (peer without the extended-base capability)
    there are no byte enables and the id is not 0xffff, which the encoder rejects
    by assertion. *)
Definition sendable (p : caps) (m : msg) : Prop :=
  wf_msg m /\
  match m with
  | MBus i _ be =>
      i_master i < 65536 /\
      (bus_old_layout p i = true -> be = [] /\ i_master i <> 65535)
  | _ => True
  end.

(** The bytes of a message sequence, one message after the other. *)
Fixpoint wire_all (p : caps) (junk : list N) (ms : list msg) : res (list N) :=
  match ms with
  | [] => Ok []
  | m :: ms' => rbind (wire p junk m) (fun b => rmap (app b) (wire_all p junk ms'))
  end.

(** Enough bytes to fill the reserved fields. *)
Definition junk_ok (junk : list N) : Prop := (32 <= length junk)%nat.

(** The receive buffer is never smaller than 148 bytes
    (remote-port-tlm.cc:520: sizeof(hdr) + 128). *)
Definition rxbuf_ok (buf : list N) : Prop := (148 <= length buf)%nat.
