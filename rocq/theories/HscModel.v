(** Model of /repo/soc/crypto/xilinx/hsc/hsc.cc and hsc.h: the register interface, the
    key memory, and the MACsec path of the encoder and of the decoder.

    A driver puts a number on a pin; the type of the pin (hsc.h l.65-131) is sc_int, so
    that the module reads it with a sign.  Memory from new[] that was never written is
    [None].  SC_REPORT_ERROR throws by default: [AssertFail].  Simplified: the key memory
    is one flat array of 8 * 1024 words; lengths fit in an int; iv_salt, spare_in, zlen and
    ssci are latched but not used by the code and left out; the delete of an array from
    new[] (l.549, l.763) counts as harmless. *)
From Coq Require Import ZArith.
From Verif Require Import Base CrcModel.
Open Scope N_scope.

(** hsc.h l.29-33 *)
Definition MAX_PORT : N := 4.
Definition MAX_REGS : N := 8000.       (* 0x7D00 >> 2 *)
Definition KEY_WORDS : nat := 8.
Definition MAX_KEYS : Z := 1024.
(** hsc.cc l.40-117: word indices of the registers the code treats in a special way *)
Definition R_REVISION : N := 0.
Definition R_P0_ENC : N := 1024.       (* 0x01000 >> 2 *)
Definition R_P0_DEC : N := 1025.       (* 0x01004 >> 2 *)
Definition R_CTRL (tx : bool) : N := if tx then 4096 else 6144.   (* 0x4000, 0x6000 *)
Definition R_WDATA (tx : bool) : N := if tx then 4608 else 6656.  (* 0x4800, 0x6800 *)
Definition R_RDATA (tx : bool) : N := if tx then 4864 else 6912.  (* 0x4C00, 0x6C00 *)

(** Value of a pin of type sc_int<w> on which a driver put v *)
Definition sc_int (w v : N) : Z :=
  let x := Z.of_N (v mod 2 ^ w) in
  if (x <? 2 ^ (Z.of_N w - 1))%Z then x else (x - 2 ^ Z.of_N w)%Z.
Definition to_u8 (z : Z) : N := Z.to_N (z mod 256).

(** The per-port pins, hsc.h l.65-96 and l.104-131 *)
Record pins := mkPins {
  p_auth : bool; p_byp : bool; p_suite : N; p_conf : N; p_mode : N; p_sa : N;
  p_ext : list N;   (* ext_key as 32 bytes, least significant first *)
  p_pn : N; p_an : N; p_sci : N; p_slen : N; p_tci : N }.
(** fixed_common, fixed_dec and fixed_enc without byte_count, hsc.h l.173-258 *)
Record cfg := mkCfg {
  c_auth : bool; c_byp : bool; c_suite : Z; c_conf : Z; c_mode : Z; c_sa : Z;
  c_ext : list N; c_pn : N; c_an : N; c_sci : N; c_slen : N; c_tci : N }.
(** l.350-386, l.600-624 *)
Definition latch (p : pins) : cfg :=
  mkCfg (p_auth p) (p_byp p) (sc_int 2 (p_suite p)) (sc_int 6 (p_conf p)) (sc_int 2 (p_mode p))
    (sc_int 20 (p_sa p)) (p_ext p) (p_pn p mod u64) (to_u8 (sc_int 2 (p_an p))) (p_sci p mod u64)
    (to_u8 (sc_int 8 (p_slen p))) (to_u8 (sc_int 6 (p_tci p))).
Definition cfg0 : cfg := mkCfg false false 0 0 0 0 (repeat 0 32) 0 0 0 0 0.

(** hsc.h l.165-167, l.231, l.258 *)
Record hsc := mkHsc {
  h_regs : N -> N;
  h_keys : bool -> N -> N;            (* encoder_keys (true), decoder_keys (false), by word *)
  h_bc : bool -> N -> N;              (* byte_count of the encoder (true) or decoder port *)
  h_cfg : bool -> N -> cfg }.
(** reset_thread, l.212-234 *)
Definition reset (h : hsc) : hsc :=
  mkHsc (h_regs h) (fun _ _ => 0) (fun _ _ => 0) (fun _ _ => cfg0).

Definition upd (f : N -> N) (i v : N) : N -> N := fun x => if x =? i then v else f x.
(** memcpy / memset of KEY_WORDS words *)
Definition upd_words (f : N -> N) (i : N) (v : nat -> N) : N -> N :=
  fun x => if (i <=? x) && (x <? i + N.of_nat KEY_WORDS) then v (N.to_nat (x - i)) else f x.
Definition set_regs (h : hsc) r := mkHsc r (h_keys h) (h_bc h) (h_cfg h).
Definition set_keys (h : hsc) k := mkHsc (h_regs h) k (h_bc h) (h_cfg h).
Definition set_dir {A} (f : bool -> A) (d : bool) (v : A) : bool -> A :=
  fun x => if Bool.eqb x d then v else f x.

(** The 32 bytes that start at word n of the key memory *)
Definition key_bytes (k : N -> N) (n : N) : list N :=
  flat_map (fun i => le_enc 4 (k (n + N.of_nat i))) (seq 0 KEY_WORDS).

(** reg_indirect_access, l.236-310; bit fields l.238-255 from bit 0 up *)
Definition f_ena (v : N) : bool := N.odd v.
Definition f_wr (v : N) : bool := N.odd (v / 2).
Definition f_grp (v : N) : N := (v / 4) mod 4.
Definition f_num (v : N) : N := (v / 256) mod 1024.
Definition indirect (tx : bool) (h : hsc) : hsc :=
  let v := h_regs h (R_CTRL tx) in
  if negb (f_ena v) then h
  else
    let h1 := set_regs h (upd (h_regs h) (R_CTRL tx) (v - 1)) in (* l.270 *)
    if f_grp v =? 0 then
      if f_wr v then (* l.276-280 *)
        set_keys h1 (set_dir (h_keys h1) tx
          (upd_words (h_keys h1 tx) (f_num v) (fun i => h_regs h1 (R_WDATA tx + N.of_nat i))))
      else (* l.284-293 *)
        set_regs h1 (upd (upd_words (h_regs h1) (R_RDATA tx) (fun _ => 0)) (R_RDATA tx)
          (crc32 0 (key_bytes (h_keys h1 tx) (f_num v))))
    else h1. (* l.296-308 *)

Inductive cmd := CRead | CWrite | CIgnore.
Record gp := mkGp { g_cmd : cmd; g_addr : N; g_data : list N; g_be : bool; g_sw : N }.

Definition read_only (i : N) : bool :=
  (i =? R_REVISION) || ((R_RDATA true <=? i) && (i <=? R_RDATA true + 7))
  || ((R_RDATA false <=? i) && (i <=? R_RDATA false + 7)).
(** user_if_b_transport, l.773-837: state, data of the transaction, and whether the
    response is TLM_OK_RESPONSE *)
Definition user_if (h : hsc) (g : gp) : res (hsc * list N * bool) :=
  let len := N.of_nat (length (g_data g)) in
  let i := g_addr g / 4 in
  if g_be g || (4 <? len) || (g_sw g <? len) then Ok (h, g_data g, false)      (* l.785 *)
  else if MAX_REGS <? i then Ok (h, g_data g, false)                            (* l.789 *)
  else
    match g_cmd g with
    | CRead =>
      if i =? R_REVISION then Ok (h, firstn (length (g_data g)) (le_enc 4 1), true)
      else if i <? MAX_REGS then Ok (h, firstn (length (g_data g)) (le_enc 4 (h_regs h i)), true)
      else UB                                                                   (* l.798 *)
    | CWrite =>
      let v := le_dec (g_data g) in
      if read_only i then Ok (h, g_data g, true)                                (* l.805-811 *)
      else if MAX_REGS <=? i then UB                                            (* l.823 *)
      else
        let h1 := set_regs h (upd (h_regs h) i v) in
        Ok (if i =? R_CTRL true then indirect true h1
            else if i =? R_CTRL false then indirect false h1 else h1, g_data g, true)
    | CIgnore => Ok (h, g_data g, false)                                        (* l.826 *)
    end.

(** The SecTAG, l.414-452, as bytes on a little-endian host *)
Definition sectag (c : cfg) : list N :=
  le_enc 2 58760 (* 0xE588 *) ++ [N.lor ((c_tci c * 4) mod 256) (c_an c)]
  ++ [if c_slen c =? 0 then 0 else 1] ++ le_enc 4 (c_pn c mod u32) ++ le_enc 8 (c_sci c).
(** l.456, l.672: (tci_an | 0x20) ? 16 : 8 *)
Definition tag_len (tci_an : N) : nat := if N.lor tci_an 32 =? 0 then 8 else 16.
(** l.500-507, l.717-723 *)
Definition pick_key (c : cfg) (keys : N -> N) : res (list N) :=
  if (MAX_KEYS <=? c_sa c)%Z then Ok (c_ext c)
  else if (c_sa c <? 0)%Z then UB
  else Ok (key_bytes keys (Z.to_N (c_sa c))).
(** l.509-518, l.725-734 *)
Definition key_size (c : cfg) : nat := if ((c_suite c =? 0) || (c_suite c =? 2))%Z then 16 else 32.
(** l.469-482, l.686-699 *)
Definition clear_len (c : cfg) (bc : N) (len offset : nat) : Z :=
  if c_byp c || c_auth c then (Z.of_nat len - Z.of_nat offset)%Z
  else if ((c_conf c =? 30) || (c_conf c =? 50))%Z then (c_conf c - Z.of_N bc + 12)%Z
  else 0%Z.
(** the loops of l.521-526 and l.738-743 over the bytes from offset i on *)
Fixpoint xor_from (key : list N) (ks i : nat) (d : list N) : list N :=
  match d with
  | [] => []
  | b :: d' => N.lxor b (nth (i mod ks) key 0) :: xor_from key ks (S i) d'
  end.
(** l.489-527: the bytes from offset o up to e *)
Definition crypt (c : cfg) (keys : N -> N) (data : list N) (o e : nat) : res (list N) :=
  if (o <? length data)%nat then
    rbind (pick_key c keys) (fun k => Ok (xor_from k (key_size c) o (slice o (e - o) data)))
  else Ok [].

(** l.389-532: the contents of crypt_data *)
Definition encode (c : cfg) (bc : N) (keys : N -> N) (data : list N) (eop : bool) : res (list (option N)) :=
  let len := length data in
  let clen := (len + (if (bc <? 14)%N then 16 else 0) + (if eop then 16 else 0))%nat in
  if (bc =? 0) && (len <? 14)%nat then AssertFail
  else
    let tag := firstn (tag_len (nth 2 (sectag c) 0)) (sectag c) in
    let head := if bc =? 0 then firstn 12 data ++ tag else [] in
    let off := if bc =? 0 then 12%nat else 0%nat in
    let u := clear_len c bc len off in
    if (u <? 0)%Z || (Z.of_nat len <? Z.of_nat off + u)%Z then UB (* l.484 reads too far *)
    else
      let o := (off + Z.to_nat u)%nat in
      rbind (crypt c keys data o len) (fun x =>
        let out := head ++ slice off (Z.to_nat u) data ++ x in
        if (clen <? length out)%nat then UB (* writes too far *)
        else Ok (map Some out ++ repeat None (clen - length out))).

(** l.627-746: the first plain_len bytes of plain_data *)
Definition decode (c : cfg) (bc : N) (keys : N -> N) (data : list N) : res (list N) :=
  let len := length data in
  if (bc =? 0) && (len <? 14)%nat then AssertFail
  else if (bc =? 0) && (len <? 15)%nat then UB (* l.672 reads data[14] *)
  else
    let head := if bc =? 0 then firstn 12 data else [] in
    let off := if bc =? 0 then (12 + tag_len (nth 14 data 0%N))%nat else 0%nat in
    let u := clear_len c bc len off in
    if (u <? 0)%Z || (Z.of_nat len <? Z.of_nat off + u)%Z && negb (u =? 0)%Z then UB (* l.701 *)
    else
      let o := (off + Z.to_nat u)%nat in
      rbind (crypt c keys data o (len - 16)) (fun x =>
        Ok (head ++ slice off (Z.to_nat u) data ++ x)).

Inductive sent := Refused | Sent (d : list (option N)) (eop : bool).
(** plain_input_stream_b_transport, l.312-557 (tx), and encrypted_input_stream_b_transport,
    l.559-771 (not tx); [eop]: the genattr extension, if there is one *)
Definition stream (tx : bool) (h : hsc) (port : N) (p : pins) (g : gp) (eop : option bool)
  : res (hsc * sent) :=
  if MAX_PORT <=? port then AssertFail (* l.331, l.579 *)
  else if g_be g || negb (match g_cmd g with CWrite => true | _ => false end) || negb (g_addr g =? 0)
  then Ok (h, Refused) (* l.336, l.586 *)
  else if (port =? 0) && (h_regs h (if tx then R_P0_ENC else R_P0_DEC) =? 2) then AssertFail (* l.341, l.591 *)
  else
    let bc := h_bc h tx port in
    let c := if bc =? 0 then latch p else h_cfg h tx port in
    let h1 := mkHsc (h_regs h) (h_keys h) (h_bc h)
      (set_dir (h_cfg h) tx (fun x => if x =? port then c else h_cfg h tx x)) in
    if negb (c_mode c =? 0)%Z then Ok (h1, Refused) (* l.533, l.747 *)
    else
      match eop with
      | None => UB (* l.406 and l.757 go through a null pointer *)
      | Some e =>
        if tx then rbind (encode c bc (h_keys h true) (g_data g) e) (fun d => Ok (h1, Sent d e))
        else rbind (decode c bc (h_keys h false) (g_data g)) (fun d => Ok (h1, Sent (map Some d) e))
      end.

(** What can happen to the module, and what is seen of it *)
Inductive hev :=
| User (g : gp)
| Stream (tx : bool) (port : N) (p : pins) (g : gp) (eop : option bool)
| Rst.
Inductive hout := OUser (d : list N) (ok : bool) | OStream (s : sent) | ORst.
Definition hstep (h : hsc) (e : hev) : res (hsc * hout) :=
  match e with
  | User g => rbind (user_if h g) (fun r => Ok (fst (fst r), OUser (snd (fst r)) (snd r)))
  | Stream tx port p g eop => rbind (stream tx h port p g eop) (fun r => Ok (fst r, OStream (snd r)))
  | Rst => Ok (reset h, ORst)
  end.
Fixpoint hrun (h : hsc) (es : list hev) : res (hsc * list hout) :=
  match es with
  | [] => Ok (h, [])
  | e :: es' => rbind (hstep h e) (fun r => rbind (hrun (fst r) es') (fun q => Ok (fst q, snd r :: snd q)))
  end.
