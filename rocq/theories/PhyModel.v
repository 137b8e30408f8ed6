(** Models of the Ethernet PHY bridges: tlm-bridges/tlm2mii-bridge.h,
    mii2tlm-bridge.h, tlm2xgmii-bridge.h and xgmii2tlm-bridge.h.

    The wires are the sequence of values seen at successive rising clock edges:
    a value written at one edge is seen at the next.  The FIFO of one packet
    between b_transport and the sending thread only adds idle cycles. *)
From Verif Require Import Base CrcModel.
Open Scope N_scope.

(** sizeof buf in both receivers *)
Definition BUF : N := 8192.

(** ** MII *)
(** enable and data *)
Definition nibble := (bool * N)%type.

(** tlm2mii-bridge.h:79-102 (push_data_buf), one byte *)
Definition mii_byte (en : bool) (b : N) : list nibble :=
  map (fun i => (en, N.land (N.shiftr b (i * 4)) 15)) [0; 1].
Definition mii_push (en : bool) (buf : list N) : list nibble := flat_map (mii_byte en) buf.

(** tlm2mii-bridge.h:124-129: crc_d, low byte first *)
Definition crc_bytes (crc : N) : list N :=
  [crc mod 256; N.shiftr crc 8 mod 256; N.shiftr crc 16 mod 256; N.shiftr crc 24 mod 256].

(** tlm2mii-bridge.h:104-137 (process_packet).  The last nibble stays on the
    wires with enable low for [gap + 1] cycles, until the next packet. *)
Definition mii_send (csum : bool) (data : list N) (gap : nat) : list nibble :=
  let body := mii_push true data ++ (if csum then mii_push true (crc_bytes (crc32 0 data)) else []) in
  let pre := mii_push true [85; 85; 85; 85; 85; 85; 85; 213] in
  mii_push false (repeat 7 8) ++ pre ++ body ++
  repeat (false, snd (last (pre ++ body) (false, 0))) (S gap).

(** mii2tlm-bridge.h:47-61 *)
Inductive mii_state := M_IDLE | M_PREAMBLE | M_DATA.
Record mii_rx := mkMii { m_state : mii_state; m_d8 : N; m_cnt : N; m_buf : list N }.
(** :78-87 (reset) *)
Definition mii_reset := mkMii M_IDLE 0 0 [].

(** :89-125 (process_nibble) *)
Definition process_nibble (s : mii_rx) (d4 : N) : res mii_rx :=
  match m_state s with
  | M_IDLE => Ok (if d4 =? 5 then mkMii M_PREAMBLE (m_d8 s) (m_cnt s) (m_buf s) else s)
  | M_PREAMBLE =>
    if d4 =? 5 then Ok s
    else Ok (mkMii (if d4 =? 13 then M_DATA else M_IDLE) (m_d8 s) (m_cnt s) (m_buf s))
  | M_DATA =>
    if m_cnt s =? 0 then Ok (mkMii M_DATA d4 1 (m_buf s))
    else if m_cnt s =? 1 then
      if N.of_nat (length (m_buf s)) <? BUF
      then Ok (mkMii M_DATA 0 0 (m_buf s ++ [N.lor (m_d8 s) (N.shiftl d4 4) mod 256]))
      else UB                                      (* buf[len++] out of bounds *)
    else Ok s
  end.

(** :145-171 (process): the payloads sent *)
Fixpoint mii_receive (s : mii_rx) (w : list nibble) : res (list (list N) * mii_rx) :=
  match w with
  | [] => Ok ([], s)
  | (true, d) :: w' => rbind (process_nibble s d) (fun s' => mii_receive s' w')
  | (false, _) :: w' =>
    rbind (mii_receive mii_reset w') (fun r =>
    Ok (match m_buf s with [] => fst r | p => p :: fst r end, snd r))
  end.

(** ** XGMII *)
(** xxd and xxc *)
Definition cycle := (N * N)%type.
Inductive xmode := MODE_10G | MODE_1G.
Definition lanes (m : xmode) : nat := match m with MODE_10G => 8 | MODE_1G => 1 end.

(** tlm2xgmii-bridge.h:84-115 (push_data_buf): one cycle of at most [lanes]
    bytes, then the rest; [l] is the lane. *)
Fixpoint x_lanes (l : N) (bs : list N) (ctrl data c : N) : cycle :=
  match bs with
  | [] => (data, c)
  | b :: bs' =>
    x_lanes (l + 1) bs' (N.shiftr ctrl 1) (N.lor data (N.shiftl b (l * 8)))
            (N.lor (N.ldiff c (N.shiftl 1 l)) (N.shiftl (N.land ctrl 1) l))
  end.
Fixpoint x_push (fuel n : nat) (buf : list N) (ctrl : N) : list cycle :=
  match fuel, buf with
  | S fuel', _ :: _ =>
    let bs := firstn n buf in
    x_lanes 0 bs ctrl 0 255 ::
    x_push fuel' n (skipn n buf) (N.shiftr ctrl (N.of_nat (length bs)))
  | _, _ => []
  end.
Definition push_data_buf (m : xmode) (buf : list N) (ctrl : N) : list cycle :=
  x_push (length buf) (lanes m) buf ctrl.

(** :117-159 (process_packet) *)
Definition idle_seq : list N := repeat 7 8.
Definition tail_bytes (rest : list N) : list N :=
  let d := rest ++ [192; 193; 194; 195; 253] in
  let n := length d in
  firstn (if Nat.ltb 8 n then 16 else 8) (d ++ repeat 7 (16 - n)).
Definition tail_ctrl (rest : list N) : N :=
  (N.shiftl 4294967295 (N.of_nat (length rest) + 4)) mod u32.
Definition x_packet (m : xmode) (data : list N) : list cycle :=
  let n8 := (length data / 8 * 8)%nat in
  push_data_buf m idle_seq 255 ++ push_data_buf m idle_seq 255 ++
  push_data_buf m [251; 85; 85; 85; 85; 85; 85; 213] 1 ++
  push_data_buf m (firstn n8 data) 0 ++
  push_data_buf m (tail_bytes (skipn n8 data)) (tail_ctrl (skipn n8 data)) ++
  push_data_buf m idle_seq 255.
(** The last cycle stays on the wires until the next packet. *)
Definition x_send (m : xmode) (data : list N) (gap : nat) : list cycle :=
  x_packet m data ++ repeat (last (x_packet m data) (0, 0)) gap.

(** xgmii2tlm-bridge.h:53-59; [x_buf] holds the first len bytes of buf *)
Record x_rx := mkXrx { x_sof : bool; x_55 : bool; x_d5 : bool; x_buf : list N }.
(** :78-86 (reset) *)
Definition x_reset := mkXrx false false false [].

(** Payload sent: its length, and its bytes, a prefix of buf.  With fewer than
    four bytes the length is the wrapped difference (:113). *)
Inductive x_out := X_Packet (d : list N) | X_Runt (len : N).
Definition x_emit (buf : list N) : x_out :=
  let n := N.of_nat (length buf) in
  if n <? 4 then X_Runt (u32 + n - 4) else X_Packet (firstn (length buf - 4) buf).

(** :88-141 (process_byte) *)
Definition process_byte (s : x_rx) (d : N) (ctrl : bool) : res (x_rx * list x_out) :=
  if ctrl then
    if d =? 251 then Ok (mkXrx true false false [], [])
    else if d =? 254 then Ok (x_reset, [])
    else if d =? 253 then
      if x_d5 s then Ok (x_reset, [x_emit (x_buf s)]) else Ok (x_reset, [])
    else Ok (s, [])
  else
    let s1 :=
      if x_sof s then
        if x_d5 s then
          if N.of_nat (length (x_buf s)) <? BUF
          then Ok (mkXrx true (x_55 s) true (x_buf s ++ [d])) else UB
        else if x_55 s then Ok (if d =? 213 then mkXrx true true true (x_buf s) else s)
        else Ok (if d =? 85 then mkXrx true true (x_d5 s) (x_buf s) else s)
      else Ok s in
    rbind s1 (fun s' =>
    Ok (if N.of_nat (length (x_buf s')) =? BUF then x_reset else s', [])).

Fixpoint process_bytes (s : x_rx) (l : list (N * bool)) : res (x_rx * list x_out) :=
  match l with
  | [] => Ok (s, [])
  | (d, c) :: l' =>
    rbind (process_byte s d c) (fun r =>
    rbind (process_bytes (fst r) l') (fun r' => Ok (fst r', snd r ++ snd r')))
  end.

(** :162-184 (process), one clock edge *)
Definition lane_byte (d64 : N) (l : nat) : N := N.shiftr d64 (N.of_nat l * 8) mod 256.
Definition lane_ctrl (c8 : N) (l : nat) : bool := N.testbit c8 (N.of_nat l).
Definition x_cycle (m : xmode) (s : x_rx) (w : cycle) : res (x_rx * list x_out) :=
  let bytes := map (lane_byte (fst w)) (seq 0 (lanes m)) in
  match m with
  | MODE_10G =>
    if x_d5 s && (snd w =? 0) then
      if N.of_nat (length (x_buf s)) + 8 <=? BUF                (* memcpy *)
      then Ok (mkXrx (x_sof s) (x_55 s) true (x_buf s ++ bytes), []) else UB
    else process_bytes s (combine bytes (map (lane_ctrl (snd w)) (seq 0 8)))
  | MODE_1G => process_bytes s (combine bytes (map (lane_ctrl (snd w)) (seq 0 1)))
  end.
Fixpoint x_receive (m : xmode) (s : x_rx) (w : list cycle) : res (list x_out * x_rx) :=
  match w with
  | [] => Ok ([], s)
  | c :: w' =>
    rbind (x_cycle m s c) (fun r =>
    rbind (x_receive m (fst r) w') (fun r' => Ok (snd r ++ fst r', snd r')))
  end.
