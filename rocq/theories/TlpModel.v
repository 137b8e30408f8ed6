(** Model of tlm-bridges/tlm2tlp-bridge.h (PCIe transaction layer packets), on a
    little-endian host.

    Modelled: the three header classes (TLP_Conf l.231-384, TLP_Mem l.386-695,
    TLP_Cpl l.697-886), transmitTLP (l.931-957), b_transport (l.1020-1079),
    ProcessReadDMA and ProcessWriteDMA (l.1091-1146).  transmitTLP sends one
    request at a time, so the list of requests has at most one element.  Not
    modelled: delays, the I/O and message sockets (they report an error). *)
From Verif Require Import Base TlmModel TlmSpec.
Open Scope N_scope.

(** pci.h *)
Definition Type_MRdWr : N := 0.
Definition Type_Cfg0 : N := 4.
Definition Type_Cpl : N := 10.
Definition MAX_DW : N := 1024.

(** set_x, l.42-62: the value is asserted to fit *)
Definition set_field (shift width v : N) : res N :=
  if v <? 2 ^ width then Ok (N.shiftl v shift) else AssertFail.
Definition get_field (shift width w : N) : N := N.shiftr w shift mod 2 ^ width.
(** the chains of set_x(..) | set_y(..) *)
Fixpoint fields (l : list (N * N * N)) : res N :=
  match l with
  | [] => Ok 0
  | (s, w, v) :: l' =>
    rbind (set_field s w v) (fun x => rbind (fields l') (fun y => Ok (N.lor x y)))
  end.

(** first word; the fields not listed are set to 0, l.93-107 *)
Definition word0 (fmt type len : N) : res N :=
  fields [(29, 3, fmt); (24, 5, type); (0, 10, len)].
Definition get_fmt (w : N) := get_field 29 3 w.
Definition get_type (w : N) := get_field 24 5 w.
Definition get_length (w : N) := get_field 0 10 w.
Definition get_t9 (w : N) := get_field 23 1 w.
Definition get_t8 (w : N) := get_field 19 1 w.
Definition get_data_bit (w : N) := get_field 30 1 w.

(** genattr: requester and tag; 0 without the extension *)
Record req := mkReq { q_gp : gp; q_master : N; q_tag : N }.

Definition is_wr (g : gp) : bool := match g_cmd g with C_WRITE => true | _ => false end.
Definition is_rd (g : gp) : bool := match g_cmd g with C_READ => true | _ => false end.

(** bytes as they stand in memory: m_hdr swapped in place by ByteSwap *)
Definition wire (ws : list N) : list N := flat_map (be_enc 4) ws.
Definition bswap (w : N) : N := le_dec (be_enc 4 w).

(** enabled bits [i] of [from .. from+n-1], bit number [i - base] *)
Definition be_bits (be : option (list N)) (from n base : N) : N :=
  fold_left (fun acc k =>
    let i := from + N.of_nat k in
    if be_at be i then N.lor acc (N.shiftl 1 (i - base)) else acc) (seq 0 (N.to_nat n)) 0.

(** ** TLP_Mem, l.420-584 *)
Definition dw_len (g : gp) : N := g_len g / 4 + (if g_len g mod 4 =? 0 then 0 else 1).
Definition has_be (g : gp) : bool := negb (g_be_len g =? 0).
Definition first_be (g : gp) : N :=
  if dw_len g =? 0 then 0 else if has_be g then be_bits (g_be g) 0 4 0 else 15.
(** l.501-512: bit number i, not i modulo 4; shifting by 32 or more is undefined *)
Definition last_be (g : gp) : res N :=
  if dw_len g <=? 1 then Ok 0
  else if has_be g then
    if 32 <? dw_len g * 4
    then if be_bits (g_be g) ((dw_len g - 1) * 4) 4 ((dw_len g - 1) * 4) =? 0 then Ok 0 else UB
    else Ok (be_bits (g_be g) ((dw_len g - 1) * 4) 4 0)
  else Ok 15.
(** l.537-558: the test is on the length, not on what is left *)
Fixpoint pack (l : list N) : list N :=
  match l with
  | a :: b :: c :: d :: l' =>
    N.lor (N.shiftl a 24) (N.lor (N.shiftl b 16) (N.lor (N.shiftl c 8) d)) :: pack l'
  | [a; b; c] => [N.lor (N.shiftl a 24) (N.lor (N.shiftl b 16) (N.shiftl c 8))]
  | [a; b] => [N.lor (N.shiftl a 24) (N.shiftl b 16)]
  | [a] => [N.shiftl a 24]
  | [] => []
  end.
Definition mem_data (g : gp) : res (list N) :=
  if (3 <? g_len g) && negb (g_len g mod 4 =? 0) then UB          (* reads past the buffer *)
  else Ok (pack (g_data g)).
Definition mem_words (q : req) : res (list N) :=
  let g := q_gp q in
  let big := negb (N.shiftr (g_addr g) 32 =? 0) in
  let fmt := (if big then 1 else 0) + (if is_wr g then 2 else 0) in
  let dl := dw_len g in
  rbind (word0 fmt Type_MRdWr (if dl =? MAX_DW then 0 else dl)) (fun w0 =>
  rbind (last_be g) (fun lb =>
  rbind (fields [(16, 16, q_master q); (8, 8, q_tag q); (4, 4, lb); (0, 4, first_be g)]) (fun w1 =>
  rbind (fields [(2, 30, get_field 2 30 (g_addr g mod u32))]) (fun wa =>
  rbind (if is_wr g then mem_data g else Ok []) (fun data =>
  Ok (w0 :: w1 :: (if big then [N.shiftr (g_addr g) 32] else []) ++ [wa] ++ data)))))).

(** ** TLP_Mem from bytes, l.586-646 *)
Record rxmem := mkRx { x_words : list N; x_dw : N; x_data : option (list N) }.
Definition word_at (b : list N) (i : nat) : N := be_dec (slice (4 * i) 4 b).
Definition rx_mem (b : list N) : res rxmem :=
  if Nat.ltb (length b) 12 then AssertFail
  else
    let w0 := word_at b 0 in
    let fmt := get_fmt w0 in
    let h3 := [w0; word_at b 1; word_at b 2] in
    let four := (fmt =? 1) || (fmt =? 3) in
    if four && Nat.ltb (length b) 16 then AssertFail
    else
      let h := if four then h3 ++ [word_at b 3] else h3 in
      let n := length h in
      let dw := if get_length w0 =? 0 then MAX_DW else get_length w0 in
      if (fmt =? 2) || (fmt =? 3) then
        if Nat.ltb (length b) (4 * n + N.to_nat (4 * dw)) then AssertFail
        else Ok (mkRx h dw (Some (slice (4 * n) (N.to_nat (4 * dw)) b)))
      else Ok (mkRx h dw None).
(** l.660-691 *)
Definition rx_is_read (x : rxmem) : bool :=
  let fmt := get_fmt (nth 0 (x_words x) 0) in (fmt =? 0) || (fmt =? 1).
Definition rx_addr (x : rxmem) : N :=
  let fmt := get_fmt (nth 0 (x_words x) 0) in
  if (fmt =? 3) || (fmt =? 1)
  then N.lor (N.shiftl (nth 2 (x_words x) 0) 32) (N.shiftl (get_field 2 30 (nth 3 (x_words x) 0)) 2)
  else N.shiftl (get_field 2 30 (nth 2 (x_words x) 0)) 2.
(** get_genattr, l.1081-1089 *)
Definition rx_master (x : rxmem) : N := get_field 16 16 (nth 1 (x_words x) 0).
Definition rx_tag (x : rxmem) : N := get_field 8 8 (nth 1 (x_words x) 0).

(** The payload sent on dma_init_socket, l.1091-1146.  [stack] is the content of
    the local buffer.  Other formats have no data pointer. *)
Definition dma_payload (stack : list N) (x : rxmem) : res gp :=
  let n := 4 * x_dw x in
  if rx_is_read x then Ok (mkGp C_READ (rx_addr x) (firstn (N.to_nat n) stack) None n St_INCOMPLETE)
  else match x_data x with
       | Some d => Ok (mkGp C_WRITE (rx_addr x) d None n St_INCOMPLETE)
       | None => UB
       end.

(** ** TLP_Cpl, l.716-847, for the answer to a read *)
Definition cpl_words (g : gp) (master tag : N) : res (list N) :=
  let dl := dw_len g in
  rbind (word0 (if is_rd g then 2 else 0) Type_Cpl (if dl =? MAX_DW then 0 else dl)) (fun w0 =>
  rbind (fields [(16, 16, 0); (13, 3, if status_eqb (g_status g) St_OK then 0 else 1);
                 (0, 12, if g_len g =? 4096 then 0 else g_len g)]) (fun w1 =>
  rbind (fields [(16, 16, master); (8, 8, tag); (0, 7, 0)]) (fun w2 =>
  Ok (w0 :: w1 :: w2 :: pack (g_data g))))).
(** from bytes, l.849-874: only the first data word is taken; it is read without
    a length check *)
Definition rx_cpl (b : list N) : res (list N) :=
  if Nat.ltb (length b) 12 then AssertFail
  else
    let h := [word_at b 0; word_at b 1; word_at b 2] in
    if get_fmt (word_at b 0) =? 2
    then if Nat.ltb (length b) 16 then UB else Ok (h ++ [word_at b 3])
    else Ok h.

(** l.378-382, l.654-658 and l.876-880: requester and tag; [k] is the word *)
Definition tx_id (k : nat) (ws : list N) : N :=
  N.lor (N.shiftl (get_field 16 16 (nth k ws 0)) 16 mod u32)
    (N.lor (N.shiftl (get_t9 (nth 0 ws 0)) 9)
      (N.lor (N.shiftl (get_t8 (nth 0 ws 0)) 8) (get_field 8 8 (nth k ws 0)))).
(** l.132-142 *)
Definition expects_data (ws : list N) : bool :=
  let t := get_type (nth 0 ws 0) in
  ((t =? Type_Cfg0) || (t =? Type_MRdWr)) && (get_data_bit (nth 0 ws 0) =? 0).

(** CopyData, l.164-196, with GetTLPData l.146-156 *)
Fixpoint copy_words (fuel : nat) (cpl : list N) (off dw : N) (pos : nat) : res (list N) :=
  match fuel with
  | O => Ok []
  | S f =>
    let w := if N.of_nat pos <? dw
             then match nth_error cpl ((if get_fmt (nth 0 cpl 0) =? 2 then 3 else 4) + pos) with
                  | Some v => Ok v | None => AssertFail end
             else Ok 0 in
    rbind w (fun v =>
    rbind (copy_words f cpl off dw (pos + 1)) (fun r =>
    Ok (be_enc 4 (N.shiftl v (off * 8) mod u32) ++ r)))
  end.
Definition copy_data (g : gp) (cpl : list N) : res (list N) :=
  let dw := if get_length (nth 0 cpl 0) =? 0 then MAX_DW else get_length (nth 0 cpl 0) in
  rmap (firstn (length (g_data g)))
       (copy_words (N.to_nat (dw_len g)) cpl (g_addr g mod 4) dw 0).

(** The completion received by the requester, l.1027-1060.  [hdr] is what the
    request's m_hdr holds at that time.  An unknown completion is an error
    report, which stops the simulation. *)
Definition rx_completion (q : req) (hdr b : list N) : res (list N * status) :=
  rbind (rx_cpl b) (fun cpl =>
  if negb (tx_id 1 hdr =? tx_id 2 cpl) then AssertFail
  else
    let d := get_fmt (nth 0 cpl 0) =? 2 in
    let e := expects_data hdr in
    if eqb e d then
      if e then rmap (fun l => (l, St_OK)) (copy_data (q_gp q) cpl)
      else Ok (g_data (q_gp q), St_OK)
    else Ok (g_data (q_gp q), St_GENERIC)).

(** ** Two bridges connected to each other *)
(** mem_tgt_socket of one, dma_init_socket of the other.  ByteSwap works in place
    on m_hdr; [restored] tells whether the receiver of a read request swapped the
    buffer back. *)
Definition mem_trip {S} (restored : bool) (stack : list N) (t : target S) (s : S) (q : req)
  : res (S * (list N * status)) :=
  rbind (mem_words q) (fun ws =>
  rbind (rx_mem (wire ws)) (fun x =>
  rbind (dma_payload stack x) (fun p =>
  let '(s', (d, st)) := t s p in
  if negb (status_eqb st St_OK) then AssertFail                    (* l.1113, l.1142 *)
  else if is_wr (q_gp q) then Ok (s', (g_data (q_gp q), St_OK))    (* posted, l.560-564 *)
  else if rx_is_read x then
    rbind (cpl_words (mkGp C_READ (g_addr p) d None (g_sw p) st) (rx_master x) (rx_tag x)) (fun cw =>
    rbind (rx_completion q (if restored then ws else map bswap ws) (wire cw)) (fun r =>
    Ok (s', r)))
  else Unmodelled))).

(** ** TLP_Conf, l.263-373 *)
Definition cfg_dlen (g : gp) : N := N.min (g_len g) 4.
Definition cfg_start (g : gp) : N := g_addr g mod 4.
Definition cfg_be (g : gp) : N :=
  fold_left (fun acc k =>
    if negb (has_be g) || be_at (g_be g) (N.of_nat k)
    then N.lor acc (N.shiftl 1 (cfg_start g + N.of_nat k)) else acc)
    (seq 0 (N.to_nat (cfg_dlen g))) 0.
(** l.344-354: the shift count is unsigned; a count of 32 or more is undefined *)
Definition cfg_data (g : gp) : res N :=
  if 4 <? cfg_start g + cfg_dlen g then UB
  else Ok (fold_left (fun acc k =>
    N.lor acc (N.shiftl (nth k (g_data g) 0) ((3 - cfg_start g - N.of_nat k) * 8)))
    (seq 0 (N.to_nat (cfg_dlen g))) 0).
Definition cfg_words (q : req) : res (list N) :=
  let g := q_gp q in
  let a := g_addr g mod u32 in
  rbind (word0 (if is_wr g then 2 else 0) Type_Cfg0 1) (fun w0 =>
  rbind (fields [(16, 16, q_master q); (8, 8, q_tag q); (4, 4, 0); (0, 4, cfg_be g)]) (fun w1 =>
  rbind (fields [(24, 8, get_field 20 8 a); (19, 5, get_field 15 5 a); (16, 3, get_field 12 3 a);
                 (8, 4, get_field 8 4 a); (2, 6, get_field 2 6 a)]) (fun w2 =>
  rbind (if is_wr g then rmap (fun v => [v]) (cfg_data g) else Ok []) (fun data =>
  Ok (w0 :: w1 :: w2 :: data))))).
