(** Model of tlm-modules/sn-chi.h (class SlaveNode_F, the CHI slave node) on a
    little-endian host.

    Modelled: the request object (constructor l.98-144, CopyData l.333-368,
    CopyOrginialData l.294-311, the swap and compare data l.259-280), atomic
    operations (l.516-770), the endianness corrections (l.881-940), HandleAtomic
    and DoTLM (l.942-1006), the response phase (l.796-842), the data phase
    (tx_thread, l.845-879), request ordering (l.1036-1060), the receiving sockets
    (l.1068-1123) and the retry toggle (l.1125-1140).  Identifiers come from
    private/chi/txnids.h (l.48-66), used here by one thread only.

    Simplified: the two transmit channels (l.488-509) are the ordered lists of the
    messages handed to them; QoS and TraceTag are left out; the target behind
    init_socket is a byte memory that accepts an access or not ([acc]); addresses
    do not wrap around at 2^64; accesses through reinterpret_cast are byte
    accesses (no aliasing or alignment rules).  The uninitialised buffers of a
    request are an input ([j_data], [j_be]). *)
From Verif Require Import Base TlmModel.
Open Scope N_scope.

(** CACHELINE_SZ; GetLineOffset, l.282-285 *)
Definition LINE : N := 64.
Definition line_off (a : N) : N := N.land a (LINE - 1).

(** amba-chi.h l.46-88: the opcodes the node looks at. *)
Definition OP_ReadNoSnp : N := 4.
Definition OP_CleanShared : N := 8.
Definition OP_CleanInvalid : N := 9.
Definition OP_MakeInvalid : N := 10.
Definition OP_ReadNoSnpSep : N := 17.
Definition OP_WriteNoSnpPtl : N := 28.
Definition OP_WriteNoSnpFull : N := 29.
Definition OP_CleanSharedPersist : N := 39.
Definition OP_AtomicStore : N := 40.
Definition OP_AtomicLoad : N := 48.
Definition OP_AtomicSwap : N := 56.
Definition OP_AtomicCompare : N := 57.

(** amba-chi.h l.91-102: the constants of the sub-opcodes.  010 and 011 are octal
    literals, 100 and above are decimal ones. *)
Definition SUB_ADD : N := 0.
Definition SUB_CLR : N := 1.
Definition SUB_EOR : N := 8.
Definition SUB_SET : N := 9.
Definition SUB_SMAX : N := 100.
Definition SUB_SMIN : N := 101.
Definition SUB_UMAX : N := 110.
Definition SUB_UMIN : N := 111.

(** A request: the attributes the node uses, the address and the data length. *)
Record sreq := mkSreq {
  q_op : N; q_addr : N; q_len : N; q_retry : bool; q_order : N; q_big : bool;
  q_src : N; q_txn : N; q_retnid : N; q_rettxn : N }.

(** l.180-246 *)
Definition is_store (q : sreq) : bool := (OP_AtomicStore <=? q_op q) && (q_op q <? OP_AtomicLoad).
Definition is_load (q : sreq) : bool := (OP_AtomicLoad <=? q_op q) && (q_op q <? OP_AtomicSwap).
Definition is_compare (q : sreq) : bool := q_op q =? OP_AtomicCompare.
Definition is_swap (q : sreq) : bool := q_op q =? OP_AtomicSwap.
Definition is_atomic (q : sreq) : bool := (OP_AtomicStore <=? q_op q) && (q_op q <=? OP_AtomicCompare).
Definition is_read (q : sreq) : bool := (q_op q =? OP_ReadNoSnp) || (q_op q =? OP_ReadNoSnpSep).
Definition is_write (q : sreq) : bool := (q_op q =? OP_WriteNoSnpFull) || (q_op q =? OP_WriteNoSnpPtl).
Definition is_cmo (q : sreq) : bool :=
  (q_op q =? OP_CleanShared) || (q_op q =? OP_CleanSharedPersist) ||
  (q_op q =? OP_CleanInvalid) || (q_op q =? OP_MakeInvalid).

(** RequiresReadReceipt, l.169-173 *)
Definition wants_receipt (q : sreq) : bool := (q_order q =? 1) || (q_op q =? OP_ReadNoSnpSep).

(** ReqTxn: the request, m_dataSlave, m_byteEnableSlave, m_dataReceived. *)
Record stx := mkStx { t_req : sreq; t_data : list N; t_be : list N; t_cnt : N }.

(** ReqTxn::ReqTxn, l.98-144: GetAlignedAddress (l.162-165) divides by the length
    for reads and writes. *)
Definition new_txn (q : sreq) (j_data j_be : list N) : res stx :=
  if (is_read q || is_write q) && (q_len q =? 0) then UB
  else Ok (mkStx q j_data j_be 0).

(** The window of m_slaveGP, l.106-139: address and length. *)
Definition aligned (q : sreq) : N := q_addr q / q_len q * q_len q.
Definition slave_win (q : sreq) : N * N :=
  if is_read q then (aligned q, q_len q)
  else (q_addr q, q_len q - (q_addr q - aligned q)).

(** A data message. *)
Record chunk := mkChunk { c_txn : N; c_id : N; c_data : list N; c_be : list N }.

(** CopyData, l.333-368; unsigned int is 32 bits wide. *)
Definition copy_chunk (t : stx) (c : chunk) : res stx :=
  let len0 := N.of_nat (length (c_data c)) in
  let off := (c_id c * len0) mod u32 in
  let maxl := (LINE + u32 - off) mod u32 in
  let len := if maxl <? len0 then maxl else len0 in
  let bl := length (c_be c) in
  if (LINE <? off + len) && negb (len =? 0) then UB
  else
    let inside i := (off <=? N.of_nat i) && (N.of_nat i <? off + len) in
    let en i := match bl with
                | O => true
                | _ => nth ((i - N.to_nat off) mod bl) (c_be c) 0 =? BE_ON
                end in
    Ok (mkStx (t_req t)
          (map (fun i => if inside i && en i then nth (i - N.to_nat off) (c_data c) 0
                         else nth i (t_data t) 0) (seq 0 (length (t_data t))))
          (map (fun i => if inside i then (if en i then BE_ON else BE_OFF)
                         else nth i (t_be t) 0) (seq 0 (length (t_be t))))
          (t_cnt t + len)).

(** CopyWriteData for one message after the other, l.248-252 and l.1110. *)
Fixpoint copy_all (t : stx) (cs : list chunk) : res stx :=
  match cs with
  | [] => Ok t
  | c :: cs' => rbind (copy_chunk t c) (fun t' => copy_all t' cs')
  end.

(** AllWriteDataRecieved, l.254-257 *)
Definition all_received (t : stx) : bool := t_cnt t =? LINE.

(** The memory behind init_socket. *)
Definition rd (m : mem) (a n : N) : list N := map (fun i => m (a + N.of_nat i)) (seq 0 (N.to_nat n)).
Definition wr (m : mem) (a : N) (d : list N) (be : nat -> bool) : mem := fun x =>
  if (a <=? x) && (x <? a + N.of_nat (length d)) && be (N.to_nat (x - a))
  then nth (N.to_nat (x - a)) d 0 else m x.

(** One call of init_socket->b_transport as the target sees it. *)
Record access := mkAccess { a_cmd : command; a_addr : N; a_len : N }.
Definition acceptor := command -> N -> N -> bool.

(** AtomicADD, AtomicCLR, AtomicEOR, AtomicSET, l.519-553, on the values. *)
Definition at_add (n : nat) (a b : N) : N := (a + b) mod 256 ^ N.of_nat n.
Definition at_clr (a b : N) : N := N.ldiff a b.
Definition at_eor (a b : N) : N := N.lxor a b.
Definition at_set (a b : N) : N := N.lor a b.

(** Do..., l.577-735: only lengths of 1, 2, 4 and 8 bytes do anything.  [dat] are
    the bytes read from memory, [opd] those of the request from GetData() on
    (l.316-321). *)
Definition do_op (f : N -> N -> N) (dat opd : list N) (len : N) : res (list N) :=
  if existsb (N.eqb len) [1; 2; 4; 8]
  then let n := N.to_nat len in
       if (length opd <? n)%nat then UB
       else Ok (le_enc n (f (le_dec (firstn n dat)) (le_dec (firstn n opd))) ++ skipn n dat)
  else Ok dat.

(** Process, l.738-769.  The minimum and maximum operations are not modelled:
    their case labels are out of reach (see PropsSn.v). *)
Definition process (sub : N) (dat opd : list N) (len : N) : res (list N) :=
  if sub =? SUB_ADD then do_op (at_add (N.to_nat len)) dat opd len
  else if sub =? SUB_CLR then do_op at_clr dat opd len
  else if sub =? SUB_EOR then do_op at_eor dat opd len
  else if sub =? SUB_SET then do_op at_set dat opd len
  else if existsb (N.eqb sub) [SUB_SMAX; SUB_SMIN; SUB_UMAX; SUB_UMIN] then Unmodelled
  else Ok dat.

(** GetAtomicOp, l.287-292 *)
Definition atomic_sub (q : sreq) : N := N.land (q_op q) 7.

(** AtomicStore and AtomicLoad in HandleAtomic, l.953-960, with
    CorrectEndiannessPreOp and CorrectEndiannessPostOp, l.893-940. *)
Definition store_load (t : stx) (dat : list N) : res (list N) :=
  let q := t_req t in
  let n := N.to_nat (q_len q) in
  let opd := skipn (N.to_nat (line_off (q_addr q))) (t_data t) in
  if q_big q
  then if (length opd <? n)%nat then UB
       else rmap (fun d => rev (firstn n d) ++ skipn n d)
              (process (atomic_sub q) (rev dat) (rev (firstn n opd) ++ skipn n opd) (q_len q))
  else process (atomic_sub q) dat opd (q_len q).

(** GetSwapData, l.259-272 *)
Definition swap_off (q : sreq) : res N :=
  let off := line_off (q_addr q) in
  if q_len q =? 0 then UB
  else if off mod q_len q =? 0 then Ok (off + q_len q / 2)
  else if off <? q_len q / 2 then UB
  else Ok (off - q_len q / 2).

(** l.961-970: swap and compare. *)
Definition do_swap (t : stx) : res (list N) :=
  let q := t_req t in
  let off := line_off (q_addr q) in
  if LINE <? off + q_len q then UB
  else Ok (slice (N.to_nat off) (N.to_nat (q_len q)) (t_data t)).
Definition do_compare (t : stx) (dat : list N) : res (list N) :=
  let q := t_req t in
  let off := line_off (q_addr q) in
  let h := N.to_nat (q_len q / 2) in
  rbind (swap_off q) (fun so =>
  if LINE <? off + q_len q / 2 then UB
  else if LINE <? so + q_len q / 2 then UB
  else if list_eq_dec N.eq_dec (firstn h dat) (slice (N.to_nat off) h (t_data t))
  then Ok (slice (N.to_nat so) h (t_data t) ++ skipn h dat)
  else Ok dat).

(** CopyOrginialData, l.294-311: m_data and m_byteEnable. *)
Definition original (q : sreq) (dat : list N) : res (list N * list N) :=
  let len := if is_compare q then q_len q / 2 else q_len q in
  let off := N.to_nat (line_off (q_addr q)) in
  let n := N.to_nat len in
  if LINE <? len then AssertFail
  else if LINE <? line_off (q_addr q) + len then UB
  else Ok (overlay off (firstn n dat) (repeat 0 64), overlay off (repeat BE_ON n) (repeat BE_OFF 64)).

(** RspMsg, l.384-395, and DatMsg, l.409-462. *)
Inductive rkind := R_ReadReceipt | R_DBIDResp | R_Comp | R_CompDBIDResp | R_RetryAck | R_PCrdGrant.
Record srsp := mkSrsp { rs_kind : rkind; rs_tgt : N; rs_txn : N; rs_dbid : N }.
Record sdat := mkSdat {
  d_data : list N; d_be : option (list N); d_sep : bool; d_uc : bool;
  d_tgt : N; d_txn : N; d_home : N; d_dbid : N }.
Definition rsp_msg (q : sreq) (k : rkind) (dbid : N) : srsp := mkSrsp k (q_src q) (q_txn q) dbid.
Definition dat_msg (q : sreq) (data : list N) (be : option (list N)) : sdat :=
  mkSdat data be (q_op q =? OP_ReadNoSnpSep) (negb (is_atomic q))
    (q_retnid q) (q_rettxn q) (q_src q) (q_txn q).

(** HandleAtomic, l.942-979, with DoTLM, l.981-1006: new memory, accesses, data
    message. *)
Definition handle_atomic (acc : acceptor) (m : mem) (t : stx)
  : res (mem * list access * option sdat) :=
  let q := t_req t in
  let len := q_len q in
  if LINE <? len then AssertFail
  else if negb (acc C_READ (q_addr q) len) then AssertFail
  else
    let dat := rd m (q_addr q) len in
    rbind (if is_store q then Ok None
           else rmap Some (original q dat)) (fun org =>
    rbind (if is_store q || is_load q then store_load t dat
           else if is_swap q then do_swap t
           else do_compare t dat) (fun dat' =>
    if negb (acc C_WRITE (q_addr q) len) then AssertFail
    else Ok (wr m (q_addr q) dat' (fun _ => true),
             [mkAccess C_READ (q_addr q) len; mkAccess C_WRITE (q_addr q) len],
             match org with
             | None => None
             | Some (d, be) => Some (dat_msg q d (Some be))
             end))).

(** tx_thread, l.858-875: reads and writes.  Requests of any other kind carry the
    payload of InitSlaveGP (l.146-155) with the default command and address. *)
Definition exec (acc : acceptor) (m : mem) (t : stx) : res (mem * list access * option sdat) :=
  let q := t_req t in
  let '(a, n) := slave_win q in
  let off := line_off a in
  if is_atomic q then handle_atomic acc m t
  else if is_read q then
    if LINE <? off + n then UB
    else if negb (acc C_READ a n) then AssertFail
    else if negb (off =? 0) then UB   (* l.420: 64 bytes from m_dataSlave + off *)
    else Ok (m, [mkAccess C_READ a n],
             Some (dat_msg q (overlay 0 (rd m a n) (t_data t)) None))
  else if is_write q then
    if LINE <? off + n then UB
    else if negb (acc C_WRITE a n) then AssertFail
    else Ok (wr m a (slice (N.to_nat off) (N.to_nat n) (t_data t))
               (fun i => nth (N.to_nat off + i) (t_be t) 0 =? BE_ON),
             [mkAccess C_WRITE a n], None)
  else if acc C_IGNORE 0 LINE then Ok (m, [mkAccess C_IGNORE 0 LINE], None)
  else AssertFail.

(** The node.  [s_done] lists the requests that were deleted (l.825, l.877) and is
    only there to be talked about. *)
Record sn := mkSn {
  s_tog : bool;                  (* m_toggle *)
  s_reqq : list stx;             (* m_reqList *)
  s_free : list N;               (* m_ids *)
  s_txn : list (N * stx);        (* the entries of m_txn that are not NULL *)
  s_txq : list stx;              (* m_txList *)
  s_mem : mem;
  s_log : list access;
  s_rsp : list srsp;             (* handed to m_txRspChannel *)
  s_dat : list sdat;             (* handed to m_txDatChannel *)
  s_done : list sreq }.

(** The constructor, l.1164-1197, in front of a memory [m]. *)
Definition sn_init (m : mem) : sn :=
  mkSn false [] (map N.of_nat (seq 0 256)) [] [] m [] [] [] [].

Inductive slabel :=
| LReq (q : sreq) (j_data j_be : list N)  (* b_transport_rxreq *)
| LOrder                                  (* req_ordering_thread takes a request *)
| LDat (c : chunk)                        (* b_transport_rxdat *)
| LExec.                                  (* tx_thread takes a request *)

(** b_transport_rxreq, l.1068-1095; GetToggle is evaluated only when a retry is
    allowed. *)
Definition rxreq (s : sn) (q : sreq) (jd jb : list N) : res sn :=
  rbind (new_txn q jd jb) (fun t =>
  if q_retry q && negb (s_tog s)
  then Ok (mkSn true (s_reqq s) (s_free s) (s_txn s) (s_txq s) (s_mem s) (s_log s)
             (s_rsp s ++ [rsp_msg q R_RetryAck 0; rsp_msg q R_PCrdGrant 0]) (s_dat s) (s_done s))
  else Ok (mkSn (if q_retry q then false else s_tog s) (s_reqq s ++ [t]) (s_free s) (s_txn s)
             (s_txq s) (s_mem s) (s_log s) (s_rsp s) (s_dat s) (s_done s))).

(** A request with a DBID, l.809-817 and l.826-835.  With no identifier free
    GetID waits: the thread does not move. *)
Definition grant (s : sn) (t : stx) (rest : list stx) (k : rkind) : sn :=
  match s_free s with
  | [] => s
  | id :: free =>
    mkSn (s_tog s) rest free (s_txn s ++ [(id, t)]) (s_txq s) (s_mem s) (s_log s)
      (s_rsp s ++ [rsp_msg (t_req t) k id]) (s_dat s) (s_done s)
  end.

(** req_ordering_thread and RunResponsePhase, l.1044-1060 and l.796-842. *)
Definition order (s : sn) : sn :=
  match s_reqq s with
  | [] => s
  | t :: rest =>
    let q := t_req t in
    if is_read q
    then mkSn (s_tog s) rest (s_free s) (s_txn s) (s_txq s ++ [t]) (s_mem s) (s_log s)
           (s_rsp s ++ (if wants_receipt q then [rsp_msg q R_ReadReceipt 0] else []))
           (s_dat s) (s_done s)
    else if is_atomic q && negb (is_store q) then grant s t rest R_DBIDResp
    else if is_cmo q
    then mkSn (s_tog s) rest (s_free s) (s_txn s) (s_txq s) (s_mem s) (s_log s)
           (s_rsp s ++ [rsp_msg q R_Comp 0]) (s_dat s) (s_done s ++ [q])
    else grant s t rest R_CompDBIDResp
  end.

(** m_txn[id] *)
Fixpoint find_txn (id : N) (l : list (N * stx)) : option stx :=
  match l with
  | [] => None
  | (i, t) :: l' => if i =? id then Some t else find_txn id l'
  end.
Fixpoint set_txn (id : N) (t : stx) (l : list (N * stx)) : list (N * stx) :=
  match l with
  | [] => []
  | (i, t') :: l' => if i =? id then (i, t) :: l' else (i, t') :: set_txn id t l'
  end.
Fixpoint del_txn (id : N) (l : list (N * stx)) : list (N * stx) :=
  match l with
  | [] => []
  | (i, t') :: l' => if i =? id then l' else (i, t') :: del_txn id l'
  end.

(** b_transport_rxdat, l.1097-1123 *)
Definition rxdat (s : sn) (c : chunk) : res sn :=
  match find_txn (c_txn c) (s_txn s) with
  | None => Ok s
  | Some t =>
    rbind (copy_chunk t c) (fun t' =>
    if all_received t'
    then Ok (mkSn (s_tog s) (s_reqq s) (s_free s ++ [c_txn c]) (del_txn (c_txn c) (s_txn s))
               (s_txq s ++ [t']) (s_mem s) (s_log s) (s_rsp s) (s_dat s) (s_done s))
    else Ok (mkSn (s_tog s) (s_reqq s) (s_free s) (set_txn (c_txn c) t' (s_txn s))
               (s_txq s) (s_mem s) (s_log s) (s_rsp s) (s_dat s) (s_done s)))
  end.

(** tx_thread, l.845-879 *)
Definition run_tx (acc : acceptor) (s : sn) : res sn :=
  match s_txq s with
  | [] => Ok s
  | t :: rest =>
    rmap (fun '(m, log, d) =>
      mkSn (s_tog s) (s_reqq s) (s_free s) (s_txn s) rest m (s_log s ++ log) (s_rsp s)
        (s_dat s ++ match d with None => [] | Some x => [x] end) (s_done s ++ [t_req t]))
      (exec acc (s_mem s) t)
  end.

Definition sn_step (acc : acceptor) (s : sn) (l : slabel) : res sn :=
  match l with
  | LReq q jd jb => rxreq s q jd jb
  | LOrder => Ok (order s)
  | LDat c => rxdat s c
  | LExec => run_tx acc s
  end.
Fixpoint sn_run (acc : acceptor) (s : sn) (ls : list slabel) : res sn :=
  match ls with
  | [] => Ok s
  | l :: ls' => rbind (sn_step acc s l) (fun s' => sn_run acc s' ls')
  end.
