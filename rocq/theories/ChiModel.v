(** Model of CHI request nodes (tlm-modules/cache-chi.h, private/chi/txns-rn.h)
    connected by the home node (tlm-modules/iconnect-chi.h) to one slave node
    (tlm-modules/sn-chi.h): an interleaving machine.

    Simplifications, all in one place:
    - a snoop, its response and the home's bookkeeping for it are one step, and
      so is everything from the last snoop response to the end of a request (the
      home works on one request at a time, iconnect-chi.h:1868-1898, and the
      process of the requester is blocked meanwhile);
    - the home takes up waiting requests in any order;
    - data answered to a snoop is copied when the snoop is handled (in the code:
      a pointer into the line, read by the transmitting process a little later);
    - retries, transaction identifiers, QoS, trace tags are left out;
    - all accesses are non-secure, no exclusive accesses, atomics, DVM messages,
      stash requests, cache maintenance, non-shareable regions, CCIX ports;
    - a ReadOnce* takes effect (and its event is recorded) when the first snooped
      cache supplies the line, or at the end when the memory does; every other
      access when the cache is read or written;
    - the slave node answers with OK; a write has reached the memory before the
      next request is served;
    - addresses do not wrap around 2^64. *)
From Verif Require Import Base TlmModel TlmSpec AceSpec CachelineModel.
Open Scope N_scope.

(** NUM_CHI_RN_F, CACHE_SZ, EnableDCT (iconnect-chi.h:2823: on by default without
    CCIX ports), RandomizeTransactions (cache-chi.h:2417), and whether the nodes
    are connected through the flit bridges instead of directly. *)
Record cfg := mkCfg { f_n : nat; f_size : N; f_dct : bool; f_rnd : bool; f_flits : bool }.

(** A cache line, private/chi/cacheline.h; [CachelineModel] describes the class
    itself on byte lists. *)
Record line := mkLine {
  l_valid : bool; l_tag : N; l_shared : bool; l_dirty : bool;
  l_data : N -> N; l_be : N -> bool }.
Definition set_valid l v := mkLine v (l_tag l) (l_shared l) (l_dirty l) (l_data l) (l_be l).
Definition set_tag l v := mkLine (l_valid l) v (l_shared l) (l_dirty l) (l_data l) (l_be l).
Definition set_shared l v := mkLine (l_valid l) (l_tag l) v (l_dirty l) (l_data l) (l_be l).
Definition set_dirty l v := mkLine (l_valid l) (l_tag l) (l_shared l) v (l_data l) (l_be l).
Definition set_bytes l d b := mkLine (l_valid l) (l_tag l) (l_shared l) (l_dirty l) d b.

Definition offs : list N := map N.of_nat (seq 0 64).
(** GetFillGrade, cacheline.h:104-121 *)
Definition grade_of (l : line) : grade :=
  if forallb (l_be l) offs then Full else if existsb (l_be l) offs then Partial else Empty.
Definition is_full (l : line) : bool := match grade_of l with Full => true | _ => false end.
(** GetStatus, cacheline.h:123-150 *)
Definition status_of (l : line) : res cstatus :=
  if l_valid l then
    if l_shared l && l_dirty l then Ok S_SD
    else if l_shared l && negb (l_dirty l) then Ok S_SC
    else match grade_of l with
         | Full => if l_dirty l then Ok S_UD else Ok S_UC
         | Partial => if l_dirty l then Ok S_UDP else AssertFail
         | Empty => if l_dirty l then AssertFail else Ok S_UCE
         end
  else Ok S_INV.

(** ** Snoops *)
Inductive snp :=
| SnpOnce | SnpClean | SnpShared | SnpNSD | SnpUnique | SnpCleanShared | SnpCleanInvalid | SnpMakeInvalid
| SnpOnceFwd | SnpCleanFwd | SnpNSDFwd | SnpSharedFwd | SnpUniqueFwd.

(** SnpRespTxn::GetResp and GetCompDataResp, txns-rn.h:1801-1852 *)
Definition get_resp (st : cstatus) (pd : bool) : N :=
  if pd then match st with S_UC => 6 | S_SC => 5 | _ => 4 end
  else match st with S_SD => 3 | S_UC | S_UD => 2 | S_SC => 1 | _ => 0 end.
Definition get_comp_resp (st : cstatus) (pd : bool) : N :=
  if pd then match st with S_UD => 6 | S_SD => 7 | _ => 4 end
  else match st with S_UC => 2 | S_SC => 1 | _ => 0 end.

(** Opcode of the answer, its Resp field, its FwdState field, and the Resp field
    of the CompData sent to the requester, if one is sent. *)
Inductive rop := R_Resp | R_Data | R_DataPtl | R_Fwded | R_DataFwded.
Record rsp := mkRsp { r_rop : rop; r_resp : N; r_fstate : N; r_comp : option N }.
Definition has_data (o : rop) : bool := match o with R_Resp | R_Fwded => false | _ => true end.
Definition is_fwded (o : rop) : bool := match o with R_Fwded | R_DataFwded => true | _ => false end.

(** SetSnpResp ... SetSnpRespDataFwded with SetCompData, txns-rn.h:1689-1734, :1772 *)
Definition resp st := mkRsp R_Resp (get_resp st false) 0 None.
Definition data st pd := mkRsp R_Data (get_resp st pd) 0 None.
Definition data_ptl st pd := mkRsp R_DataPtl (get_resp st pd) 0 None.
Definition fwded st fst fpd := mkRsp R_Fwded (get_resp st false) (get_resp fst fpd) (Some (get_comp_resp fst fpd)).
Definition data_fwded st pd fst := mkRsp R_DataFwded (get_resp st pd) (get_resp fst false) (Some (get_comp_resp fst false)).

(** HandleSnpOnce, cache-chi.h:818-867 *)
Definition snp_once (rts : bool) (l : line) (st : cstatus) : line * rsp :=
  match st with
  | S_UC => (l, data S_UC false)
  | S_UCE => (l, resp S_UC)
  | S_UD => (l, data S_UD false)
  | S_UDP => (l, data_ptl S_UD false)
  | S_SC => (l, if rts then data S_SC false else resp S_SC)
  | S_SD => (l, data S_SD false)
  | S_INV => (l, resp S_INV)
  end.
(** HandleSnpClean, cache-chi.h:870-935: also SnpShared and SnpNotSharedDirty *)
Definition snp_clean (rts : bool) (l : line) (st : cstatus) : line * rsp :=
  match st with
  | S_UC => (set_shared l true, data S_SC false)
  | S_UCE => (set_valid l false, resp S_INV)
  | S_UD => (set_shared l true, data S_SC true)
  | S_UDP => (set_valid l false, data_ptl S_INV true)
  | S_SC => (l, if rts then data S_SC false else resp S_SC)
  | S_SD => (set_dirty l false, data S_SC true)
  | S_INV => (l, resp S_INV)
  end.
(** HandleSnpUnique, cache-chi.h:938-993 *)
Definition snp_unique (rts : bool) (l : line) (st : cstatus) : line * rsp :=
  (set_valid l false,
   match st with
   | S_UC => data S_INV false
   | S_UCE => resp S_INV
   | S_UD => data S_INV true
   | S_UDP => data_ptl S_INV true
   | S_SC => if rts then data S_INV false else resp S_INV
   | S_SD => data S_INV true
   | S_INV => resp S_INV
   end).
(** HandleSnpCleanShared, cache-chi.h:996-1054 *)
Definition snp_clean_shared (l : line) (st : cstatus) : line * rsp :=
  match st with
  | S_UC => (l, resp S_UC)
  | S_UCE => (set_valid l false, resp S_INV)
  | S_UD => (set_dirty l false, data S_UC true)
  | S_UDP => (set_valid l false, data_ptl S_INV true)
  | S_SC => (l, resp S_SC)
  | S_SD => (set_dirty l false, data S_SC true)
  | S_INV => (l, resp S_INV)
  end.
(** HandleSnpCleanInvalid, cache-chi.h:1057-1106 *)
Definition snp_clean_invalid (l : line) (st : cstatus) : line * rsp :=
  (set_valid l false,
   match st with
   | S_UD | S_SD => data S_INV true
   | S_UDP => data_ptl S_INV true
   | _ => resp S_INV
   end).
(** HandleSnpOnceFwd, cache-chi.h:1330-1386 *)
Definition snp_once_fwd (l : line) (st : cstatus) : line * rsp :=
  match st with
  | S_UC => (l, fwded S_UC S_INV false)
  | S_UCE => (l, resp S_UC)
  | S_UD => (l, fwded S_UD S_INV false)
  | S_UDP => (l, data_ptl S_UD false)
  | S_SC => (l, fwded S_SC S_INV false)
  | S_SD => (l, fwded S_SD S_INV false)
  | S_INV => (l, resp S_INV)
  end.
(** HandleSnpCleanFwd, HandleSnpNotSharedDirtyFwd, HandleSnpSharedFwd,
    cache-chi.h:1389-1655: the same code three times *)
Definition snp_clean_fwd (rts : bool) (l : line) (st : cstatus) : line * rsp :=
  match st with
  | S_UC => (set_shared l true, if rts then data_fwded S_SC false S_SC else fwded S_SC S_SC false)
  | S_UCE => (set_valid l false, resp S_INV)
  | S_UD => (set_dirty (set_shared l true) false, data_fwded S_SC true S_SC)
  | S_UDP => (set_valid l false, data_ptl S_INV true)
  | S_SC => (l, if rts then data_fwded S_SC false S_SC else fwded S_SC S_SC false)
  | S_SD => (set_dirty l false, data_fwded S_SC true S_SC)
  | S_INV => (l, resp S_INV)
  end.
(** HandleSnpUniqueFwd, cache-chi.h:1658-1710 *)
Definition snp_unique_fwd (l : line) (st : cstatus) : line * rsp :=
  (set_valid l false,
   match st with
   | S_UC | S_SC => fwded S_INV S_UC false
   | S_UDP => data_ptl S_INV true
   | S_UD | S_SD => fwded S_INV S_UD true
   | S_UCE | S_INV => resp S_INV
   end).

(** HandleSnp for a line that is in the cache, cache-chi.h:722-815; HandleSnpMakeInvalid,
    :1109-1123, does not ask for the status *)
Definition handle_snp (q : snp) (rts : bool) (l : line) : res (line * rsp) :=
  match q with
  | SnpMakeInvalid => Ok (set_valid l false, resp S_INV)
  | _ =>
    rbind (status_of l) (fun st => Ok (
      match q with
      | SnpOnce => snp_once rts l st
      | SnpClean | SnpShared | SnpNSD => snp_clean rts l st
      | SnpUnique => snp_unique rts l st
      | SnpCleanShared => snp_clean_shared l st
      | SnpCleanInvalid | SnpMakeInvalid => snp_clean_invalid l st
      | SnpOnceFwd => snp_once_fwd l st
      | SnpCleanFwd | SnpNSDFwd | SnpSharedFwd => snp_clean_fwd rts l st
      | SnpUniqueFwd => snp_unique_fwd l st
      end))
  end.

(** ** Requests *)
Inductive reqop :=
| ReadShared | ReadClean | ReadNSD | ReadUnique | ReadOnce | ReadOnceCI | ReadOnceMI
| CleanUnique | MakeUnique | Evict
| WriteBackFull | WriteBackPtl | WriteCleanFull | WriteEvictFull | WriteUniqueFull | WriteUniquePtl.

(** Opcode, line address and, for writes, data and byte enables. *)
Record req := mkReq { q_op : reqop; q_addr : N; q_data : N -> N; q_be : N -> bool }.
Definition no_data : N -> N := fun _ => 0.
Definition all_on : N -> bool := fun _ => true.
Definition plain (o : reqop) (a : N) : req := mkReq o a no_data all_on.

(** SnpMsg::GetOpcode, iconnect-chi.h:1454-1565; [None]: not a snooping request,
    IsSnoopingReq :472-518 *)
Definition snp_of (o : reqop) (fwd : bool) : option snp :=
  match o with
  | ReadOnce => Some (if fwd then SnpOnceFwd else SnpOnce)
  | ReadOnceCI | ReadOnceMI | ReadUnique => Some (if fwd then SnpUniqueFwd else SnpUnique)
  | ReadClean => Some (if fwd then SnpCleanFwd else SnpClean)
  | ReadNSD => Some (if fwd then SnpNSDFwd else SnpNSD)
  | ReadShared => Some (if fwd then SnpSharedFwd else SnpShared)
  | CleanUnique | WriteUniquePtl => Some SnpCleanInvalid
  | MakeUnique | WriteUniqueFull => Some SnpMakeInvalid
  | Evict | WriteBackFull | WriteBackPtl | WriteCleanFull | WriteEvictFull => None
  end.
(** IsSnpRead, :398-411; IsNonCoherentRead, :432-442 *)
Definition is_read (o : reqop) : bool :=
  match o with
  | ReadShared | ReadClean | ReadNSD | ReadUnique | ReadOnce | ReadOnceCI | ReadOnceMI => true
  | _ => false
  end.
Definition non_coherent (o : reqop) : bool :=
  match o with ReadOnce | ReadOnceCI | ReadOnceMI => true | _ => false end.
(** AllowsPassDirtySnpData, :557-569 *)
Definition allows_pd (o : reqop) (ptl : bool) : bool :=
  negb ptl && match o with ReadShared | ReadUnique => true | _ => false end.
(** IsCopyBack, :460-470 *)
Definition copy_back (o : reqop) : bool :=
  match o with WriteBackFull | WriteBackPtl | WriteCleanFull | WriteEvictFull => true | _ => false end.
(** SnoopFilter::Update(req), :1733-1779: [Some true] allocates, [Some false] evicts *)
Definition filter_req (o : reqop) : option bool :=
  match o with
  | ReadClean | ReadNSD | ReadShared | ReadUnique | CleanUnique | MakeUnique => Some true
  | WriteCleanFull => None
  | _ => Some false
  end.

(** ** State *)
(** A load or store being carried out: bytes done, pieces so far. *)
Record run := mkRun { r_op : op; r_pos : N; r_acc : list access }.

(** What the process of a cache does after the request it waits for. *)
Inductive next := N_Main | N_Inval (main : req) | N_Issue (main : req).
Inductive pc :=
| Idle
| Run (r : run) (hot : bool)          (* top of the loop; [hot]: just after CleanUnique/MakeUnique *)
| Inval (r : run) (main : req)        (* InvalidateCacheLine after its WriteCleanFull *)
| Wait (r : run) (q : req) (n : next).

(** The request the home works on: requester, may it use Snp*Fwd, ports not yet
    snooped, Resp fields received, snoop data (GotSnpData, IsSnpDataPtl, bytes,
    byte enables), CompData forwarded to the requester, and whether the event of
    a ReadOnce* has been recorded. *)
Record work := mkWork {
  w_i : nat; w_q : req; w_fwd : bool; w_todo : list nat; w_resp : list N;
  w_got : bool; w_ptl : bool; w_data : N -> N; w_be : N -> bool;
  w_comp : option (N * (N -> N) * (N -> bool)); w_ev : bool }.

Record state := mkState {
  s_c : nat -> N -> line; s_mem : mem; s_f : nat -> N -> bool; s_t : nat -> pc; s_h : option work }.

Definition updN {A} (f : N -> A) (i : N) (v : A) : N -> A := fun x => if x =? i then v else f x.
Definition updn {A} (f : nat -> A) (i : nat) (v : A) : nat -> A :=
  fun x => if Nat.eqb x i then v else f x.
Definition st_mem s v := mkState (s_c s) v (s_f s) (s_t s) (s_h s).
Definition st_h s v := mkState (s_c s) (s_mem s) (s_f s) (s_t s) v.
Definition goto s i p := mkState (s_c s) (s_mem s) (s_f s) (updn (s_t s) i p) (s_h s).
Definition st_f s i a v := mkState (s_c s) (s_mem s) (updn (s_f s) i (updN (s_f s i) a v)) (s_t s) (s_h s).

Section Chi.
Context (f : cfg).

(** cache-chi.h:226-252 *)
Definition line_off (a : N) : N := a mod 64.
Definition align (a : N) : N := 64 * (a / 64).
Definition index (t : N) : N := (t mod f_size f) / 64.
Definition slot (s : state) (i : nat) (a : N) : line := s_c s i (index (align a)).
Definition put_slot (s : state) (i : nat) (a : N) (l : line) : state :=
  mkState (updn (s_c s) i (updN (s_c s i) (index (align a)) l)) (s_mem s) (s_f s) (s_t s) (s_h s).
(** InCache, :314-332 *)
Definition in_cache (l : line) (a : N) : bool := l_valid l && (l_tag l =? align a).

Definition cur_addr (r : run) : N := o_addr (r_op r) + r_pos r.
Definition rest (r : run) : N := o_len (r_op r) - r_pos r.
(** bytes up to the end of the line, :255-286, ToWrite :341-354 *)
Definition seg_len (r : run) : N := N.min (rest r) (64 - line_off (cur_addr r)).

(** ReadLine, :255-286; FetchNonCoherentData, txns-rn.h:530-559 *)
Definition read_piece (d : N -> N) (r : run) : list access :=
  map (fun i => let i := N.of_nat i in
         mkAcc (cur_addr r + i) (be_at (o_be (r_op r)) (r_pos r + i)) (d (line_off (cur_addr r) + i)))
      (seq 0 (N.to_nat (seg_len r))).
Definition write_piece (r : run) : list access := op_bytes (r_op r) (r_pos r) (seg_len r).
Definition advance (r : run) (n : N) (l : list access) : run :=
  mkRun (r_op r) (r_pos r + n) (r_acc r ++ l).

(** The byte of the request that goes to offset [k] of the line, if enabled. *)
Definition hits (r : run) (k : N) : bool :=
  let o := line_off (cur_addr r) in
  (o <=? k) && (k <? o + seg_len r) && be_at (o_be (r_op r)) (r_pos r + (k - o)).
Definition byte_for (r : run) (k : N) : N :=
  nth (N.to_nat (r_pos r + (k - line_off (cur_addr r)))) (o_data (r_op r)) 0.
(** WriteLine, cache-chi.h:289-312, with CacheLine::Write, cacheline.h:62-84 *)
Definition write_line (l : line) (r : run) : line :=
  let l' := set_bytes l (fun k => if hits r k then byte_for r k else l_data l k)
                        (fun k => hits r k || l_be l k) in
  match grade_of l' with Empty => l' | _ => set_dirty l' true end.
(** CopyDataNonCached, txns-rn.h:821-851 *)
Definition write_req (o : reqop) (r : run) : req :=
  mkReq o (align (cur_addr r)) (fun k => if hits r k then byte_for r k else 0) (hits r).

(** AllBytesEnabled, cache-chi.h:1741-1764 *)
Definition all_enabled (o : op) : bool :=
  match o_be o with
  | None => false
  | Some b => (64 <=? N.of_nat (length b)) && forallb (fun x => x =? BE_ON) b
  end.

(** GetRandomBool and GetRandomInt, :1720-1737; [c_] fields: what rand_r gives *)
Record choice := mkChoice { c_read : N; c_store : bool; c_clean : bool; c_evict : bool }.
Definition rbool (b : bool) : bool := f_rnd f && b.

(** WriteTxn for a line, txns-rn.h:853-887 *)
Definition wb_req (o : reqop) (l : line) : req := mkReq o (l_tag l) (l_data l) (l_be l).

(** InvalidateCacheLine from the second test on, cache-chi.h:550-568.
    IsDirty asserts that a dirty line is not empty, cacheline.h:184-193. *)
Definition inval2 (s : state) (i : nat) (r : run) (main : req) (c : choice) : res state :=
  let a := q_addr main in
  let l := slot s i a in
  if l_valid l then
    match grade_of l, l_dirty l with
    | Partial, true => Ok (goto s i (Wait r (wb_req WriteBackPtl l) (N_Issue main)))
    | Empty, true => AssertFail
    | Full, true => Ok (goto s i (Wait r (wb_req WriteBackFull l) (N_Issue main)))
    | g, false =>
      if match g with Full => rbool (c_evict c) | _ => false end
      then Ok (goto s i (Wait r (wb_req WriteEvictFull l) (N_Issue main)))
      else (* Evict, :517-533 *)
        Ok (goto (put_slot s i a (set_valid l false)) i (Wait r (plain Evict (l_tag l)) (N_Issue main)))
    end
  else Ok (goto s i (Wait r main N_Main)).
(** :536-568 and the requests that use it, :590-705 *)
Definition issue (s : state) (i : nat) (r : run) (main : req) (c : choice) : res state :=
  let l := slot s i (q_addr main) in
  if l_valid l then
    if is_full l && l_dirty l && rbool (c_clean c)
    then Ok (goto s i (Wait r (wb_req WriteCleanFull l) (N_Inval main)))
    else inval2 s i r main c
  else Ok (goto s i (Wait r main N_Main)).

Definition quiet (x : res state) : res (state * list event) := rmap (fun s => (s, [])) x.

(** One pass through the loops of HandleLoad and HandleStore, cache-chi.h:1900-2050 *)
Definition thread (s : state) (i : nat) (r : run) (c : choice) : res (state * list event) :=
  let o := r_op r in
  let a := cur_addr r in
  let l := slot s i a in
  if o_len o <=? r_pos r then Ok (goto s i Idle, [Ev_Done i o (r_acc r) false])
  else match o_kind o with
  | O_Load =>
    if in_cache l a && is_full l then
      let p := read_piece (l_data l) r in
      Ok (goto s i (Run (advance r (seg_len r) p) false), [Ev_Read i false p])
    else
      quiet (issue s i r (plain
        (match (if f_rnd f then c_read c else 0) with
         | 0 => ReadShared | 1 => ReadClean | 2 => ReadOnce | 3 => ReadOnceCI | 4 => ReadOnceMI
         | _ => ReadNSD
         end) (align a)) c)
  | O_Store =>
    if in_cache l a then
      if negb (l_shared l) then
        let p := write_piece r in
        Ok (goto (put_slot s i a (write_line l r)) i (Run (advance r (seg_len r) p) false), [Ev_Write i false p])
      else Ok (goto s i (Wait r (plain CleanUnique (l_tag l)) N_Main), [])
    else if rbool (c_store c) then
      Ok (goto s i (Wait r (write_req (if all_enabled o then WriteUniqueFull else WriteUniquePtl) r) N_Main), [])
    else
      quiet (issue s i r (plain (if seg_len r =? 64 then MakeUnique else ReadUnique) (align a)) c)
  | _ => Unmodelled
  end.

(** ** The home node *)
(** FillPortsToSnoop, iconnect-chi.h:2911-2938 *)
Definition targets (s : state) (i : nat) (q : req) : list nat :=
  match snp_of (q_op q) false with
  | None => []
  | Some _ => filter (fun j => negb (Nat.eqb j i) && s_f s j (q_addr q)) (seq 0 (f_n f))
  end.
(** PointOfCoherence::ProcessReq, :2826-2890 *)
Definition start (s : state) (i : nat) (q : req) : state :=
  let t := targets s i q in
  st_h s (Some (mkWork i q (f_dct f && Nat.eqb (length t) 1) t [] false false no_data (fun _ => false) None false)).

(** Byte enables of a CompData forwarded by a snooped cache: with SnpRespFwded
    the message has a length but no pointer (TransmitOnTxDatChannel,
    txns-rn.h:1656-1667, copies into a payload without byte enables), so the
    copy made by the home has uninitialised ones ([junk]); the flit bridges send
    all lanes enabled, tlm-bridges/private/chi/pkts.h:1027-1058. *)
Definition fwd_be (o : rop) (l : line) (junk : N -> bool) : N -> bool :=
  match o with
  | R_Fwded => if f_flits f then all_on else junk
  | _ => l_be l
  end.

(** Snoop of port [j], its answer, ProcessResp and ProcessDat of the point of
    coherence (:2940-3066); RetToSrc is always set. *)
Definition snoop (s : state) (w : work) (j : nat) (junk : N -> bool) : res (state * list event) :=
  match snp_of (q_op (w_q w)) (w_fwd w) with
  | None => Unmodelled
  | Some q =>
    let a := q_addr (w_q w) in
    let l := slot s j a in
    rbind (if in_cache l a then handle_snp q true l else Ok (l, resp S_INV)) (fun lr =>
    let '(l', p) := lr in
    let s1 := if in_cache l a then put_slot s j a l' else s in
    (* SnoopFilter::Update, :1707-1728 *)
    let s2 := if (r_resp p =? 0) || (r_resp p =? 4) then st_f s1 j a false else s1 in
    let dt := has_data (r_rop p) in
    let fw := is_fwded (r_rop p) in
    let pt := match r_rop p with R_DataPtl => true | _ => false end in
    let buf := fun k => if l_be l k then l_data l k else 0 in
    let now := non_coherent (q_op (w_q w)) && negb (w_ev w) && (fw || (dt && negb pt)) in
    Ok (st_h s2 (Some (mkWork (w_i w) (w_q w) (w_fwd w) (remove Nat.eq_dec j (w_todo w))
      (w_resp w ++ [r_resp p])
      (w_got w || dt)
      (w_ptl w || pt)
      (* ReqTxn::CopyData, :900-937 *)
      (if dt then buf else w_data w)
      (if dt then l_be l else w_be w)
      (match r_comp p with
       | Some c => if fw then Some (c, l_data l, fwd_be (r_rop p) l junk) else None
       | None => w_comp w
       end)
      (w_ev w || now))),
      match s_t s (w_i w) with
      | Wait r _ _ => if now then [Ev_Read (w_i w) false (read_piece (if fw then l_data l else buf) r)] else []
      | _ => []
      end))
  end.

(** ParseSnpResponses, :779-815; RespCacheState is Resp & 3, RespPassDirty Resp & 4 *)
Definition parse (l : list N) : N :=
  let shared := existsb (fun x => negb (N.land x 3 =? 0)) l in
  let pd := existsb (fun x => negb (N.land x 4 =? 0)) l in
  if shared then if pd then 7 else 1 else if pd then 6 else 2.
(** SnpRespPassDirtyClear, :770-777 *)
Definition clear_pd (x : N) : N := if x =? 6 then 2 else if x =? 7 then 1 else x.

Definition put_mem (m : mem) (a : N) (d : N -> N) (be : N -> bool) : mem :=
  fun x => if (a <=? x) && (x <? a + 64) && be (x - a) then d (x - a) else m x.
Definition mem_line (m : mem) (a : N) : N -> N := fun k => m (a + k).

(** UpdatePortRNFSnoopFilter, :2751-2763 *)
Definition upd_filter (s : state) (i : nat) (q : req) : state :=
  match filter_req (q_op q) with Some v => st_f s i (q_addr q) v | None => s end.

(** CompData at the requester: ReadTxn::HandleRxDat, txns-rn.h:443-488, with
    ParseReadResp, :259-307.  [sn]: data of the slave node, which has no byte
    enables unless a flit bridge adds them (sn-chi.h:420-429). *)
Definition receive (l : line) (a rs : N) (d : N -> N) (be : N -> bool) : line :=
  let l1 := set_bytes l (fun k => if be k then d k else l_data l k) (fun k => be k || l_be l k) in
  let l2 := match rs with
            | 2 => set_dirty (set_shared (set_valid l1 true) false) false
            | 1 => set_dirty (set_shared (set_valid l1 true) true) false
            | 6 => set_dirty (set_shared (set_valid l1 true) false) true
            | 7 => set_dirty (set_shared (set_valid l1 true) true) true
            | _ => set_valid l1 false
            end in
  if l_valid l2 then set_bytes (set_tag l2 a) (l_data l2) all_on else l2.
Definition comp_data (s : state) (i : nat) (r : run) (q : req) (rs : N) (d : N -> N) (be : N -> bool)
    (sn ev : bool) : res (state * list event) :=
  let s1 := upd_filter s i q in
  if non_coherent (q_op q) then
    if sn && negb (f_flits f) then AssertFail      (* CopyDataNonCoherent, txns-rn.h:518 *)
    else
      let p := read_piece d r in
      Ok (goto s1 i (Run (advance r (seg_len r) p) false), if ev then [] else [Ev_Read i false p])
  else
    let a := q_addr q in
    Ok (goto (put_slot s1 i a (receive (slot s1 i a) a rs d be)) i (Run r false), []).

(** After a request that is not the last one the process continues. *)
Definition continue (r : run) (n : next) : pc :=
  match n with
  | N_Main => Run r false
  | N_Inval m => Inval r m
  | N_Issue m => Wait r m N_Main
  end.

(** GetResp of a copy-back, txns-rn.h:1106-1145: PassDirty and byte enables *)
Definition wb_pd (l : line) : bool := l_valid l && l_dirty l.

(** TxnProcessor::ProcessReq, iconnect-chi.h:2308-2401, up to the end of the
    request; [rs] is m_snpResp. *)
Definition process_req (s : state) (i : nat) (r : run) (q : req) (n : next) (rs : N) (ev : bool) : res (state * list event) :=
  let a := q_addr q in
  match q_op q with
  | ReadShared | ReadClean | ReadNSD | ReadUnique | ReadOnce | ReadOnceCI | ReadOnceMI =>
    comp_data s i r q (if (rs =? 0) || (rs =? 2) then 2 else rs) (mem_line (s_mem s) a) all_on true ev
  | WriteBackFull | WriteBackPtl | WriteCleanFull | WriteEvictFull =>
    let l := slot s i a in
    let be := if l_valid l then q_be q else fun _ => false in
    let s1 := upd_filter s i q in
    let s2 := if wb_pd l then st_mem s1 (put_mem (s_mem s1) a (fun k => if be k then q_data q k else 0) be) else s1 in
    let l' := match q_op q with WriteCleanFull => set_dirty l false | _ => set_valid l false end in
    Ok (goto (put_slot s2 i a l') i (continue r n), [])
  | WriteUniqueFull | WriteUniquePtl =>
    let k := match q_op q with WriteUniqueFull => 64 | _ => N.min (rest r) 64 end in   (* cache-chi.h:422-463 *)
    Ok (goto (st_mem s (put_mem (s_mem s) a (q_data q) (q_be q))) i (Run (advance r k (write_piece r)) false),
        [Ev_Write i false (write_piece r)])
  | CleanUnique | MakeUnique =>
    (* DatalessTxn::HandleRxRsp and ParseResp, txns-rn.h:665-768 *)
    let l := slot s i a in
    let l1 := set_dirty (set_shared (set_tag (set_valid l true) a) false) false in
    let l2 := match q_op q with MakeUnique => set_bytes l1 no_data (fun _ => false) | _ => l1 end in
    Ok (goto (put_slot (upd_filter s i q) i a l2) i (Run r true), [])
  | Evict =>
    Ok (goto (put_slot (upd_filter s i q) i a (set_valid (slot s i a) false)) i (continue r n), [])
  end.

(** CheckSnpDone, :3068-3095, and ProcessSnpdReq, :2249-2306 *)
Definition finish (s0 : state) (w : work) : res (state * list event) :=
  let s := st_h s0 None in
  let i := w_i w in
  let q := w_q w in
  match s_t s i with
  | Wait r _ n =>
    match w_comp w with
    | Some (rs, d, be) => comp_data s i r q rs d be false (w_ev w)
    | None =>
      match w_resp w with
      | [] => process_req s i r q n 0 (w_ev w)
      | l =>
        let rs := parse l in
        let wr := w_got w && ((rs =? 6) || (rs =? 7)) && negb (allows_pd (q_op q) (w_ptl w)) in
        let s1 := if wr then st_mem s (put_mem (s_mem s) (q_addr q) (w_data w) (w_be w)) else s in
        let rs1 := if wr then clear_pd rs else rs in
        if w_got w && is_read (q_op q) && negb (w_ptl w) then
          comp_data s1 i r q (if non_coherent (q_op q) then 0 else rs1) (w_data w) (w_be w) false (w_ev w)
        else process_req s1 i r q n rs1 (w_ev w)
      end
    end
  | _ => Unmodelled
  end.

(** ** Steps *)
Inductive label :=
| L_Start (i : nat) (o : op)                 (* b_transport: a load or store *)
| L_Thread (i : nat) (c : choice)            (* its process runs up to its next wait *)
| L_Home (i : nat)                           (* the home takes up the request of [i] *)
| L_Snoop (j : nat) (junk : N -> bool)       (* [j] is snooped *)
| L_Finish.                                  (* the home carries out the rest *)

(** [Unmodelled]: the step is not possible in this state. *)
Definition step (s : state) (lb : label) : res (state * list event) :=
  match lb with
  | L_Start i o =>
    match s_t s i with
    | Idle => if (i <? f_n f)%nat then Ok (goto s i (Run (mkRun o 0 []) false), []) else Unmodelled
    | _ => Unmodelled
    end
  | L_Thread i c =>
    match s_t s i with
    | Run r _ => thread s i r c
    | Inval r main => quiet (inval2 s i r main c)
    | _ => Unmodelled
    end
  | L_Home i =>
    match s_h s, s_t s i with
    | None, Wait r q n => Ok (start s i q, [])
    | _, _ => Unmodelled
    end
  | L_Snoop j junk =>
    match s_h s with
    | Some w => if existsb (Nat.eqb j) (w_todo w) then snoop s w j junk else Unmodelled
    | None => Unmodelled
    end
  | L_Finish =>
    match s_h s with
    | Some w => match w_todo w with [] => finish s w | _ => Unmodelled end
    | None => Unmodelled
    end
  end.

Fixpoint exec (s : state) (ls : list label) : res (state * list event) :=
  match ls with
  | [] => Ok (s, [])
  | lb :: ls' =>
    rbind (step s lb) (fun se => rbind (exec (fst se) ls') (fun se2 => Ok (fst se2, snd se ++ snd se2)))
  end.

(** After construction: no line valid, memory and line contents arbitrary. *)
Definition init (m : mem) (d : nat -> N -> N -> N) : state :=
  mkState (fun i x => mkLine false 0 false false (d i x) all_on) m (fun _ _ => false) (fun _ => Idle) None.

Definition held_by (s : state) (i : nat) (x : N) : option held :=
  let l := slot s i x in
  if in_cache l x then Some (mkHeld (l_shared l) (l_dirty l)) else None.

End Chi.
