(** Model of coherent ACE caches (tlm-modules/cache-ace.h) connected by the ACE
    interconnect (tlm-modules/iconnect-ace.h): an interleaving machine in which
    a step is a stretch of code of one SystemC process without a wait.

    Simplifications, all in one place:
    - the downstream memory answers every access with OK and implements all
      addresses, separately for secure and non-secure accesses;
    - the snoop engine FIFO (sc_fifo of 16) is never full, see C27 for the case
      in which it is;
    - no non-shareable regions, barriers, DVM messages and ACE-Lite ports;
    - addresses do not wrap around 2^64;
    - PortDone runs together with the snoop it answers (in the code one delta
      cycle later; it only touches the transaction). *)
From Verif Require Import Base TlmModel TlmSpec AceSpec.
Open Scope N_scope.

(** Template arguments: CACHELINE_SZ = 2^[f_k], CACHE_SZ, NUM_ACE_MASTERS and
    which masters use ACECacheWriteThrough. *)
Record cfg := mkCfg { f_k : N; f_size : N; f_nm : nat; f_wt : nat -> bool }.

(** cache-ace.h:115-130 *)
Record line := mkLine {
  l_valid : bool; l_tag : N; l_sec : bool; l_shared : bool; l_dirty : bool;
  l_data : N -> N }.
Definition set_valid l v := mkLine v (l_tag l) (l_sec l) (l_shared l) (l_dirty l) (l_data l).
Definition set_shared l v := mkLine (l_valid l) (l_tag l) (l_sec l) v (l_dirty l) (l_data l).
Definition set_dirty l v := mkLine (l_valid l) (l_tag l) (l_sec l) (l_shared l) v (l_data l).
Definition set_data l v := mkLine (l_valid l) (l_tag l) (l_sec l) (l_shared l) (l_dirty l) v.

Record cache := mkCache { c_line : N -> line; c_toggle : bool; c_mon : list N }.

Definition updN {A} (f : N -> A) (i : N) (v : A) : N -> A := fun x => if x =? i then v else f x.
Definition updn {A} (f : nat -> A) (i : nat) (v : A) : nat -> A :=
  fun x => if Nat.eqb x i then v else f x.

Definition set_line (c : cache) (i : N) (l : line) : cache :=
  mkCache (updN (c_line c) i l) (c_toggle c) (c_mon c).

(** AR and AW transactions issued by the caches. *)
Inductive kind :=
| K_ReadShared | K_ReadNSD | K_ReadUnique | K_ReadClean | K_CleanUnique | K_MakeUnique
| K_WriteUnique | K_WriteLineUnique | K_CleanShared | K_CleanInvalid | K_MakeInvalid.

(** AC snoops, iconnect-ace.h:574-637 (init_snoop_genattr). *)
Inductive snoop :=
| A_ReadShared | A_ReadClean | A_ReadNSD | A_ReadUnique | A_CleanInvalid
| A_CleanShared | A_MakeInvalid.
Definition snoop_of (k : kind) : snoop :=
  match k with
  | K_ReadShared => A_ReadShared
  | K_ReadNSD => A_ReadNSD
  | K_ReadUnique => A_ReadUnique
  | K_ReadClean => A_ReadClean
  | K_CleanShared => A_CleanShared
  | K_CleanUnique | K_CleanInvalid | K_WriteUnique => A_CleanInvalid
  | K_MakeUnique | K_MakeInvalid | K_WriteLineUnique => A_MakeInvalid
  end.

(** iconnect-ace.h:489-504 (is_read_snoop) *)
Definition is_read_snoop (a : snoop) : bool :=
  match a with
  | A_ReadShared | A_ReadClean | A_ReadNSD | A_ReadUnique => true
  | _ => false
  end.

(** amba-ace.h:355-389 and :556-569 (AllowPassDirty) *)
Definition pass_dirty (k : kind) : bool :=
  match k with
  | K_ReadShared | K_ReadNSD | K_ReadUnique => true
  | _ => false
  end.

(** Answer of one snooped cache: IsShared, PassDirty, DataTransfer. *)
Record resp := mkResp { p_shared : bool; p_dirty : bool; p_data : option (N -> N) }.
Definition no_resp := mkResp false false None.

(** A transaction while the interconnect works on it: IsShared and PassDirty
    collected, data for the initiator, dirty data to be written downstream first,
    response already OK, EXOKAY. *)
Record txst := mkTx {
  x_shared : bool; x_dirty : bool; x_data : option (N -> N); x_ds : option (N -> N);
  x_ok : bool; x_ex : bool }.

(** A request being carried out: bytes done, pieces so far, exclusive_failed. *)
Record run := mkRun { r_op : op; r_pos : N; r_acc : list access; r_exfail : bool }.

Inductive pc :=
| Idle
| Head (r : run)                             (* top of the while loop *)
| Wait (r : run) (k : kind)                  (* in m_overlapping_tx *)
| Entered (r : run) (k : kind)               (* in m_ongoing_tx, in the snoop engine FIFO *)
| Snooping (r : run) (k : kind) (todo : list nat) (x : txst)
| DsWrite (r : run) (k : kind) (x : txst)    (* exec_snoop_downstream_gp *)
| Final (r : run) (k : kind) (x : txst)      (* finalize_snoop_tr *)
| Finished (r : run) (k : kind) (x : txst)   (* DoneEvent notified *)
| Wb (r : run) (clean : bool) (next : kind)      (* WriteBack/WriteClean queued downstream *)
| WbDone (r : run) (clean : bool) (next : kind). (* and written *)

Record state := mkState {
  s_cache : nat -> cache; s_mem : world; s_pc : nat -> pc;
  s_ongoing : list nat; s_waiting : list nat;   (* OverlappingTxOrderer, by master *)
  s_pos : nat -> bool; s_lock : bool }.         (* PosMonitor *)

Definition st_cache s v := mkState v (s_mem s) (s_pc s) (s_ongoing s) (s_waiting s) (s_pos s) (s_lock s).
Definition st_mem s v := mkState (s_cache s) v (s_pc s) (s_ongoing s) (s_waiting s) (s_pos s) (s_lock s).
Definition st_pc s v := mkState (s_cache s) (s_mem s) v (s_ongoing s) (s_waiting s) (s_pos s) (s_lock s).
Definition st_lists s o w := mkState (s_cache s) (s_mem s) (s_pc s) o w (s_pos s) (s_lock s).
Definition st_pos s p l := mkState (s_cache s) (s_mem s) (s_pc s) (s_ongoing s) (s_waiting s) p l.
Definition goto s m p := st_pc s (updn (s_pc s) m p).
Definition cache_to s m c := st_cache s (updn (s_cache s) m c).

Section Ace.
Context (f : cfg).

Definition cl : N := 2 ^ f_k f.

(** cache-ace.h:966-992 *)
Definition align (a : N) : N := N.ldiff a (N.ones (f_k f)).
Definition line_off (a : N) : N := N.land a (N.ones (f_k f)).
Definition index (t : N) : N := (t mod f_size f) / cl.
Definition slot (a : N) : N := index (align a).

Definition get_line (c : cache) (a : N) : line := c_line c (slot a).
Definition put_line (c : cache) (a : N) (l : line) : cache := set_line c (slot a) l.

(** cache-ace.h:994-1005 *)
Definition line_is (l : line) (t : N) (sec : bool) : bool :=
  l_valid l && (l_tag l =? t) && Bool.eqb (l_sec l) sec.
Definition in_cache (c : cache) (a : N) (sec : bool) : bool :=
  line_is (get_line c a) (align a) sec.

(** cache-ace.h:1256-1295 (MasterExclusiveMonitor) *)
Definition mon_is_set (c : cache) (a : N) : bool := existsb (N.eqb a) (c_mon c).
Definition mon_set (c : cache) (a : N) : cache :=
  if mon_is_set c a then c else mkCache (c_line c) (c_toggle c) (c_mon c ++ [a]).
Definition mon_reset (c : cache) (a : N) : cache :=
  mkCache (c_line c) (c_toggle c) (filter (fun x => negb (x =? a)) (c_mon c)).

(** Snoop handlers, cache-ace.h:151-365; [a] is the line address. *)
Definition handle_snoop (q : snoop) (c : cache) (a : N) (sec : bool) : cache * resp :=
  if in_cache c a sec then
    let l := get_line c a in
    match q with
    | A_ReadShared =>                                            (* :174-206 *)
      (put_line c a (set_dirty (set_shared l true) false), mkResp true (l_dirty l) (Some (l_data l)))
    | A_ReadClean | A_ReadNSD =>                                 (* :208-241 *)
      (put_line c a (set_shared l true), mkResp true false (Some (l_data l)))
    | A_ReadUnique =>                                            (* :243-276 *)
      (mon_reset (put_line c a (set_valid l false)) a, mkResp false (l_dirty l) (Some (l_data l)))
    | A_CleanInvalid =>                                          (* :278-310 *)
      (mon_reset (put_line c a (set_valid l false)) a,
       mkResp false (l_dirty l) (if l_dirty l then Some (l_data l) else None))
    | A_CleanShared =>                                           (* :312-343 *)
      (put_line c a (set_shared (set_dirty l false) true),
       mkResp true (l_dirty l) (if l_dirty l then Some (l_data l) else None))
    | A_MakeInvalid =>                                           (* :345-365 *)
      (mon_reset (put_line c a (set_valid l false)) a, no_resp)
    end
  else (c, no_resp).

(** iconnect-ace.h:337-389 (PortDone) and :437-487 (update_trans_response) *)
Definition port_ok (k : kind) (p : resp) : bool :=
  match snoop_of k with
  | A_ReadShared | A_ReadClean | A_ReadNSD | A_ReadUnique =>
    match p_data p with Some _ => true | None => false end
  | A_CleanInvalid => match k with K_WriteUnique => false | _ => true end
  | A_MakeInvalid => match k with K_WriteLineUnique => false | _ => true end
  | A_CleanShared => true
  end.
Definition port_done (k : kind) (x : txst) (p : resp) : txst :=
  let got := match p_data p with Some _ => true | None => false end in
  mkTx (x_shared x || p_shared p)
       (x_dirty x || (got && pass_dirty k && p_dirty p))
       (if got && is_read_snoop (snoop_of k) then p_data p else x_data x)
       (if got && negb (pass_dirty k) && p_dirty p then p_data p else x_ds x)
       (x_ok x || port_ok k p) (x_ex x).

(** Address and length of the transaction a process is waiting for. *)
Definition cur_addr (r : run) : N := o_addr (r_op r) + r_pos r.
(** cache-ace.h:1014-1027 (to_write); also the clipping in read_line/write_line *)
Definition seg_len (r : run) : N :=
  N.min (o_len (r_op r) - r_pos r) (cl - line_off (cur_addr r)).
Definition range_of (r : run) (k : kind) : N * N :=
  match k with
  | K_WriteUnique | K_WriteLineUnique => (cur_addr r, seg_len r)
  | K_CleanShared | K_CleanInvalid | K_MakeInvalid => (o_addr (r_op r), o_len (r_op r))
  | _ => (align (cur_addr r), cl)
  end.
Definition tx_range (s : state) (m : nat) : N * N :=
  match s_pc s m with
  | Wait r k | Entered r k | Snooping r k _ _ | DsWrite r k _ | Final r k _ | Finished r k _ =>
    range_of r k
  | Wb r _ _ | WbDone r _ _ => (l_tag (get_line (s_cache s m) (cur_addr r)), cl)
  | Idle | Head _ => (0, 0)
  end.

(** iconnect-ace.h:200-210 (InAddressRange), :840-857 (is_overlapping); the
    64-bit subtraction for a zero length wraps but is never in range of a
    transaction starting at 0, so plain subtraction with a guard is used. *)
Definition in_range (g : N * N) (a : N) : bool := (fst g <=? a) && (a <? fst g + snd g).
Definition last_of (g : N * N) : N := fst g + snd g - 1.
Definition overlaps (tr ongoing : N * N) : bool :=
  in_range ongoing (fst tr) || in_range ongoing (last_of tr) || in_range tr (fst ongoing).
Definition is_overlapping (s : state) (g : N * N) : bool :=
  existsb (fun j => overlaps g (tx_range s j)) (s_ongoing s).

(** iconnect-ace.h:859-907 (restart_overlapping) after removal from
    m_ongoing_tx (:819); [g] is the range of the finished transaction.  Only
    snooping transactions are ever in m_overlapping_tx. *)
Definition restart_one (g : N * N) (s : state) (w : nat) : state :=
  if overlaps g (tx_range s w) && negb (is_overlapping s (tx_range s w)) then
    match s_pc s w with
    | Wait r k => goto (st_lists s (s_ongoing s ++ [w])
                          (filter (fun j => negb (Nat.eqb j w)) (s_waiting s))) w (Entered r k)
    | _ => s
    end
  else s.
Definition tx_leave (s : state) (m : nat) (r : run) : state :=
  let g := tx_range s m in
  let s1 := goto (st_lists s (filter (fun j => negb (Nat.eqb j m)) (s_ongoing s)) (s_waiting s))
                 m (Head r) in
  fold_left (restart_one g) (s_waiting s) s1.

(** iconnect-ace.h:791-822 (process) for a snooping transaction *)
Definition issue (s : state) (m : nat) (r : run) (k : kind) : state :=
  if is_overlapping s (range_of r k)
  then goto (st_lists s (s_ongoing s) (s_waiting s ++ [m])) m (Wait r k)
  else goto (st_lists s (s_ongoing s ++ [m]) (s_waiting s)) m (Entered r k).
(** and for WriteBack and WriteClean, which are not checked *)
Definition issue_wb (s : state) (m : nat) (r : run) (clean : bool) (next : kind) : state :=
  goto (st_lists s (s_ongoing s ++ [m]) (s_waiting s)) m (Wb r clean next).

(** cache-ace.h:398-410 (evict_line) followed by transaction [k]; the evict of
    a clean line is answered at the port (iconnect-ace.h:1050-1053). *)
Definition fill (s : state) (m : nat) (r : run) (k : kind) : state :=
  let c := s_cache s m in
  let a := cur_addr r in
  let l := get_line c a in
  if l_valid l then
    if l_dirty l then
      let t := negb (c_toggle c) in
      issue_wb (cache_to s m (mkCache (c_line c) t (c_mon c))) m r t k
    else issue (cache_to s m (put_line c a (set_valid l false))) m r k
  else issue s m r k.

(** cache-ace.h:898-928 (read_line): the bytes returned. *)
Definition read_piece (l : line) (r : run) : list access :=
  map (fun i => let a := op_byte (r_op r) (r_pos r + N.of_nat i) in
                mkAcc (a_addr a) (a_en a)
                      (if a_en a then l_data l (line_off (cur_addr r) + N.of_nat i)
                       else a_byte a))
      (seq 0 (N.to_nat (seg_len r))).
Definition write_piece (r : run) : list access := op_bytes (r_op r) (r_pos r) (seg_len r).

(** cache-ace.h:931-964 (write_line) *)
Definition write_data (d : N -> N) (r : run) : N -> N :=
  fun o =>
    let lo := line_off (cur_addr r) in
    if (lo <=? o) && (o <? lo + seg_len r) then
      let a := op_byte (r_op r) (r_pos r + (o - lo)) in
      if a_en a then a_byte a else d o
    else d o.
Definition write_line (l : line) (r : run) (dirty : bool) : line :=
  set_dirty (set_data l (write_data (l_data l) r)) dirty.

Definition advance (r : run) (l : list access) : run :=
  mkRun (r_op r) (r_pos r + seg_len r) (r_acc r ++ l) (r_exfail r).

(** End of b_transport: the mutex is released. *)
Definition finish (s : state) (m : nat) (r : run) (ex : bool) : state * list event :=
  (goto s m Idle, [Ev_Done m (r_op r) (r_acc r) ex]).

(** The write branch of the store loop, cache-ace.h:1373-1386 *)
Definition store_here (s : state) (m : nat) (r : run) : state * list event :=
  let c := s_cache s m in
  let a := cur_addr r in
  let c1 := put_line c a (write_line (get_line c a) r true) in
  let c2 := if o_excl (r_op r) then mon_reset c1 a else c1 in
  (goto (cache_to s m c2) m (Head (advance r (write_piece r))),
   [Ev_Write m (o_sec (r_op r)) (write_piece r)]).

(** no_sparse_wstrb, cache-ace.h:1489-1507 *)
Definition no_sparse (r : run) : bool := forallb a_en (op_bytes (r_op r) (r_pos r) cl).

(** One iteration of the loop up to the next wait. *)
Definition local (s : state) (m : nat) (r : run) : state * list event :=
  let o := r_op r in
  let c := s_cache s m in
  let a := cur_addr r in
  match o_kind o with
  | O_Load =>                                       (* :1313-1357, :1433-1454 *)
    if o_len o <=? r_pos r then
      finish s m r (if f_wt f m then false else o_excl o && negb (r_exfail r))
    else if in_cache c a (o_sec o) then
      let p := read_piece (get_line c a) r in
      (goto s m (Head (advance r p)), [Ev_Read m (o_sec o) p])
    else if f_wt f m then (fill s m r K_ReadClean, [])
    else if o_excl o then (fill s m r K_ReadShared, [])
    else
      let t := negb (c_toggle c) in
      let s1 := cache_to s m (mkCache (c_line c) t (c_mon c)) in
      (fill s1 m r (if t then K_ReadShared else K_ReadNSD), [])
  | O_Store =>                                      (* :1359-1423, :1456-1486 *)
    if o_len o <=? r_pos r then finish s m r (if f_wt f m then false else o_excl o)
    else if f_wt f m then
      (issue s m r (if (seg_len r =? cl) && no_sparse r then K_WriteLineUnique else K_WriteUnique), [])
    else if o_excl o && negb (mon_is_set c a) then finish s m r false
    else if in_cache c a (o_sec o) then
      if negb (l_shared (get_line c a)) then store_here s m r
      else (issue s m r K_CleanUnique, [])
    else (fill s m r (if seg_len r =? cl then K_MakeUnique else K_ReadUnique), [])
  | O_CleanShared =>                                (* :858-878 *)
    if in_cache c a (o_sec o) && l_dirty (get_line c a)
    then (issue_wb s m r true K_CleanShared, [])
    else (issue s m r K_CleanShared, [])
  | O_CleanInvalid | O_MakeInvalid =>               (* :879-895 *)
    let k := match o_kind o with O_CleanInvalid => K_CleanInvalid | _ => K_MakeInvalid end in
    let s1 := if in_cache c a (o_sec o)
              then cache_to s m (put_line c a (set_valid (get_line c a) false)) else s in
    (issue s1 m r k, [])
  end.

(** snoop_engine_thread and handle_exclusive, iconnect-ace.h:1348-1413 and
    :1473-1526.  The exclusive attribute reaches the interconnect only with
    ReadShared, ReadClean and CleanUnique. *)
Definition others (m : nat) : list nat := filter (fun j => negb (Nat.eqb j m)) (seq 0 (f_nm f)).
Definition tx0 (ex : bool) : txst := mkTx false false None None false ex.
Definition engine (s : state) (m : nat) (r : run) (k : kind) : state :=
  let start s ex := goto s m (Snooping r k (others m) (tx0 ex)) in
  if o_excl (r_op r) then
    let setp := if s_lock s then s_pos s else updn (s_pos s) m true in
    match k with
    | K_CleanUnique =>
      if s_pos s m then
        start (st_pos s (fun j => if Nat.eqb j m then setp j else false) true) true
      else goto (st_pos s setp (s_lock s)) m (Finished r k (mkTx false false None None true false))
    | K_ReadShared | K_ReadClean => start (st_pos s setp (s_lock s)) true
    | _ => start s false
    end
  else start s false.

(** Line-wide downstream accesses. *)
Definition line_of (w : mem) (t : N) : N -> N := fun o => w (t + o).
Definition put_mem_line (w : mem) (t : N) (d : N -> N) : mem :=
  fun a => if (t <=? a) && (a <? t + cl) then d (a - t) else w a.

(** Line address of the snoops, iconnect-ace.h:1352 *)
Definition snoop_addr (r : run) (k : kind) : N := align (fst (range_of r k)).

(** downstream_port_thread, iconnect-ace.h:760-772 *)
Definition downstream (s : state) (m : nat) : option (state * list event) :=
  match s_pc s m with
  | Wb r clean next =>
    let l := get_line (s_cache s m) (cur_addr r) in
    let w := s_mem s in
    Some (goto (st_mem s (world_upd w (l_sec l) (put_mem_line (w (l_sec l)) (l_tag l) (l_data l))))
               m (WbDone r clean next), [])
  | DsWrite r k x =>
    (* init_ds_gp (iconnect-ace.h:667-709) leaves the security attribute at its
       default, non-secure *)
    match x_ds x with
    | Some d =>
      let w := s_mem s in
      let x' := mkTx (x_shared x) (x_dirty x) (x_data x) None (x_ok x) (x_ex x) in
      Some (goto (st_mem s (world_upd w false (put_mem_line (w false) (snoop_addr r k) d)))
                 m (Final r k x'), [])
    | None => None
    end
  | Final r k x =>
    if x_ok x then Some (goto s m (Finished r k x), [])
    else
      let o := r_op r in
      let w := s_mem s in
      match k with
      | K_ReadShared | K_ReadNSD | K_ReadUnique | K_ReadClean =>
        let d := line_of (w (o_sec o)) (align (cur_addr r)) in
        Some (goto s m (Finished r k (mkTx (x_shared x) (x_dirty x) (Some d) (x_ds x) true (x_ex x))), [])
      | K_WriteUnique | K_WriteLineUnique =>
        let p := write_piece r in
        Some (goto (st_mem s (world_upd w (o_sec o) (fold_left put p (w (o_sec o)))))
                   m (Finished r k x), [Ev_Write m (o_sec o) p])
      | _ => Some (goto s m (Finished r k x), [])
      end
  | _ => None
  end.

(** Return from b_transport of the interconnect into the cache. *)
Definition fill_line (l : line) (r : run) (k : kind) (x : txst) : line :=
  mkLine true (align (cur_addr r)) (o_sec (r_op r)) (x_shared x)
         (match k with K_ReadClean => false | _ => x_dirty x end)
         (match x_data x with Some d => d | None => l_data l end).

Definition complete (s0 : state) (m : nat) : option (state * list event) :=
  match s_pc s0 m with
  | WbDone r clean next =>                          (* :412-470, :398-410 *)
    let s := tx_leave s0 m r in
    let c := s_cache s m in
    let a := cur_addr r in
    let l := get_line c a in
    let l' := match next with K_CleanShared => set_dirty l false | _ => 
                set_valid (if clean then set_dirty l false else l) false end in
    Some (issue (cache_to s m (put_line c a l')) m r next, [])
  | Finished r k x =>
    let s := tx_leave s0 m r in
    let o := r_op r in
    let c := s_cache s m in
    let a := cur_addr r in
    let l := get_line c a in
    match k with
    | K_ReadShared | K_ReadNSD | K_ReadClean | K_ReadUnique =>       (* :601-773 *)
      let c1 := put_line c a (fill_line l r k x) in
      match o_kind o with
      | O_Load =>
        if o_excl o && negb (f_wt f m) then         (* :1342-1348 *)
          Some (goto (cache_to s m (mon_set c1 a)) m
                     (Head (mkRun o (r_pos r) (r_acc r) (r_exfail r || negb (x_ex x)))), [])
        else Some (goto (cache_to s m c1) m (Head r), [])
      | _ => Some (goto (cache_to s m c1) m (Head r), [])
      end
    | K_CleanUnique =>                              (* :775-820, :1387-1404 *)
      let c1 := if l_valid l then put_line c a (set_shared l false) else c in
      if o_excl o then
        if l_valid l && x_ex x then Some (goto (cache_to s m c1) m (Head r), [])
        else Some (finish (cache_to s m (mon_reset c1 a)) m r false)
      else Some (goto (cache_to s m c1) m (Head r), [])
    | K_MakeUnique =>                               (* :822-856; the loop then *)
      (* writes the line without a wait *)
      let l' := mkLine true (align a) (o_sec o) false true (l_data l) in
      let s1 := cache_to s m (put_line c a l') in
      if o_excl o && negb (mon_is_set c a) then Some (finish s1 m r false)
      else Some (store_here s1 m r)
    | K_WriteUnique | K_WriteLineUnique =>          (* :472-543 *)
      let upd_own := match k with K_WriteUnique => r_pos r <? seg_len r | _ => true end in
      let c1 := if upd_own && in_cache c a (o_sec o)
                then put_line c a (set_shared (write_line l r false) true) else c in
      Some (goto (cache_to s m c1) m (Head (advance r (write_piece r))), [])
    | K_CleanShared | K_CleanInvalid | K_MakeInvalid => Some (finish s m r false)
    end
  | _ => None
  end.

(** write_ongoing, cache-ace.h:1134-1139: snoops wait. *)
Definition writing (p : pc) : bool := match p with Wb _ _ _ | WbDone _ _ _ => true | _ => false end.

Inductive label :=
| L_Start (m : nat) (o : op) | L_Local (m : nat) | L_Engine (m : nat) | L_Snoop (m j : nat)
| L_SnoopDone (m : nat) | L_Ds (m : nat) | L_Complete (m : nat) | L_Unlock.

Definition step (s : state) (lb : label) : option (state * list event) :=
  match lb with
  | L_Start m o =>                                   (* b_transport, :1584-1611 *)
    match s_pc s m with
    | Idle => if (m <? f_nm f)%nat then Some (goto s m (Head (mkRun o 0 [] false)), []) else None
    | _ => None
    end
  | L_Local m => match s_pc s m with Head r => Some (local s m r) | _ => None end
  | L_Engine m => match s_pc s m with Entered r k => Some (engine s m r k, []) | _ => None end
  | L_Snoop m j =>                                   (* b_transport_snoop, PortDone *)
    match s_pc s m with
    | Snooping r k todo x =>
      if existsb (Nat.eqb j) todo && negb (writing (s_pc s j)) then
        let '(c', p) := handle_snoop (snoop_of k) (s_cache s j) (snoop_addr r k) (o_sec (r_op r)) in
        Some (goto (cache_to s j c') m
                   (Snooping r k (filter (fun i => negb (Nat.eqb i j)) todo) (port_done k x p)), [])
      else None
    | _ => None
    end
  | L_SnoopDone m =>                                 (* snoop_done_thread, :1542-1554 *)
    match s_pc s m with
    | Snooping r k [] x =>
      Some (goto s m (match x_ds x with Some _ => DsWrite r k x | None => Final r k x end), [])
    | _ => None
    end
  | L_Ds m => downstream s m
  | L_Complete m => complete s m
  | L_Unlock => Some (st_pos s (s_pos s) false, [])  (* release_lock_thread *)
  end.

Fixpoint exec (s : state) (ls : list label) : option (state * list event) :=
  match ls with
  | [] => Some (s, [])
  | lb :: ls' =>
    match step s lb with
    | Some (s1, e1) =>
      match exec s1 ls' with Some (s2, e2) => Some (s2, e1 ++ e2) | None => None end
    | None => None
    end
  end.

(** After construction: no line valid, memory arbitrary. *)
Definition init (w : world) (d : nat -> N -> N -> N) : state :=
  mkState (fun m => mkCache (fun i => mkLine false 0 false false false (d m i)) false [])
          w (fun _ => Idle) [] [] (fun _ => false) false.

Definition held_by (s : state) (i : nat) (x : bool * N) : option held :=
  let l := get_line (s_cache s i) (snd x) in
  if line_is l (snd x) (fst x) then Some (mkHeld (l_shared l) (l_dirty l)) else None.

End Ace.
