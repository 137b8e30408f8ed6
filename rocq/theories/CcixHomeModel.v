(** Model of the snoop filters of the CHI home, of the snoops that it sends to its
    request nodes and to the agents behind its CCIX ports, and of how it takes the
    answers: classes Address, SnoopFilter, RequestOrderer and PointOfCoherence of
    /repo/tlm-modules/iconnect-chi.h, and NeedsSnoop, Transmit, UpdateSnoopFilter and
    Contains of /repo/tlm-modules/private/ccix/ccixport.h (l.3681-3767).

    Simplified: an answer to a snoop is one message (with or without data); there is no
    direct transfer from cache to cache (with CCIX ports it is off, iconnect-chi.h
    l.2823); DVM operations are left out; transaction identifiers are not used again. *)
From Verif Require Import Base.
Open Scope N_scope.

(** Address, iconnect-chi.h l.1661-1688: the line and whether it is non-secure *)
Definition aline : Type := N * bool.
Definition align (a : N) : N := a - a mod 64.
Definition line_eqb (x y : aline) : bool := (fst x =? fst y) && Bool.eqb (snd x) (snd y).

(** SnoopFilter, l.1690-1816 *)
Definition filt := list aline.
(** InList, l.1802-1813 *)
Definition in_list (x : aline) (f : filt) : bool := existsb (line_eqb x) f.
(** AllocateCacheLine, l.1788-1793 *)
Definition allocate (x : aline) (f : filt) : filt := if in_list x f then f else f ++ [x].
(** EvictCacheLine, l.1795-1800 *)
Definition evict (x : aline) (f : filt) : filt :=
  if in_list x f then filter (fun y => negb (line_eqb y x)) f else f.
(** Update after an answer, l.1707-1727, with INV and I_PD of l.1696-1699 *)
Definition sf_answer (resp : N) (x : aline) (f : filt) : filt :=
  if (resp =? 0) || (resp =? 4) then evict x f else f.
(** Update after a request, l.1733-1779; opcodes of tlm-bridges/amba-chi.h l.40-88 *)
Definition sf_request (op : N) (x : aline) (f : filt) : filt :=
  if existsb (N.eqb op) [2; 38; 1; 7; 11; 12] then allocate x f
  else if existsb (N.eqb op) [8; 39; 23] then f
  else evict x f.

(** A request: opcode, address, non-secure, source, ExpCompAck, and whether RouteInternal
    (l.3297-3322) gave it to the point of coherence. *)
Record hrq := mkHrq { q_op : N; q_addr : N; q_ns : bool; q_src : N; q_ack : bool; q_poc : bool }.
Definition q_line (q : hrq) : aline := (align (q_addr q), q_ns q).
(** When UpdatePortRNFSnoopFilter is called for a request: dataless requests (IsDataLess,
    l.328-343) at the latest with the CompAck (l.2359-2382, l.2530-2534), copy backs
    (IsCopyBack, l.460-470) with their data (l.2412-2423), all other requests except
    WriteUnique (l.545-555) with their CompAck, if there is one (l.2505-2534). *)
Definition q_updates (q : hrq) : bool :=
  existsb (N.eqb (q_op q)) [11; 12; 13; 8; 39; 9; 10; 35; 34]
  || existsb (N.eqb (q_op q)) [27; 26; 23; 21]
  || (q_ack q && negb (existsb (N.eqb (q_op q)) [24; 25; 32; 33])).

(** A request node (Port_RN_F) or a CCIX agent (ccixport.h l.77-91) *)
Record node := mkNode { n_id : N; n_sf : filt }.
Record home := mkHome {
  h_rnf : list node;                (* m_port_RN_F *)
  h_ccix : list (list node);        (* m_agents of each of m_port_CCIX *)
  h_cur : option (hrq * list N);    (* the request under way; trackers that are not done *)
  h_snp : list (N * N * aline);     (* snoops that are not answered: TxnID, node, line *)
  h_next : N }.                     (* the next TxnID *)

Definition has (q : hrq) (n : node) : bool := in_list (q_line q) (n_sf n).
(** FillPortsToSnoop, l.2911-2938 (GetSnpMe is false, l.322-326); NeedsSnoop, ccixport.h
    l.3681-3702 *)
Definition wants (q : hrq) (n : node) : bool := negb (n_id n =? q_src q) && has q n.
(** ProcessReq, l.2851-2866: one TxnID for each node *)
Fixpoint snp_rnf (q : hrq) (k : N) (ns : list node) : list (N * N * aline) :=
  match ns with [] => [] | n :: r => (k, n_id n, q_line q) :: snp_rnf q (k + 1) r end.
(** l.2874-2888: one TxnID for each port; Transmit, ccixport.h l.3704-3721 *)
Fixpoint snp_ccix (q : hrq) (k : N) (ps : list (list node)) : list (N * N * aline) :=
  match ps with
  | [] => []
  | p :: r => map (fun n => (k, n_id n, q_line q)) (filter (has q) p) ++ snp_ccix q (k + 1) r
  end.
Fixpoint ids (k : N) (n : nat) : list N :=
  match n with O => [] | S m => k :: ids (k + 1) m end.

Definition upd (i : N) (g : filt -> filt) (ns : list node) : list node :=
  map (fun n => if n_id n =? i then mkNode (n_id n) (g (n_sf n)) else n) ns.
Definition contains (i : N) (ns : list node) : bool := existsb (fun n => n_id n =? i) ns.
(** LookupPortRNF, l.2722-2730, returns the first: [upd] of the first only *)
Fixpoint upd1 (i : N) (g : filt -> filt) (ns : list node) : list node :=
  match ns with
  | [] => []
  | n :: r => if n_id n =? i then mkNode (n_id n) (g (n_sf n)) :: r else n :: upd1 i g r
  end.
(** LookupPortCCIX, l.2740-2748, and Contains, ccixport.h l.3754-3767 with its assert:
    the ports before the one found, that port, and the others *)
Fixpoint lookup_ccix (i : N) (ps : list (list node)) : res (option (list (list node) * list node * list (list node))) :=
  match ps with
  | [] => Ok None
  | p :: r =>
    match p with
    | [] => AssertFail
    | _ =>
      if contains i p then Ok (Some ([], p, r))
      else match lookup_ccix i r with
           | Ok (Some (a, x, b)) => Ok (Some (p :: a, x, b))
           | Ok None => Ok None
           | AssertFail => AssertFail | UB => UB | Unmodelled => Unmodelled
           end
    end
  end.

(** What happens at the home *)
Inductive hev :=
| Start (q : hrq)             (* req_ordering_thread, l.1864-1898: one request at a time *)
| Answer (i : nat) (resp : N) (* ProcessResp, l.2940-3001, or ProcessDat, l.3003-3066,
                                 for the i-th snoop under way *)
| Finish                      (* the request is done *)
| Drop (n : N) (x : aline).   (* not at the home: a node gives up a line silently *)

Definition remove_at {A} (i : nat) (l : list A) : list A := firstn i l ++ skipn (S i) l.

Definition hstep (s : home) (e : hev) : res home :=
  match e with
  | Start q =>
    match h_cur s with
    | Some _ => Ok s
    | None =>
      if q_poc q then
        let ports := filter (wants q) (h_rnf s) in
        let cports := filter (existsb (wants q)) (h_ccix s) in
        let k := h_next s + N.of_nat (length ports) in
        Ok (mkHome (h_rnf s) (h_ccix s)
             (Some (q, ids (h_next s) (length ports + length cports)))
             (h_snp s ++ snp_rnf q (h_next s) ports ++ snp_ccix q k cports)
             (k + N.of_nat (length cports)))
      else Ok (mkHome (h_rnf s) (h_ccix s) (Some (q, [])) (h_snp s) (h_next s))
    end
  | Answer i resp =>
    match nth_error (h_snp s) i with
    | None => Ok s
    | Some (t, n, _) =>
      match h_cur s with
      | None => AssertFail (* m_ongoingTxn[txnID] is NULL, l.2945 *)
      | Some (q, ts) =>
        if existsb (N.eqb t) ts then
          match lookup_ccix n (h_ccix s) with
          | Ok found =>
            let ts' := filter (fun x => negb (x =? t)) ts in
            let snp' := remove_at i (h_snp s) in
            let g := sf_answer resp (q_line q) in
            if contains n (h_rnf s)
            then Ok (mkHome (upd1 n g (h_rnf s)) (h_ccix s) (Some (q, ts')) snp' (h_next s))
            else match found with
                 | Some (a, p, b) =>
                   (* UpdateSnoopFilter, ccixport.h l.3738-3752: by the source of the request *)
                   Ok (mkHome (h_rnf s) (a ++ upd (q_src q) g p :: b) (Some (q, ts')) snp' (h_next s))
                 | None => Ok (mkHome (h_rnf s) (h_ccix s) (Some (q, ts')) snp' (h_next s))
                 end
          | AssertFail => AssertFail | UB => UB | Unmodelled => Unmodelled
          end
        else AssertFail
      end
    end
  | Finish =>
    match h_cur s with
    | Some (q, []) =>
      if q_updates q then
        (* UpdatePortRNFSnoopFilter, l.2751-2763; UpdateSnoopFilter, ccixport.h l.3723-3735 *)
        let g := sf_request (q_op q) (q_line q) in
        if contains (q_src q) (h_rnf s)
        then Ok (mkHome (upd1 (q_src q) g (h_rnf s)) (h_ccix s) None (h_snp s) (h_next s))
        else match lookup_ccix (q_src q) (h_ccix s) with
             | Ok (Some (a, p, b)) => Ok (mkHome (h_rnf s) (a ++ upd (q_src q) g p :: b) None (h_snp s) (h_next s))
             | Ok None => Ok (mkHome (h_rnf s) (h_ccix s) None (h_snp s) (h_next s))
             | AssertFail => AssertFail | UB => UB | Unmodelled => Unmodelled
             end
      else Ok (mkHome (h_rnf s) (h_ccix s) None (h_snp s) (h_next s))
    | _ => Ok s
    end
  | Drop _ _ => Ok s
  end.

Fixpoint hrun (s : home) (es : list hev) : res home :=
  match es with
  | [] => Ok s
  | e :: r => match hstep s e with Ok s' => hrun s' r | AssertFail => AssertFail | UB => UB | Unmodelled => Unmodelled end
  end.

(** All filters begin empty. *)
Definition fresh (i : N) : node := mkNode i [].
Definition home_init (rnf : list N) (ccix : list (list N)) : home :=
  mkHome (map fresh rnf) (map (map fresh) ccix) None [] 0.

(** A snoop filter on its own: requests of its node and answers of its node *)
Inductive sfev := SfRequest (q : hrq) | SfAnswer (resp : N) (q : hrq).
Definition sf_step (f : filt) (e : sfev) : filt :=
  match e with
  | SfRequest q => sf_request (q_op q) (q_line q) f
  | SfAnswer resp q => sf_answer resp (q_line q) f
  end.
Definition sf_run (es : list sfev) : filt := fold_left sf_step es [].
