(** Model of the credits of a CCIX link: classes LinkCredits, CCIXMisc and CCIXLink of
    /repo/tlm-modules/private/ccix/ccixport.h (l.2455-2845), and where the port gives
    credits back (CCIXReq_Done_HN and CCIXSnpReq_Done_RN, l.3219-3231).

    One direction of one link: requests and snoops go from a sender to a receiver,
    credits the other way.  Any number of threads may call Transmit.  Simplified:
    m_txList and what is under way are one list; the grants under way are another;
    credited miscellaneous messages, which nothing sends, are left out; threads woken
    by an event run in the order in which they began to wait. *)
From Verif Require Import Base.
Open Scope N_scope.

(** uint32_t *)
Definition w32 (x : N) : N := x mod 2 ^ 32.

(** LinkCredits, l.2455-2491 *)
Record credits := mkCr { c_req : N; c_data : N; c_snp : N }.
Definition cr_inc (x y : credits) : credits :=
  mkCr (w32 (c_req x + c_req y)) (w32 (c_data x + c_data y)) (w32 (c_snp x + c_snp y)).
(** Dec*, l.2470-2473, on uint32_t *)
Definition dec32 (x n : N) : N := w32 (x + 2 ^ 32 - n).
(** HasCredits, l.2480-2484 *)
Definition has_credits (c : credits) : bool := (0 <? c_req c) || (0 <? c_data c) || (0 <? c_snp c).

(** A request with its CHI opcode, or a snoop; the tag tells messages apart. *)
Inductive lmsg := LReq (tag op : N) | LSnp (tag : N).

(** CCIXReq::IsWrite, l.447-465; opcodes of tlm-bridges/amba-chi.h l.40-88 *)
Definition is_write (op : N) : bool :=
  existsb (N.eqb op) [21; 23; 24; 25; 27; 26; 28; 29; 32; 33].
(** Atomics, opcodes 0x28 to 0x39 *)
Definition is_atomic (op : N) : bool := (40 <=? op) && (op <=? 57).
(** Whether the receiver gives a data credit back when the request is done: l.3063
    (after CompAck, no), l.3402-3403 (CompData, for atomics), l.3607-3609 (Comp, unless
    it is dataless: only dataless requests get there), l.3651 (CompDBIDResp: writes and
    AtomicStore, yes). *)
Definition gives_data (op : N) : bool := is_write op || is_atomic op.

(** WaitForCredits, l.2739-2765: whether a request may go; Transmit, l.2608-2618 *)
Definition can_send (rx : credits) (op : N) : bool :=
  (0 <? c_req rx) && (if is_write op then 0 <? c_data rx else true).
Definition take_req (rx : credits) (op : N) : credits :=
  mkCr (dec32 (c_req rx) 1) (if is_write op then dec32 (c_data rx) 1 else c_data rx) (c_snp rx).
Definition take_snp (rx : credits) : credits :=
  mkCr (c_req rx) (c_data rx) (dec32 (c_snp rx) 1).

(** The threads that wait for m_rxCreditsEvent: a request looks again (the loop of
    l.2745-2764), a snoop goes on (l.2622-2626). *)
Fixpoint wake (rx : credits) (ws : list lmsg) : credits * list lmsg * list lmsg :=
  match ws with
  | [] => (rx, [], [])
  | LReq t op :: ws' =>
    if can_send rx op
    then let '(rx', sent, rest) := wake (take_req rx op) ws' in (rx', LReq t op :: sent, rest)
    else let '(rx', sent, rest) := wake rx ws' in (rx', sent, LReq t op :: rest)
  | LSnp t :: ws' =>
    let '(rx', sent, rest) := wake (take_snp rx) ws' in (rx', LSnp t :: sent, rest)
  end.

(** CCIXMisc::SetupCredits, l.2526-2561, with Max_Msg_Credits (l.2504) *)
Definition grant_of (tx : credits) : credits :=
  mkCr (N.min (c_req tx) 255) (N.min (c_data tx) 255) (N.min (c_snp tx) 255).
Definition grant_rest (tx : credits) : credits :=
  let g := grant_of tx in
  mkCr (dec32 (c_req tx) (c_req g)) (dec32 (c_data tx) (c_data g)) (dec32 (c_snp tx) (c_snp g)).

(** ReturnCHIReqID and ReturnCHISnpReqID, l.2699-2715 *)
Definition give_back (tx : credits) (m : lmsg) : credits :=
  match m with
  | LReq _ op => cr_inc tx (mkCr 1 (if gives_data op then 1 else 0) 0)
  | LSnp _ => cr_inc tx (mkCr 0 0 1)
  end.

Record link := mkLink {
  k_rx : credits;           (* m_rxCredits of the sender *)
  k_wait : list lmsg;       (* threads in WaitForCredits or in Transmit's wait *)
  k_wire : list lmsg;       (* on the way to the receiver *)
  k_open : list lmsg;       (* at the receiver, not done *)
  k_done : list lmsg;       (* not in the code: messages that are done *)
  k_tx : credits;           (* m_txCredits of the receiver *)
  k_grants : list credits } (* on the way to the sender *).
(** l.2586-2587, TxnIDs::NumIDs is 256 *)
Definition link_init : link :=
  mkLink (mkCr 0 0 0) [] [] [] [] (mkCr 256 256 256) [].

Inductive lev :=
| Ask (m : lmsg)     (* a thread calls Transmit *)
| Grant              (* tx_thread of the receiver, l.2791-2796 *)
| GrantArrives       (* UpdateRxCredits, l.2666-2674 *)
| Arrives            (* ReceiveCCIX, l.3068-3097 *)
| Done (i : nat).    (* CCIXReq_Done_HN, CCIXSnpReq_Done_RN of the i-th message *)

Definition remove_nth {A} (i : nat) (l : list A) : list A := firstn i l ++ skipn (S i) l.

Definition lstep (s : link) (e : lev) : link :=
  match e with
  | Ask (LReq t op) =>
    if can_send (k_rx s) op
    then mkLink (take_req (k_rx s) op) (k_wait s) (k_wire s ++ [LReq t op]) (k_open s) (k_done s) (k_tx s) (k_grants s)
    else mkLink (k_rx s) (k_wait s ++ [LReq t op]) (k_wire s) (k_open s) (k_done s) (k_tx s) (k_grants s)
  | Ask (LSnp t) =>
    if c_snp (k_rx s) =? 0
    then mkLink (k_rx s) (k_wait s ++ [LSnp t]) (k_wire s) (k_open s) (k_done s) (k_tx s) (k_grants s)
    else mkLink (take_snp (k_rx s)) (k_wait s) (k_wire s ++ [LSnp t]) (k_open s) (k_done s) (k_tx s) (k_grants s)
  | Grant =>
    if has_credits (k_tx s)
    then mkLink (k_rx s) (k_wait s) (k_wire s) (k_open s) (k_done s) (grant_rest (k_tx s)) (k_grants s ++ [grant_of (k_tx s)])
    else s
  | GrantArrives =>
    match k_grants s with
    | [] => s
    | g :: gs =>
      let '(rx, sent, rest) := wake (cr_inc (k_rx s) g) (k_wait s) in
      mkLink rx rest (k_wire s ++ sent) (k_open s) (k_done s) (k_tx s) gs
    end
  | Arrives =>
    match k_wire s with
    | [] => s
    | m :: ms => mkLink (k_rx s) (k_wait s) ms (k_open s ++ [m]) (k_done s) (k_tx s) (k_grants s)
    end
  | Done i =>
    match nth_error (k_open s) i with
    | None => s
    | Some m => mkLink (k_rx s) (k_wait s) (k_wire s) (remove_nth i (k_open s)) (k_done s ++ [m]) (give_back (k_tx s) m) (k_grants s)
    end
  end.
Definition lrun (es : list lev) : link := fold_left lstep es link_init.

(** UpdateRxCredits of the credits in a message header, l.2679-2686, with the shifts of
    l.2718-2737 *)
Definition piggy (rx : credits) (mc : N) : credits :=
  cr_inc rx (mkCr (N.land mc 3) (N.land (N.shiftr mc 2) 3) (N.land (N.shiftr mc 2) 3)).
