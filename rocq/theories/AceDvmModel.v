(** Model of how the ACE interconnect answers DVM Sync messages with DVM Completes:
    classes PortDVMCompleteTracker and DVMCompleteHandler of
    /repo/tlm-modules/iconnect-ace.h (l.1071-1256) and what the snoop engine does with
    DVM transactions (l.1348-1442, l.1444-1471, l.1528-1540).

    Ports are numbers; [ports] are the NUM_ACE_MASTERS ports and [fwd] tells which of them
    take part (GetForwardDVM, l.1016).  Simplified: the DVMComplete that the interconnect
    sends counts as delivered when the call of snoop_master (l.1448) returns. *)
From Verif Require Import Base.
From Coq Require Import ZArith.
Open Scope N_scope.

Record dvm := mkDvm {
  d_list : list N;            (* m_list, l.1255: trackers by their port *)
  d_flag : N -> N -> bool;    (* m_port_done of the tracker of a port, l.1134 *)
  d_exec : list N;            (* threads in exec_dvm_complete, l.1444-1451 *)
  d_told : list N }.          (* not in the code: ports that got a DVMComplete *)
(** l.1142-1152, Reset l.1079-1090 *)
Definition dvm_init : dvm := mkDvm [] (fun _ _ => true) [] [].

Definition set_flag (f : N -> N -> bool) (p r : N) (b : bool) : N -> N -> bool :=
  fun x y => if (x =? p) && (y =? r) then b else f x y.
(** StartCollectingFor, l.1154-1177; m_running is never set (l.1125), so that the test of
    l.1160 always passes *)
Definition start_collecting (ports : list N) (fwd : N -> bool) (s : dvm) (p : N) : dvm :=
  mkDvm (d_list s ++ [p])
    (fun x y => if (x =? p) && existsb (N.eqb y) ports && fwd y && negb (y =? p) then false else d_flag s x y)
    (d_exec s) (d_told s).
(** ReceivedFrom, l.1185-1202, with PortDone, l.1097-1110 *)
Fixpoint received (l : list N) (f : N -> N -> bool) (r : N) : option (N -> N -> bool) :=
  match l with
  | [] => None
  | p :: l' => if f p r then received l' f r else Some (set_flag f p r true)
  end.
(** Done, l.1112-1123 *)
Definition tracker_done (ports : list N) (f : N -> N -> bool) (p : N) : bool := forallb (f p) ports.
(** GetDone, l.1204-1217 *)
Definition get_done (ports : list N) (l : list N) (f : N -> N -> bool) : option N :=
  find (tracker_done ports f) l.

Inductive dev :=
| Sync (p : N)      (* snoop_engine_thread takes a DVM Sync of port p, l.1355-1360 *)
| Complete (r : N)  (* it takes a DVM Complete of port r, l.1362-1371, l.1453-1471 *)
| Sent (i : nat).   (* the i-th thread in exec_dvm_complete comes to its end *)
Definition drop_at {A} (i : nat) (l : list A) : list A := firstn i l ++ skipn (S i) l.
Definition dstep (ports : list N) (fwd : N -> bool) (s : dvm) (e : dev) : res dvm :=
  match e with
  | Sync p => Ok (start_collecting ports fwd s p)
  | Complete r =>
    match received (d_list s) (d_flag s) r with
    | None => AssertFail (* l.1201 *)
    | Some f =>
      Ok (mkDvm (d_list s) f
           (match get_done ports (d_list s) f with Some p => d_exec s ++ [p] | None => d_exec s end)
           (d_told s))
    end
  | Sent i =>
    match nth_error (d_exec s) i with
    | None => Ok s
    | Some p => (* SnoopDone, l.1219-1224: list::remove takes all *)
      Ok (mkDvm (filter (fun x => negb (x =? p)) (d_list s)) (d_flag s) (drop_at i (d_exec s)) (d_told s ++ [p]))
    end
  end.
Fixpoint drun (ports : list N) (fwd : N -> bool) (s : dvm) (es : list dev) : res dvm :=
  match es with
  | [] => Ok s
  | e :: r => match dstep ports fwd s e with Ok s' => drun ports fwd s' r | AssertFail => AssertFail | UB => UB | Unmodelled => Unmodelled end
  end.

(** A DVM message: how many answers are waited for (l.1395-1399, l.1528-1540) and whom
    process_snoop asks (l.1415-1442), nobody if none are waited for (l.1417-1423). *)
Definition dvm_masters (ports : list N) (fwd : N -> bool) : nat := length (filter fwd ports).
Definition dvm_waits (ports : list N) (fwd : N -> bool) : Z := (Z.of_nat (dvm_masters ports fwd) - 1)%Z.
Definition dvm_asks (ports : list N) (fwd : N -> bool) (p : N) : list N :=
  if (dvm_waits ports fwd =? 0)%Z then []
  else filter (fun r => fwd r && negb (r =? p)) ports.
