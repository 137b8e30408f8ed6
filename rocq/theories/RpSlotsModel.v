(** Model of the response slots of libremote-port/remote-port-tlm.{h,cc}
    (remoteport_tlm_dev::resp[], response_lookup/wait/done and the response branch
    of rp_process), for one device, with any number of requesting threads.

    A requester sends its packet and calls response_wait without giving up the
    CPU in between (SystemC threads are cooperative), so sending and claiming a
    slot is one step.  Nested packet processing (l.382-383) only restricts which
    steps are possible; the model allows every interleaving. *)
From Verif Require Import Base.
Open Scope N_scope.

(** remote-port-tlm.h:62-69 *)
Record slot := mkSlot { sl_used : bool; sl_id : N; sl_valid : bool; sl_pkt : N }.
Definition NSLOTS : nat := 256.       (* RP_MAX_OUTSTANDING_TRANSACTIONS *)
Definition slot0 : slot := mkSlot false 0 false 0.
Definition slots0 : list slot := repeat slot0 NSLOTS.   (* constructor, l.71-79 *)

(** First index satisfying a test. *)
Fixpoint find_idx (f : slot -> bool) (l : list slot) : option nat :=
  match l with
  | [] => None
  | x :: l' => if f x then Some O else option_map S (find_idx f l')
  end.
Fixpoint set_nth (l : list slot) (i : nat) (x : slot) : list slot :=
  match l, i with
  | [], _ => []
  | _ :: l', O => x :: l'
  | y :: l', S i' => y :: set_nth l' i' x
  end.

(** remote-port-tlm.cc:335-348 response_lookup *)
Definition response_lookup (l : list slot) (id : N) : option nat :=
  find_idx (fun s => sl_used s && (sl_id s =? id)) l.

(** remote-port-tlm.cc:350-370 response_wait, up to the wait loop: claims the
    first free slot; asserts when there is none. The slot keeps its valid flag
    and packet. *)
Definition response_claim (l : list slot) (id : N) : res (list slot * nat) :=
  match find_idx (fun s => negb (sl_used s)) l with
  | None => AssertFail
  | Some i =>
    let s := nth i l slot0 in
    Ok (set_nth l i (mkSlot true id (sl_valid s) (sl_pkt s)), i)
  end.

(** remote-port-tlm.cc:550-573, response branch of rp_process: posted responses
    are dropped, others are copied into the waiting slot; none is an assertion
    failure. *)
Definition response_deliver (l : list slot) (id pkt : N) (posted : bool) : res (list slot) :=
  if posted then Ok l
  else match response_lookup l id with
  | None => AssertFail
  | Some i => Ok (set_nth l i (mkSlot true (sl_id (nth i l slot0)) true pkt))
  end.

(** remote-port-tlm.cc:391-395 response_done *)
Definition response_done (l : list slot) (i : nat) : list slot :=
  let s := nth i l slot0 in
  set_nth l i (mkSlot false (sl_id s) false (sl_pkt s)).

(** The system around it.  [thr]: threads waiting, with the slot index they hold,
    and the request number (ghost).  [net]: requests at the peer
    not yet answered: id, posted?, and the request number (ghost), which the peer
    puts into its answer.  [seq]: number of requests so far (ghost); rp_pkt_id is
    [seq mod 2^32] because it is incremented once per request. *)
Record waiter := mkW { w_thread : N; w_slot : nat; w_seq : N }.
Record sys := mkSys {
  y_slots : list slot; y_seq : N; y_wait : list waiter;
  y_net : list (N * bool) }.                       (* (request number, posted) *)

Definition pkt_id (seq : N) : N := seq mod 4294967296.
Definition sys0 : sys := mkSys slots0 0 [] [].

Inductive op :=
| Request (thread : N) (posted : bool)   (* a thread sends a request *)
| Answer (k : nat)                       (* the peer answers the k-th open one *)
| Wake (thread : N).                     (* a waiting thread is scheduled *)

(** Observable result of a step: thread [t] has sent request number [q]; thread [t]
    returns with the response packet that answers request number [r]. *)
Inductive obs := Nothing | Sent (thread q : N) (posted : bool) | Got (thread r : N).

Fixpoint remove_nth {A} (k : nat) (l : list A) : list A :=
  match l, k with
  | [], _ => []
  | _ :: l', O => l'
  | x :: l', S k' => x :: remove_nth k' l'
  end.

Definition waiting (t : N) (l : list waiter) : option waiter :=
  find (fun w => w_thread w =? t) l.

(** One step; a step that is not possible in the current state (a thread that
    already waits sends again, a non-existent answer, waking a thread that does
    not wait) leaves the state alone. *)
Definition step (y : sys) (o : op) : res (sys * obs) :=
  match o with
  | Request t posted =>
    match waiting t (y_wait y) with
    | Some _ => Ok (y, Nothing)
    | None =>
      let q := y_seq y in
      if posted then
        Ok (mkSys (y_slots y) (q + 1) (y_wait y) (y_net y ++ [(q, true)]), Sent t q true)
      else
        rbind (response_claim (y_slots y) (pkt_id q)) (fun '(l, i) =>
          Ok (mkSys l (q + 1) (y_wait y ++ [mkW t i q]) (y_net y ++ [(q, false)]), Sent t q false))
    end
  | Answer k =>
    match nth_error (y_net y) k with
    | None => Ok (y, Nothing)
    | Some (q, posted) =>
      rbind (response_deliver (y_slots y) (pkt_id q) q posted) (fun l =>
        Ok (mkSys l (y_seq y) (y_wait y) (remove_nth k (y_net y)), Nothing))
    end
  | Wake t =>
    match waiting t (y_wait y) with
    | None => Ok (y, Nothing)
    | Some w =>
      let s := nth (w_slot w) (y_slots y) slot0 in
      (* l.387: loop until valid; then b_transport uses the packet and calls
         response_done *)
      if sl_valid s then
        Ok (mkSys (response_done (y_slots y) (w_slot w)) (y_seq y)
              (filter (fun x => negb (w_thread x =? t)) (y_wait y)) (y_net y),
            Got t (sl_pkt s))
      else Ok (y, Nothing)
    end
  end.

(** A run: the states before each step and the observations. *)
Fixpoint run (y : sys) (os : list op) : res (sys * list obs) :=
  match os with
  | [] => Ok (y, [])
  | o :: os' =>
    rbind (step y o) (fun '(y', b) =>
      rbind (run y' os') (fun '(y'', bs) => Ok (y'', b :: bs)))
  end.
