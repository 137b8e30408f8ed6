(** Model of the AXI-Stream bridges tlm-bridges/tlm2axis-bridge.h and
    axis2tlm-bridge.h connected to each other, clock edge by clock edge.  No
    reset while running. *)
From Verif Require Import Base.
Open Scope N_scope.

(** tdata and tstrb (a lane is [None] when its strobe is low), tlast *)
Record beat := mkBeat { b_lanes : list (option N); b_last : bool }.

(** tlm2axis-bridge.h:102-132, the do-while loop: the beats of one transaction *)
Fixpoint axis_beats (fuel bw : nat) (data : list N) (eop : bool) : list beat :=
  match fuel with
  | O => []
  | S fuel' =>
    let chunk := firstn bw data in
    let rest := skipn bw data in
    mkBeat (map Some chunk ++ repeat None (bw - length chunk))
           (match rest with [] => eop | _ => false end) ::
    match rest with [] => [] | _ => axis_beats fuel' bw rest eop end
  end.
Definition axis_send (bw : nat) (t : list N * bool) : list beat :=
  axis_beats (S (length (fst t))) bw (fst t) (snd t).

(** Payload sent by axis2tlm: data and end of packet. *)
Definition payload := (list N * bool)%type.

(** axis2tlm-bridge.h:75 *)
Definition MAX_DATA : nat := 4096.

(** :77-90 (get_last_byte) *)
Fixpoint last_byte (i acc : nat) (l : list (option N)) : nat :=
  match l with
  | [] => acc
  | Some _ :: l' => last_byte (S i) i l'
  | None :: l' => last_byte (S i) acc l'
  end.

(** The thread of axis2tlm: at the clock edge; or inside run_tlm, in
    b_transport for [k] more edges and then delayed by [d] edges with tready low,
    to continue the loop at lane [i] (the loop is over at the bus width).
    axis2tlm-bridge.h:92-107, 109-169.  A wait of zero time still lets the
    sender change its wires. *)
Inductive rpc :=
| R_Wait (buf : list N)
| R_Tlm (k d : nat) (i : nat) (last_i : nat).

(** [wires]: tvalid and what tdata, tstrb and tlast show. *)
Record axis := mkAxis {
  x_queue : list (option beat);  (* sender: beats to come, [None] an idle cycle *)
  x_valid : bool; x_wire : beat; x_ready : bool; x_rpc : rpc;
  x_calls : nat }.               (* payloads sent so far *)

Section Axis.
(** [tgt n]: clock edges payload [n] spends in b_transport and the delay it
    returns, in clock cycles *)
Context (bw : nat) (tgt : nat -> nat * nat).

(** :140-158: the loop from lane [i] on.  Either all lanes are done, or the
    buffer is full after lane [i]. *)
Fixpoint lane_loop (i : nat) (l : list (option N)) (buf : list N) : (list N * option nat) :=
  match l with
  | [] => (buf, None)
  | None :: l' => lane_loop (S i) l' buf
  | Some b :: l' =>
    let buf' := buf ++ [b] in
    if Nat.eqb (length buf') MAX_DATA then (buf', Some i) else lane_loop (S i) l' buf'
  end.

(** :136-167.  The thread from lane [i] with [buf], looking at wire [w]; [w2] is what the
    wires show after a wait of zero time.  New payloads, new pc, tready. *)
Definition after_loop (calls : nat) (buf : list N) (w : beat) : list payload * rpc :=
  if b_last w && negb (Nat.eqb (length buf) 0) then
    let '(k, d) := tgt calls in
    ([(buf, true)], match k, d with O, O => R_Wait [] | _, _ => R_Tlm k d bw 0 end)
  else ([], R_Wait buf).
Definition thread_from (calls i : nat) (lb : nat) (buf : list N) (w w2 : beat) : list payload * rpc :=
  match lane_loop i (skipn i (b_lanes w)) buf with
  | (buf', None) => after_loop calls buf' w
  | (buf', Some j) =>
    let eop := b_last w && Nat.eqb j lb in
    let '(k, d) := tgt calls in
    match k, d with
    | O, O =>                            (* goes on with the new wires *)
      match lane_loop (S j) (skipn (S j) (b_lanes w2)) [] with
      | (buf2, None) =>
        let '(ps, p) := after_loop (S calls) buf2 w2 in ((buf', eop) :: ps, p)
      | (buf2, Some _) => ([(buf', eop)], R_Wait buf2)   (* not for bus widths below MAX_DATA *)
      end
    | _, _ => ([(buf', eop)], R_Tlm k d (S j) lb)
    end
  end.

(** One rising edge. *)
Definition next_wire (q : list (option beat)) (w : beat) : list (option beat) * bool * beat :=
  match q with
  | Some b :: q' => (q', true, b)
  | None :: q' => (q', false, mkBeat (b_lanes w) false)
  | [] => ([], false, mkBeat (b_lanes w) false)
  end.
Definition edge (s : axis) : axis * list payload :=
  let '(q, v, w) :=
    if x_valid s && negb (x_ready s) then (x_queue s, x_valid s, x_wire s)
    else next_wire (x_queue s) (x_wire s) in
  let mk rdy ps p := (mkAxis q v w rdy p (x_calls s + length ps), ps) in
  let ready_of p := match p with R_Tlm O _ _ _ => false | _ => true end in
  let go (r : list payload * rpc) := mk (ready_of (snd r)) (fst r) (snd r) in
  match x_rpc s with
  | R_Wait buf =>
    if x_valid s
    then go (thread_from (x_calls s) 0 (last_byte 0 0 (b_lanes (x_wire s))) buf (x_wire s) w)
    else mk (x_ready s) [] (R_Wait buf)
  | R_Tlm (S k) d i lb =>
    match k, d with
    | O, O => go (thread_from (x_calls s) i lb [] w w)
    | _, _ => go ([], R_Tlm k d i lb)
    end
  | R_Tlm O (S (S d)) i lb => mk false [] (R_Tlm O (S d) i lb)
  | R_Tlm O _ i lb => go (thread_from (x_calls s) i lb [] w w)
  end.

Fixpoint edges (n : nat) (s : axis) : axis * list payload :=
  match n with
  | O => (s, [])
  | S n' => let '(s1, p1) := edge s in let '(s2, p2) := edges n' s1 in (s2, p1 ++ p2)
  end.

Definition axis_init (q : list (option beat)) : axis :=
  mkAxis q false (mkBeat (repeat None bw) false) true (R_Wait []) 0.
End Axis.
