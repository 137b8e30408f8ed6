(** What the CXS link has to do: the layout of the control word, the reassembly
    of packets from flits, and the credit rule on the wires. *)
From Verif Require Import Base CxsModel.
Open Scope N_scope.

(** Flit widths 256, 512 and 1024 with any allowed number of packets per flit *)
Definition cfg_ok (c : cfg) : Prop :=
  N.of_nat (c_bytes c) = 4 * 2 ^ c_ew c /\ N.of_nat (c_bytes c) = 16 * 2 ^ c_sw c /\
  (1 <= c_pkts c)%nat /\
  N.of_nat (c_pkts c) * (3 + c_sw c) + c_ew c <= 32.

(** ** The control word: start bits, start pointers, end bits (and as many
    error bits), end pointers, from the least significant bit on *)
Fixpoint digits (w : N) (l : list N) : N :=
  match l with [] => 0 | p :: l' => p + 2 ^ w * digits w l' end.
Definition ones (l : list N) : N := 2 ^ N.of_nat (length l) - 1.
Definition cxs_cntl (c : cfg) (starts ends : list N) : N :=
  let p := N.of_nat (c_pkts c) in
  ones starts + 2 ^ p * (digits (c_sw c) starts + 2 ^ (p * c_sw c) *
    (ones ends + 2 ^ (2 * p) * digits (c_ew c) ends)).

(** ** The part of a packet that lies in one flit: its first word, its bytes,
    whether the packet ends in this flit *)
Record seg := mkSeg { g_at : nat; g_bytes : list N; g_last : bool }.
Definition g_next (s : seg) : nat := (g_at s + length (g_bytes s) / 4)%nat.
(** [cont]: the first part continues a packet of the previous flit *)
Fixpoint placed (c : cfg) (k : nat) (cont : bool) (segs : list seg) (flit : list N) : Prop :=
  match segs with
  | [] => cont = false
  | s :: r =>
    (if cont then g_at s = 0 else k <= g_at s /\ g_at s mod 4 = 0)%nat /\
    (0 < length (g_bytes s) /\ length (g_bytes s) mod 4 = 0 /\ 4 * g_next s <= c_bytes c)%nat /\
    slice (4 * g_at s) (length (g_bytes s)) flit = g_bytes s /\
    (r <> [] -> g_last s = true) /\
    (g_last s = false -> 4 * g_next s = c_bytes c)%nat /\
    placed c (g_next s) false r flit
  end.
Definition starts (cont : bool) (segs : list seg) : list N :=
  map (fun s => N.of_nat (g_at s / 4)) (if cont then tl segs else segs).
Definition ends (segs : list seg) : list N :=
  map (fun s => N.of_nat (g_next s - 1)) (filter g_last segs).
Definition flit_of (c : cfg) (cont : bool) (segs : list seg) (flit : list N) (cntl : N) : Prop :=
  length flit = c_bytes c /\ placed c 0 cont segs flit /\
  (length (starts cont segs) <= c_pkts c /\ length (ends segs) <= c_pkts c)%nat /\
  cntl = cxs_cntl c (starts cont segs) (ends segs).

(** the packets completed by the parts, and what is left open *)
Fixpoint join (open : option (list N)) (segs : list seg) : option (list N) * list (list N) :=
  match segs with
  | [] => (open, [])
  | s :: r =>
    let d := match open with Some d => d | None => [] end ++ g_bytes s in
    if g_last s then let '(o, out) := join None r in (o, d :: out) else join (Some d) r
  end.
Definition is_open {A} (o : option A) : bool := match o with Some _ => true | None => false end.

(** ** The credit rule, on the wires sampled at each clock edge: a flit or a
    returned credit uses a credit granted at an earlier edge, at most 15 are
    outstanding, and in Stop there are none and the wires are quiet *)
Record wires := mkWires { w_req : bool; w_ack : bool; w_valid : bool; w_rtn : bool; w_gnt : bool }.
Definition b1 (b : bool) : N := if b then 1 else 0.
Fixpoint credit_rule (granted used : N) (tr : list wires) : Prop :=
  match tr with
  | [] => True
  | w :: tr' =>
    let u := b1 (w_valid w) + b1 (w_rtn w) in
    u <= 1 /\ used + u <= granted /\ granted + b1 (w_gnt w) <= 15 + used /\
    (w_req w = false -> w_ack w = false -> u = 0 /\ w_gnt w = false /\ granted = used) /\
    credit_rule (granted + b1 (w_gnt w)) (used + u) tr'
  end.
Definition wires_of (l : link) : wires :=
  mkWires (l_req l) (l_ack l) (l_valid l) (l_rtn l) (l_gnt l).
(** the wires at every clock edge of an execution *)
Fixpoint watch (c : cfg) (es : list event) (l : link) : res (list wires) :=
  match es with
  | [] => Ok []
  | e :: es' =>
    rbind (step c e l) (fun l' =>
    rmap (match e with Edge _ _ _ => cons (wires_of l) | _ => fun x => x end) (watch c es' l'))
  end.

(** ** Executions without reset, and what was handed to b_transport_txlink *)
Definition no_reset (es : list event) : Prop := ~ In Reset es.
Definition submitted (es : list event) : list (list N) :=
  flat_map (fun e => match e with Submit b => [b] | _ => [] end) es.
(** whole words, at least one *)
Definition tlp_ok (b : list N) : Prop := (4 <= length b)%nat /\ (length b mod 4 = 0)%nat.
Definition prefix {A} (a b : list A) : Prop := exists r, b = a ++ r.
(** flits needed for the packets *)
Fixpoint flits (c : cfg) (l : list (list N)) : nat :=
  match l with
  | [] => 0
  | b :: l' => ((length b + c_bytes c - 1) / c_bytes c + flits c l')%nat
  end.
(** clock edges during which the port state is Run and the peer does not deactivate *)
Definition running (lates : list bool) : list event := map (Edge true false) lates.

(** ** A stream of flits from any sender *)
Record packed := mkPacked { k_segs : list seg; k_flit : list N; k_cntl : N }.
Fixpoint stream (c : cfg) (open : option (list N)) (fs : list packed) : Prop :=
  match fs with
  | [] => True
  | f :: fs' =>
    flit_of c (is_open open) (k_segs f) (k_flit f) (k_cntl f) /\
    stream c (fst (join open (k_segs f))) fs'
  end.
Fixpoint packets (open : option (list N)) (fs : list packed) : list (list N) :=
  match fs with
  | [] => []
  | f :: fs' => snd (join open (k_segs f)) ++ packets (fst (join open (k_segs f))) fs'
  end.
(** the receiver reading one flit after the other *)
Fixpoint receive (c : cfg) (asms : list asm) (fs : list packed) : res (list (list N)) :=
  match fs with
  | [] => Ok []
  | f :: fs' =>
    rbind (rx_flit c asms (k_flit f) (k_cntl f)) (fun r =>
    rmap (app (snd r)) (receive c (fst r) fs'))
  end.
