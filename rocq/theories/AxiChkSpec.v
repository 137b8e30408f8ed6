(** What the AXI protocol checker is meant to report, stated on the traffic seen
    on the bus.  Nothing here refers to the checkers' lists and counters. *)
From Verif Require Import Base AxiChkModel.
Open Scope N_scope.

(** A run that ends without a report. *)
Definition quiet {S R} (x : res (S * list R)) : Prop := exists s, x = Ok (s, []).

(** The examined cycles, cut at every reset: the first clock edge with resetn high
    after a reset is not examined. *)
Fixpoint periods (on : bool) (cur : list cyc) (l : list edge) : list (list cyc) :=
  match l with
  | [] => [cur]
  | Fall :: l' => cur :: periods false [] l'
  | Edge rn c :: l' =>
      if on then
        if rn then periods true (cur ++ [c]) l' else cur :: periods false [] l'
      else periods rn cur l'
  end.

Definition opt {A} (o : option A) : list A := match o with Some a => [a] | None => [] end.

(** The transfers of one channel, in order. *)
Definition reads (h : list cyc) : list axp := flat_map (fun c => opt (taken (c_ar c))) h.
Definition rbeats (h : list cyc) : list rp := flat_map (fun c => opt (taken (c_r c))) h.
Definition writes (h : list cyc) : list axp := flat_map (fun c => opt (taken (c_aw c))) h.
Definition wbeats (h : list cyc) : list wp := flat_map (fun c => opt (taken (c_w c))) h.
Definition answers (h : list cyc) : list bp := flat_map (fun c => opt (taken (c_b c))) h.

Definition exclusive (a : axp) : bool := ax_lock a =? 1.

(** OKAY, or EXOKAY for an exclusive access *)
Definition good_resp (excl : bool) (resp : N) : Prop :=
  resp = 0 \/ (excl = true /\ resp = 1).

(** ** Reads: per id, the beats that answer the requests are, in the order of the
    requests, ARLEN+1 beats each, the last one marked. *)
Definition beats_of (a : axp) : list (bool * bool) :=
  repeat (false, exclusive a) (N.to_nat (ax_len a)) ++ [(true, exclusive a)].
Definition owed (id : N) (h : list cyc) : list (bool * bool) :=
  flat_map (fun a => if ax_id a =? id then beats_of a else []) (reads h).
Definition got (id : N) (h : list cyc) : list rp :=
  filter (fun r => r_id r =? id) (rbeats h).
Definition beat_right (e : bool * bool) (r : rp) : Prop :=
  r_last r = fst e /\ good_resp (snd e) (r_resp r).
Definition answered {A B} (right : A -> B -> Prop) (want : list A) (have : list B)
    : Prop := exists pre post, want = pre ++ post /\ Forall2 right pre have.

Definition rd_conform (h : list cyc) : Prop :=
  forall p q, h = p ++ q -> forall id, answered beat_right (owed id p) (got id p).

(** No more than [depth] reads are outstanding. *)
Definition rd_room (depth : N) (h : list cyc) : Prop :=
  forall p c q, h = p ++ c :: q -> taken (c_ar c) <> None ->
    N.of_nat (length (reads p))
    < depth + N.of_nat (length (filter r_last (rbeats p))).

(** ** Byte lanes, AMBA AXI specification A3.4.1 *)
Definition burst_bytes (a : axp) : N := 2 ^ ax_size a.
Definition down (x n : N) : N := x / n * n.
(** address of beat [k], counted from 0 *)
Definition beat_addr (a : axp) (k : N) : N :=
  let nb := burst_bytes a in
  let total := nb * (ax_len a + 1) in
  if k =? 0 then ax_addr a
  else if ax_burst a =? 0 then ax_addr a
  else if ax_burst a =? 2 then
    down (ax_addr a) total + (down (ax_addr a) nb - down (ax_addr a) total + k * nb) mod total
  else down (ax_addr a) nb + k * nb.
Definition lower_lane (bus : N) (a : axp) (k : N) : N := beat_addr a k mod bus.
Definition upper_lane (bus : N) (a : axp) (k : N) : N :=
  down (beat_addr a k) (burst_bytes a) mod bus + (burst_bytes a - 1).

(** With gaps allowed, only lanes of the beat carry data; without, the lanes from
    the lower one are all used, up to the upper one unless it is the last beat. *)
Definition strobe_rule (bus : N) (gaps : bool) (a : axp) (k s : N) : Prop :=
  if gaps then
    forall i, i < bus -> N.testbit s i = true ->
      lower_lane bus a k <= i <= upper_lane bus a k
  else
    exists x, lower_lane bus a k <= x <= upper_lane bus a k /\
      (k <> ax_len a -> x = upper_lane bus a k) /\
      forall i, i < bus ->
        (N.testbit s i = true <-> lower_lane bus a k <= i <= x).

(** ** AXI4 writes: data beats belong to the addresses in order, a burst ends with
    wlast. *)
Definition lasts (l : list wp) : nat := length (filter w_last l).
(** beats since the last wlast *)
Definition since_last (l : list wp) : nat :=
  fold_left (fun n d => if w_last d then O else S n) l O.

(** Beat [m] of the data belongs to burst [lasts] and is beat [since_last] of it. *)
Definition data_rule (bus : N) (gaps : bool) (A : list axp) (B : list wp) : Prop :=
  forall m d a, nth_error B m = Some d ->
    nth_error A (lasts (firstn m B)) = Some a ->
    strobe_rule bus gaps a (N.of_nat (since_last (firstn m B))) (w_strb d) /\
    (w_last d = true <-> N.of_nat (since_last (firstn m B)) = ax_len a).

(** The part of it that the checker enforces. *)
Definition data_rule_weak (bus : N) (gaps : bool) (A : list axp) (B : list wp) : Prop :=
  forall m d a, nth_error B m = Some d ->
    nth_error A (lasts (firstn m B)) = Some a ->
    (N.of_nat (since_last (firstn m B)) <= ax_len a ->
     strobe_rule bus gaps a (N.of_nat (since_last (firstn m B))) (w_strb d)) /\
    (w_last d = true -> ax_len a <= N.of_nat (since_last (firstn m B))).

(** The writes whose data is complete. *)
Definition complete (h : list cyc) : list axp := firstn (lasts (wbeats h)) (writes h).
Definition answers_right (h : list cyc) : Prop :=
  forall id, answered (fun a b => good_resp (exclusive a) (b_resp b))
    (filter (fun a => ax_id a =? id) (complete h))
    (filter (fun b => b_id b =? id) (answers h)).

Definition wr_conform (bus : N) (gaps : bool) (h : list cyc) : Prop :=
  forall p q, h = p ++ q ->
    data_rule bus gaps (writes p) (wbeats p) /\ answers_right p.
Definition wr_enforced (bus : N) (gaps : bool) (h : list cyc) : Prop :=
  forall p q, h = p ++ q ->
    data_rule_weak bus gaps (writes p) (wbeats p) /\ answers_right p.

(** Data beats that came before their address. *)
Fixpoint drop_bursts (n : nat) (l : list wp) : list wp :=
  match n, l with
  | O, _ => l
  | _, [] => []
  | S n', d :: l' => if w_last d then drop_bursts n' l' else drop_bursts n l'
  end.
Definition early (h : list cyc) : list wp :=
  drop_bursts (length (writes h)) (wbeats h).

(** No more than [depth] writes are outstanding, and no more data than that comes
    before its address. *)
Definition wr_room (depth : N) (h : list cyc) : Prop :=
  forall p c q, h = p ++ c :: q ->
    N.of_nat (length (writes (p ++ [c])))
      <= depth + N.of_nat (length (answers p)) /\
    (taken (c_w c) <> None -> N.of_nat (length (early p)) < 256 * depth).

(** Addresses whose lanes the checker gets right. *)
Definition plain (bus : N) (a : axp) : Prop :=
  (exists b, bus = 2 ^ b /\ b <= 7 /\ ax_size a <= b) /\ ax_addr a < 2 ^ 64 /\
  ax_len a < 256 /\
  (ax_burst a = 1 \/
   (ax_addr a mod burst_bytes a = 0 /\
    (ax_burst a = 0 \/
     (ax_burst a = 2 /\ (burst_bytes a * (ax_len a + 1)) mod bus = 0)))).

(** ** Addresses and lengths *)
Definition same_page (a : axp) : Prop :=
  forall k x, k <= ax_len a ->
    beat_addr a k <= x < down (beat_addr a k) (burst_bytes a) + burst_bytes a ->
    x / 4096 = ax_addr a / 4096.
Definition address_rule (a : axp) : Prop :=
  (ax_burst a = 1 -> same_page a) /\
  (ax_burst a = 2 ->
   ax_addr a mod burst_bytes a = 0 /\ In (ax_len a + 1) [2; 4; 8; 16]).

(** ** Handshakes *)

(** The cycles of a channel after its last transfer. *)
Definition after_transfer {A} (ch : cyc -> chan A) (h : list cyc) : list cyc :=
  fold_left (fun l c => if c_valid (ch c) && c_ready (ch c) then [] else l ++ [c]) h [].

(** Cycles since the last transfer in which valid waited for ready. *)
Definition stalled {A} (ch : cyc -> chan A) (h : list cyc) : nat :=
  length (filter (fun c => c_valid (ch c)) (after_transfer ch h)).

(** Cycles since the last transfer in which valid was expected and low. *)
Fixpoint absent_rev {A} (ch : cyc -> chan A) (expected : list cyc -> bool)
    (h : list cyc) : nat :=
  match h with
  | [] => O
  | c :: p =>
      if c_valid (ch c) && c_ready (ch c) then O
      else ((if negb (c_valid (ch c)) && expected (rev p) then 1 else 0)
            + absent_rev ch expected p)%nat
  end.
Definition absent {A} (ch : cyc -> chan A) (expected : list cyc -> bool)
    (h : list cyc) : nat := absent_rev ch expected (rev h).

(** A channel behaves: valid is not withdrawn before ready, and neither is missing
    for [max] cycles. *)
Definition behaves {A} (max : N) (ch : cyc -> chan A) (expected : list cyc -> bool)
    (h : list cyc) : Prop :=
  (forall p c1 c2 q, h = p ++ c1 :: c2 :: q ->
     c_valid (ch c1) = true -> c_ready (ch c1) = false -> c_valid (ch c2) = true) /\
  (forall p q, h = p ++ q ->
     N.of_nat (stalled ch p) < max /\ N.of_nat (absent ch expected p) < max).

Definition total_len (l : list axp) : N :=
  fold_right (fun a n => ax_len a + 1 + n) 0 l.

(** What is due after the cycles [h]. *)
Definition due_r (h : list cyc) : bool :=
  N.of_nat (length (rbeats h)) <? total_len (reads h).
Definition due_aw (h : list cyc) : bool :=
  total_len (writes h) <? N.of_nat (length (wbeats h)).
Definition due_w (h : list cyc) : bool :=
  N.of_nat (length (wbeats h)) <? total_len (writes h).
Definition due_b (h : list cyc) : bool :=
  Nat.ltb (length (answers h)) (length (complete h)).

Definition hs_conform (max : N) (h : list cyc) : Prop :=
  behaves max c_ar (fun _ => false) h /\ behaves max c_r due_r h /\
  behaves max c_aw due_aw h /\ behaves max c_w due_w h /\ behaves max c_b due_b h.

(** Responses come only for requests (the other checkers' business), and the run
    is short enough for 32-bit counters. *)
Definition justified (h : list cyc) : Prop :=
  forall p q, h = p ++ q ->
    N.of_nat (length (rbeats p)) <= total_len (reads p) /\
    (forall id, (length (filter (fun b => (b_id b =? id)%N) (answers p))
                 <= length (filter (fun a => (ax_id a =? id)%N) (complete p)))%nat).
Definition bounded (h : list cyc) : Prop :=
  total_len (reads h) < 2 ^ 31 /\ total_len (writes h) < 2 ^ 31 /\
  N.of_nat (length h) < 2 ^ 31.

(** ** Stable signals: while valid waits for ready the payload stays. *)
Definition stable {A} (ch : cyc -> chan A) (l : list edge) : Prop :=
  forall p c1 c2 q, l = p ++ Edge true c1 :: Edge true c2 :: q ->
    c_valid (ch c1) = true -> c_ready (ch c1) = false ->
    c_valid (ch c2) = true /\ c_pay (ch c2) = c_pay (ch c1).

(** ** Reset: all valids low at the first edge with resetn high *)
Definition all_low (c : cyc) : Prop :=
  c_valid (c_ar c) = false /\ c_valid (c_r c) = false /\ c_valid (c_aw c) = false /\
  c_valid (c_w c) = false /\ c_valid (c_b c) = false.
Definition valid_of (c : cyc) (w : which) : bool :=
  match w with
  | CAr => c_valid (c_ar c) | CR => c_valid (c_r c) | CAw => c_valid (c_aw c)
  | CW => c_valid (c_w c) | CB => c_valid (c_b c)
  end.
Definition asserted (c : cyc) : list which := filter (valid_of c) [CAr; CR; CAw; CW; CB].
