(** Model of traffic-generators/random-traffic.h, traffic-desc.h, data-transfer.h and
    tg-tlm.h.

    rand_r is a function from a seed to a value and the next seed; the order of its
    calls is the order in which TLMTrafficGenerator::generate calls the getters.
    SC_REPORT_ERROR stops the simulation (the default of SystemC is to throw).
    Not modelled: the debug output and the delay argument. *)
From Verif Require Import Base.
Open Scope N_scope.

(** A transaction as it reaches the socket. *)
Inductive cmd := Read | Write | Ignore.
Record txn := mkX {
  x_cmd : cmd; x_addr : N; x_len : N; x_data : list N;   (* data of a write *)
  x_be : list bool; x_sw : N }.

(** ** RandomTraffic *)
Record par := mkPar {
  p_min : N; p_max : N; p_mask : N; p_minlen : N; p_maxlen : N;
  p_minsw : N; p_maxsw : N; p_maxbe : N }.
(** The constructor's defaults for the streaming width, random-traffic.h l.54-55. *)
Definition params (mn mx mask minlen maxlen maxbe : N) : par :=
  mkPar mn mx mask minlen maxlen 0 maxlen maxbe.

Record rt := mkRt {
  r_seed : N; r_left : N; r_lastw : bool; r_init : bool; r_has : bool;
  r_addr : N; r_len : N; r_be : N; r_sw : N }.

Section Rand.
Variable rnd : N -> N * N.                       (* rand_r: value, next seed *)
Variable p : par.

Definition w32 (x : N) : N := x mod 2 ^ 32.
Definition w64 (x : N) : N := x mod 2 ^ 64.
(** unsigned 64-bit subtraction *)
Definition sub64 (a b : N) : N := (a + 2 ^ 64 - b) mod 2 ^ 64.
Definition rmod (a b : N) : res N := if b =? 0 then UB else Ok (a mod b).

(** genAddrLen, l.208-254 *)
Definition gen (r : rt) : res rt :=
  if r_init r then
    let len := w32 (sub64 (p_max p) (p_min p)) in
    Ok (mkRt (r_seed r) (r_left r) (r_lastw r) (r_init r) true (p_min p) len 0 len)
  else
    let (v1, s1) := rnd (r_seed r) in
    rbind (rmod v1 (sub64 (p_max p) (p_min p))) (fun off =>
    let addr := N.land (w64 (p_min p + off)) (p_mask p) in
    let max_len := w32 (N.min (p_maxlen p) (sub64 (p_max p) addr)) in
    let (v2, s2) := rnd s1 in
    rbind (rmod v2 (w32 (max_len + 1))) (fun len =>
    let len := if p_minlen p <? len then len else N.min (p_minlen p) max_len in
    rbind (if p_maxbe p =? 0 then Ok (0, s2)
           else
             let (v3, s3) := rnd s2 in
             let max_be := N.min (p_maxbe p) len in
             if N.odd v3 then
               let (v4, s4) := rnd s3 in
               rmap (fun b => (b, s4)) (rmod v4 (w32 (max_be + 1)))
             else Ok (0, s3)) (fun b =>
    let (be, s4) := b : N * N in
    let (v5, s5) := rnd s4 in
    rbind (if N.odd v5 then
             let (v6, s6) := rnd s5 in rmap (fun w => (w, s6)) (rmod v6 len)
           else Ok (len, s5)) (fun w =>
    let (sw, s6) := w : N * N in
    let sw := if sw <? p_minsw p then p_minsw p else sw in
    let sw := if p_maxsw p <? sw then p_maxsw p else sw in
    let sw := if sw =? 0 then len else sw in
    Ok (mkRt s6 (r_left r) (r_lastw r) (r_init r) true addr len be sw))))).
Definition need (r : rt) : res rt := if r_has r then Ok r else gen r.

(** getCmd, l.72-90 *)
Definition get_cmd (r : rt) : cmd * rt :=
  if r_lastw r
  then (Read, mkRt (r_seed r) (r_left r) false (r_init r) (r_has r) (r_addr r) (r_len r)
                (r_be r) (r_sw r))
  else
    let (v, s) := rnd (r_seed r) in
    let w := N.odd v || r_init r in
    (if w then Write else Read,
     mkRt s (r_left r) w (r_init r) (r_has r) (r_addr r) (r_len r) (r_be r) (r_sw r)).

Definition seeded (r : rt) (s : N) : rt :=
  mkRt s (r_left r) (r_lastw r) (r_init r) (r_has r) (r_addr r) (r_len r) (r_be r) (r_sw r).

(** The byte loop of getData, l.99-118, [n] bytes to go. *)
Fixpoint fill (n : nat) (v s : N) : list N * N :=
  match n with
  | O => ([], s)
  | S n' =>
      let (v, s) := if v =? 0 then rnd s else (v, s) in
      let (l, s') := fill n' (N.shiftr v 8) s in
      (N.land v 255 :: l, s')
  end.
Definition get_data (r : rt) : list N * rt :=
  if r_init r then (repeat 0 (N.to_nat (r_len r)), r)
  else let (l, s) := fill (N.to_nat (r_len r)) 0 (r_seed r) in (l, seeded r s).

(** getByteEnable, l.126-140 *)
Fixpoint enables (n : nat) (v s : N) : list bool * N :=
  match n with
  | O => ([], s)
  | S n' =>
      let (v, s) := if v =? 0 then rnd s else (v, s) in
      let (l, s') := enables n' (N.shiftr v 1) s in
      (N.odd v :: l, s')
  end.
Definition get_be (r : rt) : list bool * rt :=
  let (l, s) := enables (N.to_nat (r_be r)) 0 (r_seed r) in (l, seeded r s).

(** next, l.160-169 *)
Definition next (r : rt) : rt :=
  if r_lastw r
  then mkRt (r_seed r) (w32 (r_left r + 2 ^ 32 - 1)) (r_lastw r) false (r_has r) (r_addr r)
         (r_len r) 0 (r_len r)
  else mkRt (r_seed r) (w32 (r_left r + 2 ^ 32 - 1)) (r_lastw r) false false (r_addr r)
         (r_len r) (r_be r) (r_sw r).

(** One round of TLMTrafficGenerator::generate, tg-tlm.h l.189-257.  getByteEnable
    runs twice when there are any. *)
Definition round (r : rt) : res (txn * rt) :=
  let (c, r) := get_cmd r in
  rbind (need r) (fun r =>
  let (d, r) := match c with Write => get_data r | _ => ([], r) end in
  let (e, r) := get_be r in
  let (e, r) := if r_be r =? 0 then (e, r) else get_be r in
  Ok (mkX c (r_addr r) (r_len r) d e (r_sw r), next r)).

(** [n] rounds at most. *)
Fixpoint rounds (n : nat) (r : rt) : res (list txn * rt) :=
  match n with
  | O => Ok ([], r)
  | S n' =>
      if r_left r =? 0 then Ok ([], r)
      else rbind (round r) (fun x =>
           rmap (fun y => (fst x :: fst y, snd y)) (rounds n' (snd x)))
  end.
End Rand.

Definition rt0 (num seed : N) (init : bool) : rt := mkRt seed num false init false 0 0 0 0.

(** ** TrafficDesc and generate *)
Record attr := mkAttr {
  g_enabled : bool; g_master : N; g_secure : bool; g_eop : bool; g_wrap : bool;
  g_burst : N; g_id : N; g_exclusive : bool; g_locked : bool; g_bufferable : bool;
  g_modifiable : bool; g_ralloc : bool; g_walloc : bool; g_qos : N; g_region : N;
  g_snoop : N; g_domain : N; g_barrier : bool; g_read : bool }.
Record transfer := mkTr {
  tr_addr : N; tr_cmd : N; tr_data : list N; tr_len : N; tr_be : list bool; tr_sw : N;
  tr_expect : option (list N); tr_attr : attr }.
(** The extension of a payload: everything but the enable flag. *)
Record ext := mkExt {
  e_master : N; e_secure : bool; e_eop : bool; e_wrap : bool; e_burst : N; e_id : N;
  e_exclusive : bool; e_locked : bool; e_bufferable : bool; e_modifiable : bool;
  e_ralloc : bool; e_walloc : bool; e_qos : N; e_region : N; e_snoop : N; e_domain : N;
  e_barrier : bool; e_read : bool }.

(** getCmd, traffic-desc.h l.45-56 *)
Definition td_cmd (t : transfer) : cmd :=
  if tr_cmd t =? 1 then Write else if tr_cmd t =? 0 then Read else Ignore.
(** setExtensions, l.84-112: set_region is given the qos *)
Definition td_ext (t : transfer) : option ext :=
  let a := tr_attr t in
  if g_enabled a then
    Some (mkExt (g_master a) (g_secure a) (g_eop a) (g_wrap a) (g_burst a) (g_id a)
            (g_exclusive a) (g_locked a) (g_bufferable a) (g_modifiable a) (g_ralloc a)
            (g_walloc a) (g_qos a) (g_qos a) (g_snoop a) (g_domain a) (g_barrier a)
            (g_read a))
  else None.
Definition td_txn (t : transfer) : txn :=
  mkX (td_cmd t) (tr_addr t) (tr_len t)
      (match td_cmd t with Write => tr_data t | _ => [] end) (tr_be t) (tr_sw t).

(** The target: its state, the transaction with its extension; the response is ok or
    not, and the data array after the call. *)
Section Gen.
Variable T : Type.
Variable target : T -> txn * option ext -> T * bool * list N.

(** generate over a TrafficDesc; the flag: an error was reported. *)
Fixpoint generate (s : T) (l : list transfer) : list (txn * option ext) * T * bool :=
  match l with
  | [] => ([], s, false)
  | t :: l' =>
      let x := (td_txn t, td_ext t) in
      let '(s1, ok, d) := target s x in
      if negb ok then ([x], s1, true)
      else if match tr_expect t with
              | None => false
              | Some e => negb (if list_eq_dec N.eq_dec (firstn (N.to_nat (tr_len t)) e)
                                     (firstn (N.to_nat (tr_len t)) d) then true else false)
              end
      then ([x], s1, true)
      else let '(xs, s2, err) := generate s1 l' in (x :: xs, s2, err)
  end.
End Gen.

(** ** ThreadData and process, tg-tlm.h l.67-75, l.91-187.  Batches and callbacks are
    numbers. *)
Inductive tphase := Delayed | Waiting | Woken | Running (b : N).
Record tg := mkTg { g_pend : option N; g_cb : option N; g_ph : tphase }.
Inductive tev := Ran (b : N) | Called (c : N).      (* batch finished; callback *)

(** addTransfers *)
Definition add (s : tg) (b : N) (c : option N) : tg :=
  mkTg (Some b) c (match g_ph s with Waiting => Woken | ph => ph end).
(** The top of the loop: take the batch, or run the callback and wait. *)
Definition callback (s : tg) : list tev :=
  match g_cb s with Some c => [Called c] | None => [] end.
Definition top (s : tg) : tg * list tev :=
  match g_ph s with
  | Delayed | Woken =>
      match g_pend s with
      | Some b => (mkTg None (g_cb s) (Running b), [])
      | None => (mkTg None (g_cb s) Waiting, callback s)
      end
  | _ => (s, [])
  end.
(** The end of a batch; the callback, if there is one, may add the next batch, [re]. *)
Definition finish (s : tg) (re : option (N * option N)) : tg * list tev :=
  match g_ph s with
  | Running b =>
      let s1 := match g_cb s, re with
                | Some _, Some (b', c') => mkTg (Some b') c' (g_ph s)
                | _, _ => s
                end in
      (mkTg (g_pend s1) (g_cb s1) (match g_pend s1 with Some _ => Woken | None => Waiting end),
       Ran b :: callback s)
  | _ => (s, [])
  end.
