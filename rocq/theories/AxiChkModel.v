(** Model of the AXI protocol checker: checkers/checker-axi.h,
    checkers/checker-utils.h (axi_handshakes_checker, monitor_xchannel_stable,
    axi_reset_checker), checkers/config-axi.h, and axi_common of
    tlm-bridges/amba.h l.222-283.

    A run is a list of rising clock edges, each with the value of resetn and of
    the five channels sampled at that edge, mixed with falling edges of resetn
    that occur between two clock edges.  Every checker is one SC_THREAD; it is
    described from one wait to the next.  SC_REPORT_ERROR adds an entry to the
    list of reports and returns (the simulation has been told not to stop on
    errors).

    Simplified: the channels change only right after a clock edge, all at the
    same time, so that one value per channel and edge is enough; the payloads
    keep only the signals the checks use plus one number for the others.  Not
    modelled: the text of the reports; axi_handshakes_checker for AXI4-Lite (see
    LiteChkModel.v) and ACE (hasData() is true, is_axi4lite() is false). *)
From Verif Require Import Base.
Open Scope N_scope.

Definition w32 (x : N) : N := x mod 2 ^ 32.
Definition w64 (x : N) : N := x mod 2 ^ 64.

(** The address channels: the signals sampled by SampleARSignals (checker-axi.h
    l.387-400) and SampleAWSignals (l.722-735). *)
Record axp := mkAx {
  ax_addr : N; ax_len : N; ax_size : N; ax_burst : N; ax_id : N;
  ax_lock : N; ax_rest : N }.
Record rp := mkR { r_id : N; r_last : bool; r_resp : N; r_rest : N }.
Record wp := mkW { w_id : N; w_strb : N; w_last : bool; w_rest : N }.
Record bp := mkB { b_id : N; b_resp : N; b_rest : N }.

Record chan (A : Type) := mkCh { c_valid : bool; c_ready : bool; c_pay : A }.
Arguments mkCh {A}.
Arguments c_valid {A}.
Arguments c_ready {A}.
Arguments c_pay {A}.

(** valid.read() && ready.read() *)
Definition taken {A} (c : chan A) : option A :=
  if c_valid c && c_ready c then Some (c_pay c) else None.

(** One clock edge. *)
Record cyc := mkCyc {
  c_ar : chan axp; c_r : chan rp; c_aw : chan axp; c_w : chan wp; c_b : chan bp }.

Inductive edge :=
| Edge (resetn : bool) (c : cyc)
| Fall.

(** __AXIPCConfig, config-axi.h l.30-107; [bus] is DATA_W/8. *)
Record cfg := mkCfg {
  f_resp : bool; f_rd_order : bool; f_bursts : bool; f_strb : bool;
  f_gaps : bool; f_data_order : bool; f_depth : N; f_axi3 : bool; f_bus : N }.

(** The loop all clocked checkers share, e.g. rd_check l.415-423:
    wait(clk.posedge | resetn.negedge); reset_asserted() clears the state and
    waits for the first clock edge with resetn high, which is not examined.  The
    first component is false inside wait_for_reset_release. *)
Definition clocked {S R} (init : S) (step : S -> cyc -> res (S * list R))
    (st : bool * S) (e : edge) : res ((bool * S) * list R) :=
  match e with
  | Fall => Ok ((false, init), [])
  | Edge rn c =>
      if fst st then
        if rn then rmap (fun x => ((true, fst x), snd x)) (step (snd st) c)
        else Ok ((false, init), [])
      else Ok ((rn, snd st), [])
  end.

Fixpoint steps {E S R} (f : S -> E -> res (S * list R)) (s : S) (l : list E)
    : res (S * list R) :=
  match l with
  | [] => Ok (s, [])
  | e :: l' =>
      rbind (f s e) (fun x =>
      rmap (fun y => (fst y, snd x ++ snd y)) (steps f (fst x) l'))
  end.

(** ** check_rd_tx, checker-axi.h l.265-483 *)

Inductive rreport := RdResp | RdLength | RdId.

Definition is_excl (lock : N) : bool := lock =? 1.      (* GetE, l.314 *)

(** Transaction, l.285-362: id, GetE(), m_numBeats *)
Record rtx := mkRtx { rt_id : N; rt_excl : bool; rt_left : Z }.

Definition sample_ar (a : axp) : rtx :=
  mkRtx (ax_id a) (is_excl (ax_lock a)) (Z.of_N (ax_len a) + 1).

(** check_axi_resp, l.402-411 and l.835-844 *)
Definition resp_fine (excl : bool) (resp : N) : bool :=
  if excl then (resp =? 1) || (resp =? 0) else resp =? 0.

(** GetFirst (l.364-375), DecNumBeats, Done and remove (l.430-465): the first
    entry with the id is counted down and taken out when [last]. *)
Fixpoint rd_beat (f : cfg) (l : list rtx) (r : rp)
    : option (list rtx * list rreport) :=
  match l with
  | [] => None
  | t :: l' =>
      if rt_id t =? r_id r then
        let left := (rt_left t - 1)%Z in
        let reps :=
          (if f_resp f && negb (resp_fine (rt_excl t) (r_resp r))
           then [RdResp] else [])
          ++ (if f_rd_order f && negb (Bool.eqb (r_last r) (left =? 0)%Z)
              then [RdLength] else []) in
        Some (if r_last r then l' else mkRtx (rt_id t) (rt_excl t) left :: l', reps)
      else
        match rd_beat f l' r with
        | Some (l2, reps) => Some (t :: l2, reps)
        | None => None
        end
  end.

(** rd_check, l.413-480.  m_numBeats is an int: counting it below -2^31 is
    undefined. *)
Definition rd_cycle (f : cfg) (l : list rtx) (c : cyc)
    : res (list rtx * list rreport) :=
  let l1 :=
    match taken (c_ar c) with
    | Some a => if N.of_nat (length l) <? f_depth f then l ++ [sample_ar a] else l
    | None => l
    end in
  match taken (c_r c) with
  | None => Ok (l1, [])
  | Some r =>
      match rd_beat f l1 r with
      | None => Ok (l1, [RdId])
      | Some (l2, reps) =>
          if existsb (fun t => (rt_left t <? - 2 ^ 31)%Z) l2 then UB
          else Ok (l2, reps)
      end
  end.

Definition rd_run (f : cfg) (l : list edge) : res ((bool * list rtx) * list rreport) :=
  steps (clocked [] (rd_cycle f)) (true, []) l.

(** ** check_wr_tx, checker-axi.h l.485-1123 *)

Inductive wreport := WrStrobe | WrLength | WrDepth | WrData | WrResp | WrId | WrOrder.

(** Transaction, l.501-686 *)
Record wtx := mkWtx {
  wt_addr : N; wt_len : N; wt_size : N; wt_burst : N; wt_id : N; wt_excl : bool;
  wt_beat : N }.

Definition sample_aw (a : axp) : wtx :=
  mkWtx (w64 (ax_addr a)) (ax_len a) (ax_size a) (ax_burst a) (ax_id a)
        (is_excl (ax_lock a)) 1.

Definition inc_beat (t : wtx) : wtx :=
  mkWtx (wt_addr t) (wt_len t) (wt_size t) (wt_burst t) (wt_id t) (wt_excl t)
        (w32 (wt_beat t + 1)).

(** m_numBeats, m_numberBytes and Done, l.526-538 *)
Definition num_beats (t : wtx) : N := w32 (wt_len t + 1).
Definition number_bytes (t : wtx) : N := 2 ^ wt_size t.
Definition wt_done (t : wtx) : bool := num_beats t <? wt_beat t.

Definition align (a t : N) : N := a / t * t.               (* l.636-639 *)

Definition BURST_FIXED : N := 0.
Definition BURST_INCR : N := 1.
Definition BURST_WRAP : N := 2.

(** wstrb.bit(i): outside of the vector SystemC stops with an error. *)
Definition bit (bus s i : N) : res bool :=
  if i <? bus then Ok (N.testbit s i) else AssertFail.

(** The loops of CheckWstrb over [n] lanes from [i]. *)
Fixpoint zeros (bus s i : N) (n : nat) : res bool :=
  match n with
  | O => Ok true
  | S n' => rbind (bit bus s i) (fun b =>
              if b then Ok false else zeros bus s (i + 1) n')
  end.
Fixpoint ones (bus s i : N) (n : nat) : res bool :=
  match n with
  | O => Ok true
  | S n' => rbind (bit bus s i) (fun b =>
              if b then ones bus s (i + 1) n' else Ok false)
  end.
Fixpoint first_zero (bus s i : N) (n : nat) : res N :=
  match n with
  | O => Ok i
  | S n' => rbind (bit bus s i) (fun b =>
              if b then first_zero bus s (i + 1) n' else Ok i)
  end.

(** Number of iterations of for (; i <= upper; i++); a loop that would leave the
    vector stops at lane [bus] already, so the count is cut there. *)
Definition upto (bus i upper : N) : nat :=
  N.to_nat (N.min (upper + 1) (bus + 1) - i).

Definition lanes (bus : N) (t : wtx) : N * N :=
  let nb := number_bytes t in
  let aligned := align (wt_addr t) nb in
  if wt_beat t =? 1 then
    (w32 (wt_addr t - align (wt_addr t) bus),
     w32 (aligned + (nb - 1) + 2 ^ 64 - align (wt_addr t) bus))
  else
    let addr := if wt_burst t =? BURST_FIXED then aligned
                else w64 (aligned + w32 (w32 (wt_beat t + 2 ^ 32 - 1) * nb)) in
    let lower := w32 (addr - align addr bus) in
    (lower, w32 (lower + (nb - 1))).

(** CheckWstrb, l.540-634 *)
Definition check_wstrb (bus : N) (gaps : bool) (t : wtx) (s : N) : res bool :=
  let (lower, upper) := lanes bus t in
  rbind (zeros bus s 0 (N.to_nat lower)) (fun z =>
  if z then
    if gaps then
      let i := w32 (upper + 1) in zeros bus s i (N.to_nat (bus - i))
    else if wt_beat t =? num_beats t then
      rbind (bit bus s lower) (fun b =>
      if b then
        rbind (first_zero bus s (lower + 1) (upto bus (lower + 1) upper)) (fun i =>
        zeros bus s i (N.to_nat (bus - i)))
      else Ok false)
    else
      rbind (ones bus s lower (upto bus lower upper)) (fun o =>
      if o then
        let i := N.max lower (upper + 1) in zeros bus s i (N.to_nat (bus - i))
      else Ok false)
  else Ok false).

(** The queues m_wtList, m_wdataList, m_respList; an entry of the last keeps the
    wid of its data and its transaction. *)
Record wst := mkWst {
  s_wt : list wtx; s_wd : list wp; s_resp : list (N * wtx) }.
Definition wst0 : wst := mkWst [] [] [].

(** The part the two process_aw_w functions share (l.872-923 and l.944-1000):
    one data beat for transaction [t]. *)
Definition wr_beat (f : cfg) (t : wtx) (d : wp) : res (wtx * list wreport) :=
  rbind (if f_strb f then check_wstrb (f_bus f) (f_gaps f) t (w_strb d) else Ok true)
    (fun good =>
  let t' := inc_beat t in
  Ok (t', (if good then [] else [WrStrobe])
          ++ (if w_last d && f_bursts f && negb (wt_done t') then [WrLength] else []))).

Definition push_resp (f : cfg) (resp : list (N * wtx)) (x : N * wtx)
    : list (N * wtx) * list wreport :=
  if N.of_nat (length resp) <? f_depth f then (resp ++ [x], []) else (resp, [WrDepth]).

(** process_aw_w_axi4, l.866-932; GetNext (l.812-833) is the head of m_wtList. *)
Fixpoint process4 (f : cfg) (wts : list wtx) (wds : list wp) (resp : list (N * wtx))
    {struct wds} : res (wst * list wreport) :=
  match wds, wts with
  | d :: wds', t :: wts' =>
      rbind (wr_beat f t d) (fun x =>
      let (t', reps) := x in
      if w_last d then
        let (resp', reps2) := push_resp f resp (w_id d, t') in
        rmap (fun y => (fst y, reps ++ reps2 ++ snd y)) (process4 f wts' wds' resp')
      else
        rmap (fun y => (fst y, reps ++ snd y)) (process4 f (t' :: wts') wds' resp))
  | _, _ => Ok (mkWst wts wds resp, [])
  end.

(** GetFirst on m_wdataList for AXI3 (l.757-779), with its removal. *)
Fixpoint take_wid (id : N) (l : list wp) : option (wp * list wp) :=
  match l with
  | [] => None
  | d :: l' =>
      if w_id d =? id then Some (d, l')
      else match take_wid id l' with
           | Some (x, r) => Some (x, d :: r)
           | None => None
           end
  end.

(** The inner while of process_aw_w_axi3, l.943-1015; [n] is the number of data
    beats at hand.  The transaction comes back with the data beat that ended it,
    if one did. *)
Fixpoint drain3 (f : cfg) (n : nat) (t : wtx) (wds : list wp)
    : res (wtx * option wp * list wp * list wreport) :=
  match n with
  | O => Ok (t, None, wds, [])
  | S n' =>
      match take_wid (wt_id t) wds with
      | None => Ok (t, None, wds, [])
      | Some (d, wds') =>
          rbind (wr_beat f t d) (fun x =>
          let (t', reps) := x in
          if w_last d then Ok (t', Some d, wds', reps)
          else rmap (fun y => (fst y, reps ++ snd y)) (drain3 f n' t' wds'))
      end
  end.

(** process_aw_w_axi3, l.934-1021.  GetNext, the only caller of PreviousHaveData
    and thus the only place that looks at [f_data_order], is not called here. *)
Fixpoint process3 (f : cfg) (wts : list wtx) (wds : list wp) (resp : list (N * wtx))
    : res (wst * list wreport) :=
  match wts with
  | [] => Ok (mkWst [] wds resp, [])
  | t :: wts' =>
      rbind (drain3 f (length wds) t wds) (fun x =>
      match x with
      | (t', Some d, wds', reps) =>
          let (resp', reps2) := push_resp f resp (w_id d, t') in
          rmap (fun y => (fst y, reps ++ reps2 ++ snd y)) (process3 f wts' wds' resp')
      | (t', None, wds', reps) =>
          rmap (fun y => (mkWst (t' :: s_wt (fst y)) (s_wd (fst y)) (s_resp (fst y)),
                          reps ++ snd y)) (process3 f wts' wds' resp)
      end)
  end.

(** GetFirst on m_respList, l.757-779: by wid for AXI3, else by the awid. *)
Fixpoint take_resp (axi3 : bool) (id : N) (l : list (N * wtx))
    : option (wtx * list (N * wtx)) :=
  match l with
  | [] => None
  | x :: l' =>
      if (if axi3 then fst x else wt_id (snd x)) =? id then Some (snd x, l')
      else match take_resp axi3 id l' with
           | Some (t, r) => Some (t, x :: r)
           | None => None
           end
  end.

Definition max_wdata (f : cfg) : N :=
  w32 (f_depth f * (if f_axi3 f then 16 else 256)).       (* l.1025-1031 *)

(** wr_check, l.1023-1118 *)
Definition wr_cycle (f : cfg) (s : wst) (c : cyc) : res (wst * list wreport) :=
  let (wts, rep1) :=
    match taken (c_aw c) with
    | Some a => if N.of_nat (length (s_wt s)) <? f_depth f
                then (s_wt s ++ [sample_aw a], []) else (s_wt s, [WrDepth])
    | None => (s_wt s, [])
    end in
  let (wds, rep2) :=
    match taken (c_w c) with
    | Some d => if N.of_nat (length (s_wd s)) <? max_wdata f
                then (s_wd s ++ [d], []) else (s_wd s, [WrData])
    | None => (s_wd s, [])
    end in
  rbind ((if f_axi3 f then process3 else process4) f wts wds (s_resp s)) (fun x =>
  let (s1, rep3) := x in
  match taken (c_b c) with
  | None => Ok (s1, rep1 ++ rep2 ++ rep3)
  | Some b =>
      match take_resp (f_axi3 f) (b_id b) (s_resp s1) with
      | None => Ok (s1, rep1 ++ rep2 ++ rep3 ++ [WrId])
      | Some (t, resp') =>
          Ok (mkWst (s_wt s1) (s_wd s1) resp',
              rep1 ++ rep2 ++ rep3
              ++ (if f_resp f && negb (resp_fine (wt_excl t) (b_resp b))
                  then [WrResp] else []))
      end
  end).

(** enabled(), l.490-499: without it there is no thread at all. *)
Definition wr_run (f : cfg) (l : list edge) : res ((bool * wst) * list wreport) :=
  if f_strb f || f_bursts f then steps (clocked wst0 (wr_cycle f)) (true, wst0) l
  else Ok ((true, wst0), []).

(** ** check_addr_alignment, checker-axi.h l.1125-1298 *)

(** check_address_alignment, l.1146-1175; the addresses are uint64_t. *)
Definition check_address (addr burst size len : N) : bool :=
  let nb := 2 ^ size in
  let aligned := addr / nb * nb in
  if burst =? BURST_WRAP then aligned =? addr
  else if burst =? BURST_INCR then
    let last := w64 (aligned + w32 ((len + 1) * nb) + 2 ^ 64 - 1) in
    let mask := 2 ^ 64 - 4096 in
    N.land aligned mask =? N.land last mask
  else true.

(** check_burst_length, l.1177-1194 *)
Definition check_length (burst len : N) : bool :=
  if burst =? BURST_WRAP then
    let n := w32 (len + 1) in (n =? 2) || (n =? 4) || (n =? 8) || (n =? 16)
  else true.

(** check_rd_tx and check_wr_tx, l.1196-1275, with both options on: the read
    address is cut to 32 bits (to_uint), the length to 8 bits (uint8_t). *)
Definition read_ok (a : axp) : bool :=
  check_length (ax_burst a) (ax_len a)
  && check_address (w32 (ax_addr a)) (ax_burst a) (ax_size a) (ax_len a mod 256).
Definition write_ok (a : axp) : bool :=
  check_length (ax_burst a) (ax_len a)
  && check_address (w64 (ax_addr a)) (ax_burst a) (ax_size a) (ax_len a mod 256).

(** ** axi_handshakes_checker, checker-utils.h l.354-650 *)

Inductive which := CAr | CR | CAw | CW | CB.
Inductive hreport := Toggled (c : which) | NoValid (c : which) | NoReady (c : which).

(** HandshakeMonitor, l.531-620 *)
Record hm := mkHm { h_valid : N; h_ready : N }.
Definition hm0 : hm := mkHm 0 0.

Definition hm_run (max : N) (name : which) (h : hm) (inc v r : bool)
    : hm * list hreport * bool :=
  if negb v then
    let vw := if inc then w32 (h_valid h + 1) else h_valid h in
    (mkHm vw (h_ready h),
     (if inc && (vw =? max) then [NoValid name] else [])
     ++ (if h_ready h =? 0 then [] else [Toggled name]), false)
  else if negb r then
    let rw := w32 (h_ready h + 1) in
    (mkHm (h_valid h) rw, if rw =? max then [NoReady name] else [], false)
  else (hm0, [], true).

(** run, l.362-529 *)
Record hst := mkHst {
  k_ar : hm; k_r : hm; k_aw : hm; k_w : hm; k_b : hm;
  k_rt : N; k_wd : Z; k_nb : N; k_naw : N; k_nlast : N;
  k_awids : list N; k_wids : list N; k_bids : list N }.
Definition hst0 : hst := mkHst hm0 hm0 hm0 hm0 hm0 0 0 0 0 0 [] [] [].

Definition in_list (l : list N) (id : N) : bool := existsb (N.eqb id) l.
Fixpoint remove1 (l : list N) (id : N) : list N :=        (* l.635-645 *)
  match l with
  | [] => []
  | x :: l' => if x =? id then l' else x :: remove1 l' id
  end.

(** m_wd is an int to which an unsigned int is added, l.446. *)
Definition s32 (z : Z) : Z := ((z + 2 ^ 31) mod 2 ^ 32 - 2 ^ 31)%Z.

(** The counters m_wd, m_b, m_aw, m_wlast and the id lists. *)
Record wcnt := mkWc {
  q_wd : Z; q_nb : N; q_naw : N; q_nlast : N;
  q_awids : list N; q_wids : list N; q_bids : list N }.

(** aw, l.428-466 *)
Definition hs_aw (axi3 : bool) (q : wcnt) (a : axp) : wcnt :=
  let wd := s32 (q_wd q + Z.of_N (w32 (ax_len a + 1))) in
  if (if axi3 then in_list (q_wids q) (ax_id a) else true) && (q_naw q <? q_nlast q)
  then mkWc wd (w32 (q_nb q + 1)) (q_naw q) (q_nlast q - 1) (q_awids q)
            (if axi3 then remove1 (q_wids q) (ax_id a) else q_wids q)
            (q_bids q ++ [ax_id a])
  else mkWc wd (q_nb q) (w32 (q_naw q + 1)) (q_nlast q) (q_awids q ++ [ax_id a])
            (q_wids q) (q_bids q).

(** w, l.467-515 *)
Definition hs_w (axi3 : bool) (q : wcnt) (d : wp) : res wcnt :=
  if (q_wd q <=? - 2 ^ 31)%Z then UB else
  let wd := (q_wd q - 1)%Z in
  if w_last d then
    if (if axi3 then in_list (q_awids q) (w_id d) else true) && (q_nlast q <? q_naw q)
    then
      if axi3 then
        Ok (mkWc wd (w32 (q_nb q + 1)) (q_naw q - 1) (q_nlast q)
                 (remove1 (q_awids q) (w_id d)) (q_wids q) (q_bids q ++ [w_id d]))
      else
        match q_awids q with
        | [] => AssertFail
        | id :: l => Ok (mkWc wd (w32 (q_nb q + 1)) (q_naw q - 1) (q_nlast q) l
                              (q_wids q) (q_bids q ++ [id]))
        end
    else Ok (mkWc wd (q_nb q) (q_naw q) (w32 (q_nlast q + 1)) (q_awids q)
                  (if axi3 then q_wids q ++ [w_id d] else q_wids q) (q_bids q))
  else Ok (mkWc wd (q_nb q) (q_naw q) (q_nlast q) (q_awids q) (q_wids q) (q_bids q)).

(** b, l.516-527 *)
Definition hs_b (q : wcnt) (b : bp) : wcnt :=
  if in_list (q_bids q) (b_id b)
  then mkWc (q_wd q) (w32 (q_nb q + 2 ^ 32 - 1)) (q_naw q) (q_nlast q) (q_awids q)
            (q_wids q) (remove1 (q_bids q) (b_id b))
  else q.

Definition cnt_of (s : hst) : wcnt :=
  mkWc (k_wd s) (k_nb s) (k_naw s) (k_nlast s) (k_awids s) (k_wids s) (k_bids s).

Definition hs_cycle (max : N) (axi3 : bool) (s : hst) (c : cyc)
    : res (hst * list hreport) :=
  let inc_r := 0 <? k_rt s in
  let inc_aw := (k_wd s <? 0)%Z in
  let inc_w := (0 <? k_wd s)%Z in
  let inc_b := 0 <? k_nb s in
  let '(m_ar, p1, hit_ar) :=
    hm_run max CAr (k_ar s) false (c_valid (c_ar c)) (c_ready (c_ar c)) in
  let rt1 := if hit_ar then w32 (k_rt s + (ax_len (c_pay (c_ar c)) + 1)) else k_rt s in
  let '(m_r, p2, hit_r) :=
    hm_run max CR (k_r s) inc_r (c_valid (c_r c)) (c_ready (c_r c)) in
  let rt2 := if hit_r then w32 (rt1 + 2 ^ 32 - 1) else rt1 in
  let '(m_aw, p3, hit_aw) :=
    hm_run max CAw (k_aw s) inc_aw (c_valid (c_aw c)) (c_ready (c_aw c)) in
  let q1 := if hit_aw then hs_aw axi3 (cnt_of s) (c_pay (c_aw c)) else cnt_of s in
  let '(m_w, p4, hit_w) :=
    hm_run max CW (k_w s) inc_w (c_valid (c_w c)) (c_ready (c_w c)) in
  rbind (if hit_w then hs_w axi3 q1 (c_pay (c_w c)) else Ok q1) (fun q2 =>
  let '(m_b, p5, hit_b) :=
    hm_run max CB (k_b s) inc_b (c_valid (c_b c)) (c_ready (c_b c)) in
  let q3 := if hit_b then hs_b q2 (c_pay (c_b c)) else q2 in
  Ok (mkHst m_ar m_r m_aw m_w m_b rt2 (q_wd q3) (q_nb q3) (q_naw q3) (q_nlast q3)
            (q_awids q3) (q_wids q3) (q_bids q3), p1 ++ p2 ++ p3 ++ p4 ++ p5)).

Definition hs_run (max : N) (axi3 : bool) (l : list edge)
    : res ((bool * hst) * list hreport) :=
  steps (clocked hst0 (hs_cycle max axi3)) (true, hst0) l.

(** ** monitor_xchannel_stable, checker-utils.h l.652-699 *)

(** Where the thread is: at the wait for a rising valid (l.671), in the inner
    loop with the sample it compares with (l.681-696), or in
    wait_for_reset_release; the second component is the value valid had before
    this edge. *)
Inductive spos (A : Type) := SIdle | SWatch (saved : A) | SReset.
Arguments SIdle {A}.
Arguments SWatch {A}.
Arguments SReset {A}.

(** One clock edge at which the channel [ch] is sampled.  Its signals have been
    there since just after the edge before, which is when a rising valid wakes
    the thread.  [eqb] is cmp_eq_stable_valid_cycle_signals. *)
Definition st_edge {A} (eqb : A -> A -> bool) (p : spos A) (was : bool) (rn : bool)
    (ch : chan A) : spos A * list unit :=
  let inner saved :=
    if negb rn then (SReset, [])
    else (if c_ready ch then SIdle else SWatch saved,
          if eqb saved (c_pay ch) then [] else [tt]) in
  match p with
  | SReset => (if rn then SIdle else SReset, [])
  | SIdle =>
      if negb was && c_valid ch then
        (* valid rose: l.671-681 *)
        if negb rn then (SReset, [])
        else if c_ready ch then (SIdle, []) else inner (c_pay ch)
      else (SIdle, [])
  | SWatch saved => inner saved
  end.

(** [pick] selects the channel. *)
Definition st_step {A} (eqb : A -> A -> bool) (pick : cyc -> chan A)
    (s : spos A * bool) (e : edge) : res ((spos A * bool) * list unit) :=
  match e with
  | Fall => Ok ((SReset, snd s), [])
  | Edge rn c =>
      let (p, reps) := st_edge eqb (fst s) (snd s) rn (pick c) in
      Ok ((p, c_valid (pick c)), reps)
  end.

Definition st_run {A} (eqb : A -> A -> bool) (pick : cyc -> chan A) (l : list edge)
    : res ((spos A * bool) * list unit) :=
  steps (st_step eqb pick) (SIdle, false) l.

(** ** axi_reset_checker, checker-utils.h l.708-758: true inside
    wait_for_reset_release. *)
Definition rs_step (s : bool) (e : edge) : res (bool * list which) :=
  match e with
  | Fall => Ok (true, [])
  | Edge rn c =>
      if s && rn then
        Ok (false,
            (if c_valid (c_ar c) then [CAr] else [])
            ++ (if c_valid (c_r c) then [CR] else [])
            ++ (if c_valid (c_aw c) then [CAw] else [])
            ++ (if c_valid (c_w c) then [CW] else [])
            ++ (if c_valid (c_b c) then [CB] else []))
      else Ok (s, [])
  end.
Definition rs_run (l : list edge) : res (bool * list which) := steps rs_step false l.
