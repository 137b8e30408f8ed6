(** Model of tlm-bridges/tlm2axi-bridge.h (class tlm2axi_bridge) and of the
    response helpers of tlm-bridges/amba.h.

    Modelled: Transaction's constructor, SetupBurstType (l.299-330),
    SetupNumBeats (l.332-350), GetBurstWidth (l.354-363), LookupAxID (l.540-559),
    Validate (l.572-601), the accept/reject decision of b_transport (l.608-632),
    the burst signals of the address phases (l.634-729), read_resp_phase
    (l.786-947) and write_data_phase/prepare_wbeat (l.949-1001, l.1243-1323) as
    functions from a payload to beats, tlm_gp_set_axi_resp and
    tlm_gp_get_axi_resp (amba.h l.130-179).  Handshakes are assumed to succeed;
    reset is not modelled, nor is ACE mode (ACE_MODE_OFF).  [B] is
    DATA_WIDTH / 8, a power of two. *)
From Verif Require Import Base TlmModel TlmSpec AxiSpec.
Open Scope N_scope.

(** The attributes used here: burst_width, wrap, transaction_id. *)
Record tattr := mkTattr { t_bw : N; t_wrap : bool; t_id : N }.

(** SetupBurstType, l.299-330: burst type and burst_width attribute.
    SC_REPORT_ERROR throws. *)
Definition setup_burst_type (B len sw bw : N) (wrap : bool) : res (bkind * N) :=
  if (sw =? len) && wrap then Ok (B_WRAP, bw)
  else if len <=? sw then Ok (B_INCR, bw)
  else if sw =? B then Ok (B_FIXED, bw)
  else if (sw <? B) && (sw <=? bw) then Ok (B_FIXED, bw)
  else if (sw <? B) && (bw =? 0)
  then Ok (B_FIXED, if 1 <? sw then sw - sw mod 2 else sw)
  else AssertFail.

(** GetBurstWidth, l.354-363 *)
Definition burst_width (B bw : N) : N := if bw =? 0 then B else bw.

(** SetupNumBeats, l.332-350; the variables are 32 bits wide. *)
Definition num_beats (kind : bkind) (addr len w : N) : N :=
  let al := addr - addr / w * w in
  match kind with
  | B_FIXED => let w := w - al in ((len + w - 1) mod u32) / w
  | _ => ((len + al + w - 1) mod u32) / w
  end.

(** Transaction *)
Record ttrans := mkTT { tt_gp : gp; tt_kind : bkind; tt_bw : N; tt_beats : N; tt_id : N }.
Definition transaction (B : N) (g : gp) (a : tattr) : res ttrans :=
  rbind (setup_burst_type B (g_len g) (g_sw g) (t_bw a) (t_wrap a)) (fun '(k, bw) =>
    let w := burst_width B bw in
    Ok (mkTT g k w (num_beats k (g_addr g) (g_len g) w) (t_id a))).

(** ValidateBurstWidth, l.731-744; Validate, l.572-601 *)
Definition width_valid (w : N) : bool :=
  existsb (N.eqb w) [1; 2; 4; 8; 16; 32; 64; 128].
Definition tr_valid (maxbeats : N) (t : ttrans) : bool :=
  negb (g_len (tt_gp t) =? 0) && negb (g_sw (tt_gp t) =? 0) &&
  width_valid (tt_bw t) && (tt_beats t <=? maxbeats) &&
  match g_cmd (tt_gp t) with C_IGNORE => false | _ => true end.

(** map_size_to_axsize and map_size_to_axsize_assert, amba.h l.75-104 *)
Definition axsize (w : N) : res N := if width_valid w then Ok (N.log2 w) else AssertFail.

(** Address phase, l.643-647 and l.703-707: AxADDR, AxSIZE, AxLEN, AxBURST. *)
Definition address_phase (t : ttrans) : res aburst :=
  rmap (fun s => mkBurst (tt_kind t) (g_addr (tt_gp t)) s (tt_beats t - 1)) (axsize (tt_bw t)).

(** sc_bv::lrotate: bit [l] of the result is bit [l - k] of the argument. *)
Definition lrotate (l : list bool) (k : nat) : list bool :=
  map (fun i => nth ((i + length l - k) mod length l)%nat l false) (seq 0 (length l)).

(** prepare_wbeat, l.1243-1323: number of bytes and lanes. [offset] and
    [data_offset] as in the code. *)
Definition wbeat_len (B : N) (t : ttrans) (first : bool) (offset data_offset : N) : N :=
  let g := tt_gp t in
  let sw := g_sw g in
  let addr := (g_addr g + offset mod sw) mod u64 in
  let maxlen := N.min (B - addr mod B) (sw - offset mod sw) in
  let wlen := N.min (N.min (g_len g - data_offset) maxlen) (tt_bw t) in
  if match tt_kind t with B_FIXED => true | _ => first end
  then N.min wlen (tt_bw t - N.land addr (tt_bw t - 1))
  else wlen.
Definition prepare_wbeat (B : N) (t : ttrans) (first last : bool) (offset data_offset : N) : wbeat :=
  let g := tt_gp t in
  let addr := (g_addr g + offset mod g_sw g) mod u64 in
  let lo := addr mod B in
  let wlen := wbeat_len B t first offset data_offset in
  let strb := map (fun i => (N.of_nat i <? wlen) && be_at (g_be g) (N.of_nat i + offset))
                  (seq 0 (N.to_nat B)) in
  mkW (map (fun l => if (lo <=? N.of_nat l) && (N.of_nat l <? lo + wlen)
                     then nth (N.to_nat (data_offset + (N.of_nat l - lo))) (g_data g) 0 else 0)
           (seq 0 (N.to_nat B)))
      (lrotate strb (N.to_nat lo)) last.

(** write_data_phase, l.954-984: beats until all data is sent; [beat] is m_beat. *)
Fixpoint write_beats (fuel : nat) (B : N) (t : ttrans) (beat pos addr_pos : N) : res (list wbeat) :=
  if g_len (tt_gp t) <=? pos then Ok []
  else match fuel with
  | O => Unmodelled
  | S fuel' =>
    let d := wbeat_len B t (beat =? 1) addr_pos pos in
    let w := prepare_wbeat B t (beat =? 1) (beat =? tt_beats t) addr_pos pos in
    rmap (cons w)
      (write_beats fuel' B t (beat + 1) (pos + d)
         (match tt_kind t with B_FIXED => addr_pos | _ => addr_pos + d end))
  end.

(** What a payload becomes on the write channels; [None]: refused with
    TLM_GENERIC_ERROR_RESPONSE, l.630. *)
Definition axi_write (B maxbeats : N) (g : gp) (a : tattr) : res (option (aburst * list wbeat)) :=
  rbind (transaction B g a) (fun t =>
  if tr_valid maxbeats t
  then rbind (address_phase t) (fun b =>
       rmap (fun ws => Some (b, ws)) (write_beats (length (g_data g)) B t 1 0 0))
  else Ok None).

(** The same for the read address channel. *)
Definition axi_read (B maxbeats : N) (g : gp) (a : tattr) : res (option (aburst * ttrans)) :=
  rbind (transaction B g a) (fun t =>
  if tr_valid maxbeats t then rmap (fun b => Some (b, t)) (address_phase t) else Ok None).

(** One beat of the read data channel. *)
Record rbeat := mkR { r_id : N; r_lanes : list N; r_resp : N; r_last : bool }.

(** read_resp_phase, l.851-865: bytes taken from one beat.  IncBeat is never
    called for reads, so every beat counts as the first. *)
Definition rbeat_len (B : N) (t : ttrans) (addr_pos len : N) : N :=
  let g := tt_gp t in
  let addr := (g_addr g + addr_pos mod g_sw g) mod u64 in
  N.min (N.min (N.min (B - addr mod B) len) (tt_bw t))
        (tt_bw t - N.land addr (tt_bw t - 1)).

(** l.867-897: copy, respecting byte enables. *)
Definition take_lanes (B : N) (t : ttrans) (addr_pos pos n : N) (lanes data : list N) : list N :=
  let g := tt_gp t in
  let lo := (g_addr g + addr_pos mod g_sw g) mod u64 mod B in
  map (fun i => if (pos <=? N.of_nat i) && (N.of_nat i <? pos + n) && be_at (g_be g) (N.of_nat i)
                then nth (N.to_nat (lo + (N.of_nat i - pos))) lanes 0 else nth i data 0)
      (seq 0 (length data)).

(** amba.h l.130-153: AXI_OKAY 0, AXI_EXOKAY 1, AXI_SLVERR 2, AXI_DECERR 3.
    Status and the exclusive_handled attribute; [None]: no genattr extension. *)
Definition set_axi_resp (resp : N) (excl : option bool) : status * option bool :=
  if resp =? 1 then (St_OK, option_map (fun _ => true) excl)
  else if resp =? 0 then (St_OK, excl)
  else if resp =? 3 then (St_ADDRESS, excl)
  else (St_GENERIC, excl).

(** amba.h l.157-179 *)
Definition get_axi_resp (st : status) (excl : option bool) : N :=
  match st with
  | St_OK => match excl with Some true => 1 | _ => 0 end
  | St_ADDRESS => 3
  | _ => 2
  end.

(** LookupAxID, l.540-559: first with this id, removed. *)
Fixpoint lookup_id (l : list ttrans) (id : N) : option (ttrans * list ttrans) :=
  match l with
  | [] => None
  | t :: l' =>
    if tt_id t =? id then Some (t, l')
    else match lookup_id l' id with
         | Some (t', r) => Some (t', t :: r)
         | None => None
         end
  end.

(** read_resp_phase as a consumer of beats.  [rp_cur]: the transaction being
    filled with its buffer, position and address position. *)
Record rphase := mkRp {
  rp_wait : list ttrans;
  rp_cur : option (ttrans * list N * N * N);
  rp_done : list (ttrans * (list N * status)) }.

(** One beat, l.812-903 and l.910-936.  A premature RLAST and an unknown id are
    SC_REPORT_ERROR. *)
Definition read_beat (B : N) (s : rphase) (r : rbeat) : res rphase :=
  let start := match rp_cur s with
               | Some c => Some (c, rp_wait s)
               | None => match lookup_id (rp_wait s) (r_id r) with
                         | Some (t, rest) => Some ((t, g_data (tt_gp t), 0, 0), rest)
                         | None => None
                         end
               end in
  match start with
  | None => AssertFail
  | Some ((t, data, pos, apos), rest) =>
    let n := rbeat_len B t apos (g_len (tt_gp t) - pos) in
    let data' := take_lanes B t apos pos n (r_lanes r) data in
    let apos' := match tt_kind t with B_FIXED => apos | _ => apos + n end in
    let left := g_len (tt_gp t) - (pos + n) in
    if r_last r && negb (left =? 0) then AssertFail
    else if left =? 0
    then Ok (mkRp rest None (rp_done s ++ [(t, (data', fst (set_axi_resp (N.land (r_resp r) 3) None)))]))
    else Ok (mkRp rest (Some (t, data', pos + n, apos')) (rp_done s))
  end.
Fixpoint read_beats (B : N) (s : rphase) (rs : list rbeat) : res rphase :=
  match rs with
  | [] => Ok s
  | r :: rs' => rbind (read_beat B s r) (fun s' => read_beats B s' rs')
  end.

(** write_resp_phase, l.1003-1054: one (bid, bresp) after the other; done
    transactions with their status. *)
Fixpoint write_resps (wait : list ttrans) (bs : list (N * N)) : res (list ttrans * list (ttrans * status)) :=
  match bs with
  | [] => Ok (wait, [])
  | (id, resp) :: bs' =>
    match lookup_id wait id with
    | None => AssertFail
    | Some (t, rest) =>
      rmap (fun '(w, d) => (w, (t, fst (set_axi_resp resp None)) :: d)) (write_resps rest bs')
    end
  end.
