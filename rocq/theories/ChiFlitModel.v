(** Model of tlm-bridges/private/chi/pkts.h (ReqPkt, RspPkt, SnpPkt, DatPkt) and of the
    parsers in checkers/flits-chi.h.

    A flit, an sc_bv of a fixed width, is a number.  The packet classes keep a bit
    position m_pos, advanced by every field.  Left shifts are undefined when the count
    reaches the width of the promoted type ([1 << 31] as an int, minus one, overflows).
    Not modelled: the payload's response status and its deletion. *)
From Verif Require Import Base.
Open Scope N_scope.

Inductive ty := U8 | U16 | U32 | U64.
Definition bits (t : ty) : N := match t with U8 => 8 | U16 => 16 | U32 => 32 | U64 => 64 end.
(** static_cast<T>(1) << width: U8 and U16 are promoted to int. *)
Definition shifts (t : ty) : N := match t with U8 | U16 => 31 | U32 => 32 | U64 => 64 end.
Definition tmask (t : ty) (w : N) : res N :=
  if shifts t <=? w then UB else Ok ((2 ^ w - 1) mod 2 ^ bits t).
(** (1 << width) - 1 *)
Definition imask (w : N) : res N := if 31 <=? w then UB else Ok (2 ^ w - 1).

(** The bits [pos] to [pos + w - 1] of a flit, and an assignment to them. *)
Definition field (f pos w : N) : N := N.shiftr f pos mod 2 ^ w.
Definition put (f pos w v : N) : N :=
  N.lor (N.ldiff f (N.shiftl (N.ones w) pos)) (N.shiftl (v mod 2 ^ w) pos).
(** A range of an sc_bv of [W] bits: out of range is an error. *)
Definition assign (W f pos w v : N) : res N :=
  if W <? pos + w then AssertFail else Ok (put f pos w v).
Definition range (W f pos w : N) : res N :=
  if W <? pos + w then AssertFail else Ok (field f pos w).

(** Set, pkts.h l.220-236 *)
Inductive fld := FT (t : ty) (w v : N) | FB (b : bool).
Definition width (x : fld) : N := match x with FT _ w _ => w | FB _ => 1 end.
Definition set1 (W : N) (st : N * N) (x : fld) : res (N * N) :=
  let (f, pos) := st in
  match x with
  | FT t w v =>
      rbind (tmask t w) (fun m =>
      rmap (fun f => (f, pos + w)) (assign W f pos w (N.land v m)))
  | FB b => rmap (fun f => (f, pos + 1)) (assign W f pos 1 (N.b2n b))
  end.
Fixpoint sets (W : N) (st : N * N) (l : list fld) : res (N * N) :=
  match l with
  | [] => Ok st
  | x :: l' => rbind (set1 W st x) (fun st => sets W st l')
  end.

(** Extract and ExtractBool, l.238-256; SnpPkt's Extract takes the mask from T, l.764. *)
Inductive rfld := RT (t : ty) (w : N) | RB.
Definition rwidth (x : rfld) : N := match x with RT _ w => w | RB => 1 end.
Definition get1 (snp : bool) (W f pos : N) (x : rfld) : res N :=
  match x with
  | RT t w =>
      rbind (if snp then rmap (fun m => m) (if shifts t <=? w then UB else Ok (2 ^ w - 1))
             else imask w) (fun m =>
      rmap (fun v => N.land (v mod 2 ^ 64) m mod 2 ^ bits t) (range W f pos w))
  | RB => range W f pos 1
  end.
Fixpoint gets (snp : bool) (W f pos : N) (l : list rfld) : res (list N) :=
  match l with
  | [] => Ok []
  | x :: l' =>
      rbind (get1 snp W f pos x) (fun v =>
      rmap (cons v) (gets snp W f (pos + rwidth x) l'))
  end.
Definition isb (v : N) : bool := v =? 1.

(** ** Requests *)
Record req := mkReq {
  q_qos : N; q_tgt : N; q_src : N; q_txn : N; q_rnid : N; q_snv : bool; q_rtxn : N;
  q_opc : N; q_len : N; q_addr : N; q_ns : bool; q_likely : bool; q_retry : bool;
  q_order : N; q_pcrd : N; q_alloc : bool; q_cache : bool; q_dev : bool; q_ewa : bool;
  q_snp : bool; q_lpid : N; q_excl : bool; q_ack : bool; q_trace : bool; q_rsvdc : N }.
(** FLIT_WIDTH, l.80-101: [n] NODEID_WIDTH, [a] ADDR_WIDTH, [r] RSVDC_WIDTH *)
Definition req_width (n a r : N) : N :=
  4 + n + n + 8 + n + 1 + 8 + 6 + 3 + a + 1 + 1 + 1 + 2 + 4 + 4 + 1 + 5 + 1 + 1 + 1 + r.
(** GetSize, l.320-342 *)
Definition get_size (len : N) : N :=
  if len =? 64 then 6 else if len =? 32 then 5 else if len =? 16 then 4
  else if len =? 8 then 3 else if len =? 4 then 2 else if len =? 2 then 1 else 0.
(** GetMemAttr, l.351-363 *)
Definition memattr (x : req) : N :=
  N.lor (N.shiftl (N.b2n (q_alloc x)) 3)
    (N.lor (N.shiftl (N.b2n (q_cache x)) 2)
       (N.lor (N.shiftl (N.b2n (q_dev x)) 1) (N.b2n (q_ewa x)))).
(** CreateFlit, l.141-203 *)
Definition req_fields (n a r : N) (x : req) : list fld :=
  [FT U8 4 (q_qos x); FT U16 n (q_tgt x); FT U16 n (q_src x); FT U8 8 (q_txn x);
   FT U16 n (q_rnid x); FB (q_snv x); FT U8 8 (q_rtxn x); FT U8 6 (q_opc x);
   FT U8 3 (get_size (q_len x)); FT U64 a (q_addr x); FB (q_ns x); FB (q_likely x);
   FB (q_retry x); FT U8 2 (q_order x); FT U8 4 (q_pcrd x); FT U8 4 (memattr x);
   FB (q_snp x); FT U8 5 (q_lpid x); FB (q_excl x); FB (q_ack x); FB (q_trace x)] ++
  (if r =? 0 then [] else [FT U32 r (q_rsvdc x)]).
Definition req_create (n a r : N) (x : req) : res N :=
  rmap fst (sets (req_width n a r) (0, 0) (req_fields n a r x)).
(** ParseFlit, l.258-318; ExtractMemAttr, l.365-376 *)
Definition req_reads (n a r : N) : list rfld :=
  [RT U8 4; RT U16 n; RT U16 n; RT U8 8; RT U16 n; RB; RT U8 8; RT U8 6; RT U8 3; RT U64 a;
   RB; RB; RB; RT U8 2; RT U8 4; RT U8 4; RB; RT U16 5; RB; RB; RB] ++
  (if r =? 0 then [] else [RT U32 r]).
Definition req_of (l : list N) : res req :=
  match l with
  | qos :: tgt :: src :: txn :: rnid :: snv :: rtxn :: opc :: size :: addr :: ns :: likely ::
    retry :: order :: pcrd :: ma :: snp :: lpid :: excl :: ack :: trace :: rest =>
      Ok (mkReq qos tgt src txn rnid (isb snv) rtxn opc (2 ^ size) addr (isb ns)
            (isb likely) (isb retry) order pcrd (N.testbit ma 3) (N.testbit ma 2)
            (N.testbit ma 1) (N.testbit ma 0) (isb snp) (lpid mod 2 ^ 8) (isb excl)
            (isb ack) (isb trace) (match rest with v :: _ => v | [] => 0 end))
  | _ => Unmodelled
  end.
Definition req_parse (n a r f : N) : res req :=
  rbind (gets false (req_width n a r) f 0 (req_reads n a r)) req_of.

(** ** Responses *)
Record rsp := mkRsp {
  p_qos : N; p_tgt : N; p_src : N; p_txn : N; p_opc : N; p_err : N; p_resp : N;
  p_fwd : N; p_dbid : N; p_pcrd : N; p_trace : bool }.
Definition rsp_width (n : N) : N := 4 + n + n + 8 + 4 + 2 + 3 + 3 + 8 + 4 + 1.
(** CreateFlit, l.482-506; ParseFlit, l.562-590 *)
Definition rsp_fields (n : N) (x : rsp) : list fld :=
  [FT U8 4 (p_qos x); FT U16 n (p_tgt x); FT U16 n (p_src x); FT U8 8 (p_txn x);
   FT U8 4 (p_opc x); FT U8 2 (p_err x); FT U8 3 (p_resp x); FT U8 3 (p_fwd x);
   FT U8 8 (p_dbid x); FT U8 4 (p_pcrd x); FB (p_trace x)].
Definition rsp_create (n : N) (x : rsp) : res N :=
  rmap fst (sets (rsp_width n) (0, 0) (rsp_fields n x)).
Definition rsp_reads (n : N) : list rfld :=
  [RT U8 4; RT U16 n; RT U16 n; RT U8 8; RT U8 4; RT U8 2; RT U8 3; RT U8 3; RT U8 8;
   RT U8 4; RB].
Definition rsp_of (l : list N) : res rsp :=
  match l with
  | [qos; tgt; src; txn; opc; err; resp; fwd; dbid; pcrd; trace] =>
      Ok (mkRsp qos tgt src txn opc err resp fwd dbid pcrd (isb trace))
  | _ => Unmodelled
  end.
Definition rsp_parse (n f : N) : res rsp :=
  rbind (gets false (rsp_width n) f 0 (rsp_reads n)) rsp_of.

(** ** Snoops *)
Record snp := mkSnp {
  s_qos : N; s_src : N; s_txn : N; s_fnid : N; s_ftxn : N; s_opc : N; s_addr : N;
  s_ns : bool; s_nosd : bool; s_ret : bool; s_trace : bool }.
Definition snp_width (n a : N) : N := 4 + n + 8 + n + 8 + 5 + a + 1 + 1 + 1 + 1.
(** CreateFlit, l.699-723; ParseFlit, l.779-806 *)
Definition snp_fields (n a : N) (x : snp) : list fld :=
  [FT U8 4 (s_qos x); FT U16 n (s_src x); FT U8 8 (s_txn x); FT U16 n (s_fnid x);
   FT U8 8 (s_ftxn x); FT U8 5 (s_opc x); FT U64 a (N.shiftr (s_addr x) 3); FB (s_ns x);
   FB (s_nosd x); FB (s_ret x); FB (s_trace x)].
Definition snp_create (n a : N) (x : snp) : res N :=
  rmap fst (sets (snp_width n a) (0, 0) (snp_fields n a x)).
Definition snp_reads (n a : N) : list rfld :=
  [RT U8 4; RT U16 n; RT U8 8; RT U16 n; RT U16 8; RT U8 5; RT U64 a; RB; RB; RB; RB].
Definition snp_of (l : list N) : res snp :=
  match l with
  | [qos; src; txn; fnid; ftxn; opc; addr; ns; nosd; ret; trace] =>
      Ok (mkSnp qos src txn fnid (ftxn mod 2 ^ 8) opc (N.shiftl addr 3 mod 2 ^ 64) (isb ns)
            (isb nosd) (isb ret) (isb trace))
  | _ => Unmodelled
  end.
Definition snp_parse (n a f : N) : res snp :=
  rbind (gets true (snp_width n a) f 0 (snp_reads n a)) snp_of.

(** ** Data *)
Record dat := mkDat {
  d_qos : N; d_tgt : N; d_src : N; d_txn : N; d_home : N; d_opc : N; d_err : N; d_resp : N;
  d_fwd : N; d_dbid : N; d_ccid : N; d_dataid : N; d_trace : bool; d_rsvdc : N;
  d_be : list bool; d_data : list N; d_check : N; d_poison : N }.
(** [b] DATA_WIDTH/8, [k] DATACHECK_WIDTH, [z] POISON_WIDTH, [o] DAT_OPCODE_WIDTH *)
Record dpar := mkDp { w_b : N; w_n : N; w_r : N; w_k : N; w_z : N; w_o : N }.
Definition dat_width (p : dpar) : N :=
  4 + w_n p + w_n p + 8 + w_n p + w_o p + 2 + 3 + 3 + 8 + 2 + 2 + 1 + w_r p + w_b p +
  8 * w_b p + w_k p + w_z p.
(** A payload: the data buffer (what can be read from the data pointer), the data length
    and the byte enables; a packet in progress: its position and what was sent. *)
Record dpkt := mkPk { k_attr : dat; k_buf : list N; k_len : N; k_be : list bool;
                      k_pos : N; k_sent : N }.

(** SetByteEnable, l.1027-1059 *)
Definition lane_on (be : list bool) (len sent : N) (i : nat) : bool :=
  match be with
  | [] => N.of_nat i <? len
  | _ => nth ((i + N.to_nat sent) mod length be) be false
  end.
Definition set_be (W : N) (p : dpar) (k : dpkt) (st : N * N) : res (N * N) :=
  sets W st (map (fun i => FB (lane_on (k_be k) (k_len k) (k_sent k) i))
               (seq 0 (N.to_nat (w_b p)))).
(** SetData, l.1061-1081: one byte more than the length is read and stored *)
Fixpoint lanes (W f pos : N) (buf : list N) (n : nat) {struct n} : res N :=
  match n with
  | O => Ok f
  | S n' =>
      match buf with
      | [] => UB
      | x :: buf' => rbind (assign W f pos 8 x) (fun f => lanes W f (pos + 8) buf' n')
      end
  end.
Definition set_data (W : N) (p : dpar) (k : dpkt) (st : N * N) : res (N * N) :=
  let (f, pos) := st in
  rmap (fun f => (f, pos + 8 * w_b p))
    (lanes W f pos (k_buf k) (S (N.to_nat (N.min (k_len k) (w_b p))))).
(** CreateFlit, l.927-988 *)
Definition dat_head (p : dpar) (k : dpkt) : list fld :=
  let x := k_attr k in
  [FT U8 4 (d_qos x); FT U16 (w_n p) (d_tgt x); FT U16 (w_n p) (d_src x); FT U8 8 (d_txn x);
   FT U16 (w_n p) (d_home x); FT U8 (w_o p) (d_opc x); FT U8 2 (d_err x); FT U8 3 (d_resp x);
   FT U8 3 (d_fwd x); FT U8 8 (d_dbid x); FT U8 2 (d_ccid x);
   FT U8 2 (k_sent k / w_b p mod 2 ^ 8); FB (d_trace x)] ++
  (if w_r p =? 0 then [] else [FT U32 (w_r p) (d_rsvdc x)]).
Definition dat_tail (p : dpar) (k : dpkt) : list fld :=
  (if w_k p =? 0 then [] else [FT U64 (w_k p) (d_check (k_attr k))]) ++
  (if w_z p =? 0 then [] else [FT U8 (w_z p) (d_poison (k_attr k))]).
(** The flit, and the packet afterwards; m_pos is not set back. *)
Definition dat_create (p : dpar) (k : dpkt) : res (N * dpkt) :=
  if negb (k_pos k =? 0) then AssertFail
  else
    let W := dat_width p in
    rbind (sets W (0, k_pos k) (dat_head p k)) (fun st =>
    rbind (set_be W p k st) (fun st =>
    rbind (set_data W p k st) (fun st =>
    rmap (fun st : N * N =>
            (fst st, mkPk (k_attr k) (k_buf k) (k_len k) (k_be k) (snd st)
                       (k_sent k + w_b p)))
      (sets W st (dat_tail p k))))).
Definition dat_done (k : dpkt) : bool := k_len k <=? k_sent k.

(** ExtractByteEnable to ParseFlit, l.1103-1179; [t] is the type RSVDC is read with *)
Definition dat_reads (t : ty) (p : dpar) : list rfld :=
  [RT U8 4; RT U16 (w_n p); RT U16 (w_n p); RT U8 8; RT U16 (w_n p); RT U8 (w_o p); RT U8 2;
   RT U8 3; RT U8 3; RT U8 8; RT U8 2; RT U8 2; RB] ++
  (if w_r p =? 0 then [] else [RT t (w_r p)]).
Definition dat_of (l : list N) (be : list bool) (data rest : list N) : res dat :=
  match l with
  | qos :: tgt :: src :: txn :: home :: opc :: err :: resp :: fwd :: dbid :: ccid :: dataid ::
    trace :: rsvdc =>
      Ok (mkDat qos tgt src txn home opc err resp fwd dbid ccid dataid (isb trace)
            (match rsvdc with v :: _ => v | [] => 0 end) be data
            (nth 0 rest 0) (nth 1 rest 0))
  | _ => Unmodelled
  end.
Definition total (l : list rfld) : N := fold_right (fun x a => rwidth x + a) 0 l.
Definition dat_parse (t : ty) (p : dpar) (f : N) : res dat :=
  let W := dat_width p in
  rbind (gets false W f 0 (dat_reads t p)) (fun l =>
  let pos := total (dat_reads t p) in
  rbind (gets false W f pos (repeat RB (N.to_nat (w_b p)))) (fun be =>
  rbind (gets false W f (pos + w_b p) (repeat (RT U8 8) (N.to_nat (w_b p)))) (fun data =>
  let pos := pos + 9 * w_b p in
  rbind (if w_k p =? 0 then Ok 0
         else get1 false W f pos (RT U64 (w_k p))) (fun chk =>
  rbind (if w_z p =? 0 then Ok 0
         else get1 false W f (pos + w_k p) (RT U8 (w_z p))) (fun psn =>
  dat_of l (map isb be) data [chk; psn]))))).

(** ** The parsers of checkers/flits-chi.h: l.269-314, l.527-544, l.699-715, l.917-957 *)
Definition ck_req_parse (n a r f : N) : res req :=
  rbind (gets false (req_width n a r) f 0
           ([RT U8 4; RT U16 n; RT U16 n; RT U16 8; RT U16 n; RB; RT U8 8; RT U8 6; RT U8 3;
             RT U64 a; RB; RB; RB; RT U8 2; RT U8 4; RT U8 4; RB; RT U16 5; RB; RB; RB] ++
            (if r =? 0 then [] else [RT U32 r]))) req_of.
Definition ck_rsp_parse (n f : N) : res rsp :=
  rbind (gets false (rsp_width n) f 0 (rsp_reads n)) rsp_of.
Definition ck_snp_parse (n a f : N) : res snp :=
  rbind (gets false (snp_width n a) f 0
           [RT U8 4; RT U16 n; RT U8 8; RT U16 n; RT U8 8; RT U8 5; RT U64 a; RB; RB; RB; RB])
    snp_of.
Definition ck_dat_parse : dpar -> N -> res dat := dat_parse U32.
