(** Model of the CCIX messages (/repo/tlm-bridges/private/ccix/pkts.h, constants
    in /repo/tlm-bridges/ccix.h, attributes in
    /repo/tlm-extensions/ccixattr.h): building a TLP from a generic payload
    with ccixattr_extension, and extracting messages from a TLP.  CACHELINE_SZ
    is 64. *)
From Verif Require Import Base TlmModel TlpModel.
Open Scope N_scope.

(** ** ccixattr_extension: l.35-167 of ccixattr.h; NonSecure is the negation of
    the member secure.  The member Ext is used nowhere and left out. *)
Inductive key := TgtID | SrcID | MsgLen | MsgCredit | MsgType | QoS | TxnID | ReqOp | NonSecure
  | ReqAttr | SnpCast | DataRet | SnpOp | RespOp | RespAttr | MiscOp | DataCredit | ReqCredit
  | MiscCredit | SnpCredit | PayloadSz | User | RespErr | Poison0 | Poison1.
Definition key_eqb (a b : key) : bool :=
  let n k := match k with
    | TgtID => 0 | SrcID => 1 | MsgLen => 2 | MsgCredit => 3 | MsgType => 4 | QoS => 5 | TxnID => 6
    | ReqOp => 7 | NonSecure => 8 | ReqAttr => 9 | SnpCast => 10 | DataRet => 11 | SnpOp => 12
    | RespOp => 13 | RespAttr => 14 | MiscOp => 15 | DataCredit => 16 | ReqCredit => 17
    | MiscCredit => 18 | SnpCredit => 19 | PayloadSz => 20 | User => 21 | RespErr => 22
    | Poison0 => 23 | Poison1 => 24 end in
  n a =? n b.
Definition key_default (k : key) : N := match k with NonSecure => 1 | _ => 0 end.
(** the members set so far, last one first *)
Definition attr := list (key * N).
Fixpoint get (l : attr) (k : key) : N :=
  match l with
  | [] => key_default k
  | (k', v) :: l' => if key_eqb k' k then v else get l' k
  end.

(** a payload with the extension; [m_pay] is Payload[32] *)
Record msg := mkMsg {
  m_cmd : command; m_addr : N; m_data : list N; m_be : option (list N);
  m_attr : key -> N; m_pay : list N }.

(** ** Constants, ccix.h *)
Definition T_Req := 1. Definition T_SnpReq := 2. Definition T_MiscCredited := 3.
Definition T_Resp := 9. Definition T_SnpResp := 10. Definition T_MiscUnCredited := 11.
Definition Op_ReqChain := 240. Definition Op_SnpChain := 7.
Definition op_in (l : list N) (op : N) : bool := existsb (N.eqb op) l.
(** HasByteEnables, l.829-843 *)
Definition has_bes (op : N) : bool := op_in [32; 34; 36] op.
(** IsWrite, l.371-388; IsAtomic, l.390-394 *)
Definition is_write_op (op : N) : bool := op_in [32; 33; 34; 35; 36; 37; 39; 43; 45] op.
Definition is_atomic_op (op : N) : bool := (64 <=? op) && (op <=? 225).
(** ExtType1Allowed, l.746-767 *)
Definition ext1_allowed (op : N) : bool := op_in [0; 32; 34] op || is_atomic_op op.

(** ** Building messages *)
Definition is_wr (m : msg) : bool := match m_cmd m with C_WRITE => true | _ => false end.
Definition bnum (b : bool) : N := if b then 1 else 0.
(** PlaceBE, l.436-517: byte [k] of the byte enables, in whole words *)
Definition be_byte (be : list N) (len k : N) : N :=
  fold_left (fun acc i =>
    let p := 8 * k + N.of_nat i in
    if (p <? len) && (nth (N.to_nat (p mod N.of_nat (length be))) be 0 =? BE_ON)
    then N.lor acc (N.shiftl 1 (N.of_nat i)) else acc) (seq 0 8) 0.
Definition be_count (len : N) : nat := N.to_nat (4 * ((len + 31) / 32)).
Definition place_be (m : msg) : list N :=
  let len := N.of_nat (length (m_data m)) in
  pack (map (fun k =>
    match m_be m with
    | Some (b :: bs) => be_byte (b :: bs) len (N.of_nat k)
    | _ => if (len mod 8 =? 0) && (len <=? 8 * N.of_nat k) then 0 else 255
    end) (seq 0 (be_count len))).
(** PlaceData, l.519-541: [len -= 4] wraps around unless the length is a
    multiple of 4, and the data pointer runs out of the buffer *)
Definition place_data (m : msg) : res (list N) :=
  if N.of_nat (length (m_data m)) mod 4 =? 0 then Ok (pack (m_data m)) else UB.

(** m_hdr[0] | set_MsgLen(m_hdr.size()) *)
Definition finish (ws : list N) : res (list N) :=
  match ws with
  | [] => Ok []
  | w :: r => rmap (fun l => N.lor w l :: r) (set_field 22 5 (N.of_nat (length ws)))
  end.
(** the common fields: Ext, MsgType, MsgLen (0 for now) *)
Definition common (ext : N) (a : key -> N) : list (N * N * N) :=
  [(31, 1, ext); (27, 4, a MsgType); (22, 5, 0)].
(** the setters take a uint32_t *)
Definition hi32 (addr : N) : N := N.shiftr addr 32 mod u32.
Definition needs_ext0 (addr : N) : bool :=
  negb (get_field 20 4 (hi32 addr) =? 0) || negb (get_field 0 8 (hi32 addr) =? 0).
Definition addr31_6 (addr : N) : N := N.shiftr addr 6 mod u32.
Definition ext0_word (more : bool) (addr : N) : res N :=
  fields [(31, 1, bnum more); (28, 3, 0); (20, 4, hi32 addr); (0, 8, hi32 addr)].

(** MsgReq(gp), l.670-729 *)
Definition req_words (m : msg) : res (list N) :=
  let a := m_attr m in
  let addr := m_addr m in
  let e0 := needs_ext0 addr in
  let e1 := negb (get_field 0 6 (addr mod u32) =? 0) in
  rbind (fields (common (bnum (e0 || e1)) a ++ [(10, 12, a TxnID); (8, 2, 0); (0, 8, a ReqOp)])) (fun w0 =>
  rbind (if e0 then rmap (fun w => [w]) (ext0_word e1 addr) else Ok []) (fun x0 =>
  rbind (if e1 then
           if ext1_allowed (a ReqOp) then rmap (fun w => [w]) (fields [(28, 3, 1); (0, 6, N.land addr 63)])
           else AssertFail
         else Ok []) (fun x1 =>
  rbind (fields [(24, 8, a ReqAttr); (20, 4, 0); (0, 20, hi32 addr)]) (fun w1 =>
  rbind (fields [(6, 26, addr31_6 addr); (5, 1, 0); (4, 1, a NonSecure); (0, 4, a QoS)]) (fun w2 =>
  rbind (if is_wr m then
           rmap (app (if has_bes (a ReqOp) then place_be m else [])) (place_data m)
         else Ok []) (fun tail =>
  finish ([w0] ++ x0 ++ x1 ++ [w1; w2] ++ tail))))))).

(** MsgRsp(gp), l.896-920; IsSnpRespDataPtl, l.938-946 *)
Definition snp_ptl (a : key -> N) : bool := (a MsgType =? T_SnpResp) && ((a RespOp =? 2) || (a RespOp =? 3)).
Definition rsp_words (m : msg) : res (list N) :=
  let a := m_attr m in
  rbind (fields (common 0 a ++ [(10, 12, a TxnID); (7, 3, 0); (4, 3, a RespAttr); (3, 1, 0); (0, 3, a RespOp)])) (fun w0 =>
  rbind (if is_wr m then
           rmap (app (if snp_ptl a then place_be m else [])) (place_data m)
         else Ok []) (fun tail =>
  finish (w0 :: tail))).

(** MsgSnpReq(gp), l.1015-1054 *)
Definition snp_words (m : msg) : res (list N) :=
  let a := m_attr m in
  let addr := m_addr m in
  let e0 := needs_ext0 addr in
  rbind (fields (common (bnum e0) a ++ [(10, 12, a TxnID); (7, 3, 0); (5, 2, a SnpCast); (4, 1, a DataRet); (0, 4, a SnpOp)])) (fun w0 =>
  rbind (if e0 then rmap (fun w => [w]) (ext0_word false addr) else Ok []) (fun x0 =>
  if get_field 0 6 (addr mod u32) =? 0 then
    rbind (fields [(20, 12, 0); (0, 20, hi32 addr)]) (fun w1 =>
    rbind (fields [(6, 26, addr31_6 addr); (5, 1, 0); (4, 1, a NonSecure); (0, 4, 0)]) (fun w2 =>
    finish ([w0] ++ x0 ++ [w1; w2])))
  else AssertFail)).

(** MsgCrdEx(gp), l.1113-1131; MsgNOP(gp), l.1171-1183; the reserved field set
    to 0 at bit 19 overlaps MiscOp *)
Definition crd_words (m : msg) : res (list N) :=
  let a := m_attr m in
  rbind (fields (common 0 a ++ [(19, 3, 0); (16, 4, a MiscOp); (8, 8, a DataCredit); (0, 8, a ReqCredit)])) (fun w0 =>
  rbind (fields [(16, 16, 0); (8, 8, a MiscCredit); (0, 8, a SnpCredit)]) (fun w1 =>
  finish [w0; w1])).
Definition nop_words (m : msg) : res (list N) :=
  let a := m_attr m in
  rbind (fields (common 0 a ++ [(19, 3, 0); (16, 4, a MiscOp); (0, 16, 0)])) (fun w0 => finish [w0]).

(** MsgMiscCredited(gp), l.1218-1249, PlacePayload, l.1289-1318: Payload has
    32 bytes *)
Definition misc_words (m : msg) : res (list N) :=
  let a := m_attr m in
  rbind (fields (common 0 a ++ [(19, 3, a MiscCredit); (16, 4, a MiscOp)])) (fun v =>
  let w0 := if 0 <? a PayloadSz
            then N.lor v (N.lor (N.shiftl (nth 0 (m_pay m) 0) 8) (nth 1 (m_pay m) 0)) else v in
  rbind (if 2 <? a PayloadSz then
           if 32 <? a PayloadSz then UB
           else Ok (pack (slice 2 (N.to_nat (a PayloadSz) - 2) (m_pay m)))
         else Ok []) (fun tail =>
  finish (w0 :: tail))).

(** TLPFactory::Create, l.1954-1996: NULL for the other types *)
Definition msg_words (m : msg) : res (option (list N)) :=
  let t := m_attr m MsgType in
  if t =? T_Req then rmap Some (req_words m)
  else if t =? T_SnpReq then rmap Some (snp_words m)
  else if (t =? T_Resp) || (t =? T_SnpResp) then rmap Some (rsp_words m)
  else if t =? T_MiscUnCredited then
    if m_attr m MiscOp =? 0 then rmap Some (nop_words m)
    else if op_in [1; 2] (m_attr m MiscOp) then rmap Some (crd_words m)
    else Ok None
  else if t =? T_MiscCredited then rmap Some (misc_words m)
  else Ok None.

(** ** TLP headers: TLPHdr_opt, l.63-115, and TLPHdr_comp, l.117-238 *)
Inductive hdr := Comp | Opt.
Definition hdr_size (h : hdr) : nat := match h with Comp => 16 | Opt => 4 end.
Definition hdr_words (h : hdr) (a : key -> N) (len : N) : res (list N) :=
  match h with
  | Opt =>
    rmap (fun w => [w]) (fields [(30, 1, 1); (24, 6, a MsgCredit); (23, 1, 0); (20, 3, 7); (14, 6, a TgtID);
                                 (8, 6, a SrcID); (7, 1, 0); (0, 7, len)])
  | Comp =>
    rbind (fields [(29, 3, 3); (24, 5, 18); (23, 1, 0); (20, 3, 7); (19, 1, 0); (17, 2, 0); (16, 1, 0); (15, 1, 0);
                   (14, 1, 0); (12, 2, 0); (10, 2, 0); (0, 10, len)]) (fun w0 =>
    rbind (fields [(16, 16, 0); (8, 8, 0); (0, 8, 127)]) (fun w1 =>
    rbind (fields [(24, 8, 0); (19, 5, 0); (16, 3, 0); (0, 16, 0)]) (fun w2 =>
    rbind (fields [(30, 2, 0); (24, 6, a MsgCredit); (20, 4, 0); (14, 6, a TgtID); (8, 6, a SrcID); (0, 8, 0)]) (fun w3 =>
    Ok [w0; w1; w2; w3]))))
  end.
(** TLP(msg), l.1480-1499, PushBack, l.1642-1656: the bytes of the TLP *)
Definition tlp_of (h : hdr) (m : msg) : res (option (list N)) :=
  rbind (msg_words m) (fun o =>
  match o with
  | None => Ok None
  | Some ws => rmap (fun hs => Some (wire (hs ++ ws))) (hdr_words h (m_attr m) (N.of_nat (length ws)))
  end).

(** ** Extracting messages.  [b] is m_data from the start of the message on;
    reading past its end is undefined *)
Record rmsg := mkRmsg {
  r_cmd : command; r_addr : N; r_data : list N; r_be : option (list N); r_attr : attr; r_pay : list N }.
Definition set_attr (kv : list (key * N)) (r : rmsg) : rmsg :=
  mkRmsg (r_cmd r) (r_addr r) (r_data r) (r_be r) (rev kv ++ r_attr r) (r_pay r).
Definition or_addr (x : N) (r : rmsg) : rmsg :=
  mkRmsg (r_cmd r) (N.lor (r_addr r) x) (r_data r) (r_be r) (r_attr r) (r_pay r).
(** get_next_uint32, l.615-625 *)
Definition next (b : list N) (p : nat) : res (N * nat) :=
  if Nat.leb (p + 4) (length b) then Ok (be_dec (slice p 4 b), (p + 4)%nat) else UB.
(** IMsg(msg, ..), l.262-289; the default command of a payload is TLM_IGNORE_COMMAND *)
Definition new_msg (b : list N) (tgt src credit : N) : res rmsg :=
  rmap (fun wp => let w := fst wp in
    set_attr [(TgtID, tgt); (SrcID, src); (MsgCredit, credit); (MsgType, get_field 27 4 w); (MsgLen, get_field 22 5 w)]
      (mkRmsg C_IGNORE 0 (repeat 0 64) None [] (repeat 0 32))) (next b 0).
(** ExtractExtension, l.566-610 *)
Definition extension (w : N) (r : rmsg) : rmsg :=
  let t := get_field 28 3 w in
  if t =? 0 then
    set_attr [(TgtID, get_field 14 6 w); (SrcID, get_field 8 6 w)]
      (or_addr (N.lor (N.shiftl (get_field 20 4 w) 60) (N.shiftl (get_field 0 8 w) 52)) r)
  else if t =? 1 then or_addr (get_field 0 6 w) r
  else if t =? 2 then set_attr [(User, get_field 0 28 w)] r
  else if t =? 6 then set_attr [(RespErr, get_field 24 2 w); (Poison0, get_field 8 8 w); (Poison1, get_field 8 8 w)] r
  else r.
(** ExtractExtensions, l.423-434: the last word read, the position, the message *)
Fixpoint extensions (fuel : nat) (b : list N) (w : N) (p : nat) (r : rmsg) : res (N * nat * rmsg) :=
  match fuel with
  | O => UB (* not reached: every word read lies inside [b] *)
  | S f =>
    if get_field 31 1 w =? 1 then
      rbind (next b p) (fun wp => extensions f b (fst wp) (snd wp) (extension (fst wp) r))
    else Ok (w, p, r)
  end.
Definition extract_exts (advance : bool) (b : list N) (w : N) (p : nat) (r : rmsg) : res (N * nat * rmsg) :=
  rbind (extensions (S (length b)) b w p r) (fun x => let '(w, p, r) := x in
  if advance then rmap (fun wp => (fst wp, snd wp, r)) (next b p) else Ok (w, p, r)).
(** ParseByteEnables, l.325-369: m_pos moves on by [(n - 1) / 8] bytes and then
    to the next multiple of 4 *)
Definition align4 (p : nat) : nat := (4 * ((p + 3) / 4))%nat.
Definition parse_be (b : list N) (p : nat) (n : nat) (r : rmsg) : res (nat * rmsg) :=
  if Nat.leb (p + n / 8) (length b) then
    Ok (align4 (p + (n - 1) / 8),
        mkRmsg (r_cmd r) (r_addr r) (r_data r)
          (Some (map (fun i => if Nat.ltb i n && N.testbit (nth (p + i / 8) b 0) (N.of_nat (i mod 8))
                               then BE_ON else BE_OFF) (seq 0 64)))
          (r_attr r) (r_pay r))
  else UB.
(** GetTailSize, l.396-401: unsigned *)
Definition tail_size (r : rmsg) (p : nat) : N := (get (r_attr r) MsgLen * 4 + u32 - N.of_nat p) mod u32.
(** ParseData, l.403-418, and set_command(TLM_WRITE_COMMAND): m_data has 64 bytes *)
Definition parse_data (b : list N) (p : nat) (n : N) (r : rmsg) : res rmsg :=
  if (n <=? 64) && Nat.leb (p + N.to_nat n) (length b)
  then Ok (mkRmsg C_WRITE (r_addr r) (slice p (N.to_nat n) b) (r_be r) (r_attr r) (r_pay r))
  else UB.
(** get_size, l.859-880: SC_REPORT_ERROR for 128 throws *)
Definition size_of (reqattr : N) : res nat :=
  let s := get_field 4 3 reqattr in
  if s =? 7 then AssertFail else if s =? 6 then Ok 64%nat else if s =? 5 then Ok 32%nat
  else if s =? 4 then Ok 16%nat else Ok 8%nat.

(** MsgReq::ExtractMessage, l.769-823 *)
Definition rx_req (b : list N) (r : rmsg) : res rmsg :=
  rbind (next b 0) (fun wp => let '(w, p) := wp in
  let r := set_attr [(TxnID, get_field 10 12 w); (ReqOp, get_field 0 8 w)] r in
  let op := get_field 0 8 w in
  let chain := op =? Op_ReqChain in
  rbind (extract_exts true b w p r) (fun x => let '(w, p, r) := x in
  rbind (if chain then Ok (p, r) else
         let r := or_addr (N.shiftl (get_field 0 20 w) 32) (set_attr [(ReqAttr, get_field 24 8 w)] r) in
         rmap (fun wp => let w2 := fst wp in
           (snd wp, or_addr (N.shiftl (get_field 6 26 w2) 6)
                      (set_attr [(NonSecure, get_field 4 1 w2); (QoS, get_field 0 4 w2)] r))) (next b p)) (fun pr =>
  rbind (if has_bes op || (chain && (64 <? tail_size (snd pr) (fst pr))) then
           rbind (if chain then Ok 64%nat else size_of (get (r_attr (snd pr)) ReqAttr)) (fun n =>
           parse_be b (fst pr) n (snd pr))
         else Ok pr) (fun pr =>
  let n := tail_size (snd pr) (fst pr) in
  if 0 <? n then
    if is_write_op op || is_atomic_op op || chain then parse_data b (fst pr) n (snd pr) else AssertFail
  else Ok (snd pr))))).

(** MsgRsp::ExtractMessage, l.948-988 *)
Definition rx_rsp (b : list N) (r : rmsg) : res rmsg :=
  rbind (next b 0) (fun wp => let '(w, p) := wp in
  let r := set_attr [(TxnID, get_field 10 12 w); (RespAttr, get_field 4 3 w); (RespOp, get_field 0 3 w)] r in
  rbind (extract_exts false b w p r) (fun x => let '(w, p, r) := x in
  rbind (if 64 <? tail_size r p then parse_be b p 64 r else Ok (p, r)) (fun pr =>
  let n := tail_size (snd pr) (fst pr) in
  if 0 <? n then parse_data b (fst pr) n (snd pr) else Ok (snd pr)))).

(** MsgSnpReq::ExtractMessage, l.1067-1092 *)
Definition rx_snp (b : list N) (r : rmsg) : res rmsg :=
  rbind (next b 0) (fun wp => let '(w, p) := wp in
  let op := get_field 0 4 w in
  let r := set_attr [(TxnID, get_field 10 12 w); (DataRet, get_field 4 1 w); (SnpOp, op)] r in
  rbind (extract_exts true b w p r) (fun x => let '(w, p, r) := x in
  if op =? Op_SnpChain then Ok r else
  let r := or_addr (N.shiftl (get_field 0 20 w) 32) r in
  rmap (fun wp => let w2 := fst wp in
    or_addr (N.shiftl (get_field 6 26 w2) 6) (set_attr [(NonSecure, get_field 4 1 w2)] r)) (next b p))).

(** MsgCrdEx, l.1144-1157; MsgNOP, l.1196-1203 *)
Definition rx_crd (b : list N) (r : rmsg) : res rmsg :=
  rbind (next b 0) (fun wp => let '(w, p) := wp in
  rmap (fun wp => let w2 := fst wp in
    set_attr [(MiscOp, get_field 16 4 w); (DataCredit, get_field 8 8 w); (ReqCredit, get_field 0 8 w);
              (MiscCredit, get_field 8 8 w2); (SnpCredit, get_field 0 8 w2)] r) (next b p)).
Definition rx_nop (b : list N) (r : rmsg) : res rmsg :=
  rmap (fun wp => set_attr [(MiscOp, get_field 16 4 (fst wp))] r) (next b 0).

(** MsgMiscCredited, l.1262-1287: memcpy into Payload[2..31]; PayloadSz is not set *)
Definition rx_misc (b : list N) (r : rmsg) : res rmsg :=
  rbind (next b 0) (fun wp => let '(w, p) := wp in
  let r := set_attr [(MiscCredit, get_field 19 3 w); (MiscOp, get_field 16 4 w)] r in
  let n := tail_size r p in
  if 0 <? n then
    if (n <=? 30) && Nat.leb (p + N.to_nat n) (length b)
    then let pay := [get_field 8 8 w; get_field 0 8 w] ++ slice p (N.to_nat n) b in
         Ok (mkRmsg (r_cmd r) (r_addr r) (r_data r) (r_be r) (r_attr r) (pay ++ repeat 0 (32 - length pay)))
    else UB
  else Ok (mkRmsg (r_cmd r) (r_addr r) (r_data r) (r_be r) (r_attr r)
             ([get_field 8 8 w; get_field 0 8 w] ++ repeat 0 30))).

(** ExtractCCIXMessage, l.1783-1848: NULL is reported as an error, which throws *)
Definition extract (b : list N) (tgt src credit : N) : res rmsg :=
  if Nat.ltb (length b) 4 then AssertFail else
  rbind (new_msg b tgt src credit) (fun r =>
  let w := be_dec (slice 0 4 b) in
  let t := get_field 27 4 w in
  if t =? T_Req then rx_req b r
  else if t =? T_SnpReq then rx_snp b r
  else if (t =? T_Resp) || (t =? T_SnpResp) then rx_rsp b r
  else if t =? T_MiscUnCredited then
    if get_field 16 3 w =? 0 then rx_nop b r
    else if op_in [1; 2] (get_field 16 3 w) then rx_crd b r
    else AssertFail
  else if t =? T_MiscCredited then rx_misc b r
  else AssertFail).

(** IsReqChain, IsSnpReqChain, l.308-318; LookupPrev, SetupReqChain,
    SetupSnpReqChain, l.1858-1917; [prev]: the messages so far, last one first *)
Definition rx_type (r : rmsg) : N := get (r_attr r) MsgType.
Definition is_chain (r : rmsg) : bool :=
  ((rx_type r =? T_Req) && (get (r_attr r) ReqOp =? Op_ReqChain)) ||
  ((rx_type r =? T_SnpReq) && (get (r_attr r) SnpOp =? Op_SnpChain)).
Definition setup_chain (prev : list rmsg) (r : rmsg) : res rmsg :=
  if is_chain r then
    match find (fun q => rx_type q =? rx_type r) prev with
    | Some q => Ok (mkRmsg (r_cmd q) ((r_addr q + 64) mod u64) (r_data r) (r_be r) (r_attr q) (r_pay q))
    | None => AssertFail
    end
  else Ok r.
(** ExtractCCIXMessages, l.1732-1769, with ExtractTLPHeader, l.1772-1781; None: out of
    fuel.  Simplified: m_ccixMsgs is empty when the TLP arrives, so a chained message
    whose TLP holds no earlier one never continues a message of an earlier TLP *)
Fixpoint messages (fuel : nat) (d : list N) (pos : N) (tgt src credit : N) (prev : list rmsg) : option (res (list rmsg)) :=
  match fuel with
  | O => None
  | S f =>
    if pos <? N.of_nat (length d) then
      match rbind (extract (skipn (N.to_nat pos) d) tgt src credit) (setup_chain prev) with
      | Ok r => messages f d (pos + 4 * get (r_attr r) MsgLen) tgt src 0 (r :: prev)
      | AssertFail => Some AssertFail | UB => Some UB | Unmodelled => Some Unmodelled
      end
    else Some (Ok (rev prev))
  end.
Definition extract_tlp (h : hdr) (fuel : nat) (d : list N) : option (res (list rmsg)) :=
  if Nat.ltb (length d) (hdr_size h) then Some UB else
  let w := match h with Comp => word_at d 3 | Opt => word_at d 0 end in
  messages fuel d (N.of_nat (hdr_size h)) (get_field 14 6 w) (get_field 8 6 w) (get_field 24 6 w) [].
