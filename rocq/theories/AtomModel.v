(** A CHI atomic from the payload at a caching requester to memory and back:
    tlm-modules/cache-chi.h (HandleAtomic l.2286-2300, AtomicNonStore and
    AtomicStore l.369-397), private/chi/txns-rn.h (AtomicTxn l.1187-1438, WriteTxn
    for AtomicStore l.792-851 and l.1092-1104), tlm-modules/iconnect-chi.h (the home:
    l.221-281, 472-518, 645-675, 881-934, 1164-1216, 2249-2306, 2403-2502,
    2558-2715, 2911-2938, 3297-3322) and sn-chi.h (SnModel.v).

    Simplified: one transaction at a time, every message in one packet of 64 bytes
    (the return path in smaller packets is [rn_copy] alone), retries repeat the same
    request, at most one cache holds the line ([holder]), the requester's own cache
    or another one, and it answers SnpUnique as in cache-chi.h l.938-980 (UCE and
    UDP left out).  Uninitialised buffers are inputs ([junk]). *)
From Verif Require Import Base TlmModel SnModel.
Open Scope N_scope.

(** The payload and its chiattr extension (chiattr.h l.368-372: Data has 32 bytes). *)
Record apay := mkApay {
  p_op : N; p_addr : N; p_len : N;
  p_data : list N;      (* the data of the payload *)
  p_be : list N;        (* its byte enables, [] when there are none *)
  p_attr : list N;      (* Data of the extension *)
  p_big : bool; p_snp : bool; p_me : bool }.

(** HandleAtomic, cache-chi.h l.2286-2300 *)
Definition p_store (p : apay) : bool := p_op p <? OP_AtomicLoad.
Definition p_compare (p : apay) : bool := p_op p =? OP_AtomicCompare.
Definition MaxDataSz : N := 32.

(** Data and byte enables of a line: [n] bytes of [src] at [off]. *)
Definition put (off n : N) (src : list N) (l : list N * list N) : list N * list N :=
  (overlay (N.to_nat off) (firstn (N.to_nat n) src) (fst l),
   overlay (N.to_nat off) (repeat BE_ON (N.to_nat n)) (snd l)).
Definition blank : list N * list N := (repeat 0 64, repeat BE_OFF 64).

(** The requester: length of the request, data and byte enables of the data
    message.  CopyDataNonCached, txns-rn.h l.821-851, for AtomicStore;
    AtomicTxn::AtomicTxn, l.1196-1288, for the others. *)
Definition en_at (be : list N) (i : nat) : bool :=
  match be with
  | [] => true
  | _ => nth (i mod length be) be 0 =? BE_ON
  end.
Definition rn_store (p : apay) : list N * list N :=
  let off := line_off (p_addr p) in
  let n := N.min (p_len p) (LINE - off) in
  let inside i := (off <=? N.of_nat i) && (N.of_nat i <? off + n) && en_at (p_be p) (i - N.to_nat off) in
  (map (fun i => if inside i then nth (i - N.to_nat off) (p_data p) 0 else 0) (seq 0 64),
   map (fun i => if inside i then BE_ON else BE_OFF) (seq 0 64)).
Definition rn_compare (p : apay) : res (N * (list N * list N)) :=
  let off := line_off (p_addr p) in
  let n := p_len p in
  let len := 2 * n in
  if (n =? 0) || (MaxDataSz <? len) then UB
  else if negb (off mod len =? 0) && (off <? n) then UB
  else
    let so := if off mod len =? 0 then off + n else off - n in
    if (LINE <? off + n) || (LINE <? so + n) then UB
    else Ok (len, put so n (skipn (N.to_nat n) (p_attr p)) (put off n (p_attr p) blank)).
Definition rn_load (p : apay) : res (N * (list N * list N)) :=
  let off := line_off (p_addr p) in
  let n := p_len p in
  if (MaxDataSz <? n) || (LINE <? off + n) then UB
  else Ok (n, put off n (p_attr p) blank).
Definition rn_msg (p : apay) : res (N * (list N * list N)) :=
  if p_store p then Ok (p_len p, rn_store p)
  else if p_compare p then rn_compare p
  else rn_load p.

(** AtomicTxn::CopyDataNonCoherent, txns-rn.h l.1358-1392: m_data and the number
    of bytes copied.  The bytes go to m_data[i], not to m_data[offset + i]. *)
Definition rn_copy (md : list N) (id : N) (data be : list N) : res (list N * N) :=
  let len0 := N.of_nat (length data) in
  let off := (id * len0) mod u32 in
  let maxl := (LINE + u32 - off) mod u32 in
  let len := N.min len0 maxl in
  if negb (length data =? length be)%nat then AssertFail
  else if LINE <? len then UB
  else
    let on i := (N.of_nat i <? len) && (nth i be 0 =? BE_ON) in
    Ok (map (fun i => if on i then nth i data 0 else nth i md 0) (seq 0 (length md)),
        N.of_nat (length (filter on (seq 0 (N.to_nat len))))).
(** HandleRxDat, l.1327-1348, over the packets: m_data and m_received. *)
Fixpoint rn_receive (md : list N) (cnt : N) (l : list (N * list N * list N)) : res (list N * N) :=
  match l with
  | [] => Ok (md, cnt)
  | (id, data, be) :: l' =>
    rbind (rn_copy md id data be) (fun r => rn_receive (fst r) (cnt + snd r) l')
  end.
(** ReadLine, l.1395-1424, at position 0: the data of the payload. *)
Definition rn_read (p : apay) (md : list N) : list N :=
  let off := line_off (p_addr p) in
  let n := N.min (p_len p) (LINE - off) in
  map (fun i => if (N.of_nat i <? n) && en_at (p_be p) i
                then nth (N.to_nat off + i) md 0 else nth i (p_data p) 0)
    (seq 0 (length (p_data p))).

(** The cache that has the line: SC, UC, or UD and SD. *)
Inductive holder := HNone | HShared | HClean (d : list N) | HDirty (d : list N).

(** WriteTxn::Init sets SnpAttr (txns-rn.h l.900-904), AtomicTxn copies it
    (l.1231). *)
Definition rn_snp (p : apay) : bool := p_store p || p_snp p.
(** IsSnoopingReq on atomics, iconnect-chi.h l.508-511; RouteInternal l.3313;
    FillPortsToSnoop l.2915-2928: GetSnpMe (l.322-326) is always false, whatever
    SnoopMe ([p_me]) is. *)
Definition snooping (op : N) : bool := existsb (N.eqb op) [OP_AtomicStore; OP_AtomicLoad; OP_AtomicSwap; OP_AtomicCompare].
Definition snoops (p : apay) (own : bool) : bool := rn_snp p && snooping (p_op p) && negb own.

(** Uninitialised buffers: the byte enables of the home's write-back message, and
    the buffers of the two requests at the slave node. *)
Record junk := mkJunk { j_be : list N; j_wd : list N; j_wb : list N; j_ad : list N; j_ab : list N }.

(** A request to the slave node: ReqTxn l.221-281 (Endian stays at its default). *)
Definition home_req (op addr len : N) : sreq := mkSreq op addr len false 1 false 0 0 0 0.
Definition at_sn (acc : acceptor) (m : mem) (q : sreq) (l : list N * list N) (jd jb : list N)
  : res (mem * list access * option sdat) :=
  rbind (new_txn q jd jb) (fun t =>
  rbind (copy_chunk t (mkChunk 0 0 (fst l) (snd l))) (fun t' => exec acc m t')).

(** The snoop: memory, the length the request then has, the holder.  Data sets the
    length to 64 (CopySnpData, l.665-668); dirty data is written with the atomic's
    address, and byte enables of which none is copied (ProcessSnpdReq l.2251-2263,
    DatMsg l.1178-1180: GetDataReceived is still 0). *)
Definition home_snoop (acc : acceptor) (m : mem) (p : apay) (len : N) (own : bool) (h : holder) (j : junk)
  : res (mem * N * holder) :=
  if snoops p own
  then match h with
       | HNone | HShared => Ok (m, len, HNone)
       | HClean _ => Ok (m, LINE, HNone)
       | HDirty d =>
         rmap (fun r => (fst (fst r), LINE, HNone))
           (at_sn acc m (home_req OP_WriteNoSnpPtl (p_addr p) LINE) (d, j_be j) (j_wd j) (j_wb j))
       end
  else Ok (m, len, h).

(** CopyWriteData for the atomic's own data, l.881-934: disabled bytes become 0. *)
Definition home_data (l : list N * list N) : list N * list N :=
  (map (fun i => if en_at (snd l) i then nth i (fst l) 0 else 0) (seq 0 64),
   map (fun i => if en_at (snd l) i then BE_ON else BE_OFF) (seq 0 64)).

(** The whole: memory, the data of the payload (None: the call does not return),
    the holder. *)
Definition atomic (acc : acceptor) (m : mem) (p : apay) (own : bool) (h : holder) (j : junk)
  : res (mem * option (list N) * holder) :=
  rbind (rn_msg p) (fun msg =>
  rbind (home_snoop acc m p (fst msg) own h j) (fun s =>
  let '(m1, len, h') := s in
  rbind (at_sn acc m1 (home_req (p_op p) (p_addr p) len) (home_data (snd msg)) (j_ad j) (j_ab j)) (fun r =>
  let '(m2, _, d) := r in
  match d with
  | None => Ok (m2, Some (p_data p), h')
  | Some dm =>
    rmap (fun x => (m2, if snd x =? p_len p then Some (rn_read p (fst x)) else None, h'))
      (rn_receive (fst (snd msg)) 0 [(0, d_data dm, match d_be dm with Some be => be | None => [] end)])
  end))).
