(** What a CHI slave node has to do (IHI 0050, 2.10, 4.2, 4.7), stated on memory
    bytes, messages and requests. *)
From Coq Require Import Permutation.
From Verif Require Import Base TlmModel SnModel.
Open Scope N_scope.

(** The eight operations of AtomicStore and AtomicLoad with the sub-opcodes of
    the CHI specification (table 12-16, three bits). *)
Inductive aop := A_ADD | A_CLR | A_EOR | A_SET | A_SMAX | A_SMIN | A_UMAX | A_UMIN.
Definition aop_code (o : aop) : N :=
  match o with
  | A_ADD => 0 | A_CLR => 1 | A_EOR => 2 | A_SET => 3
  | A_SMAX => 4 | A_SMIN => 5 | A_UMAX => 6 | A_UMIN => 7
  end.

(** An [n]-byte number as a signed one. *)
Definition signed (n : N) (v : N) : Z :=
  if v <? 2 ^ (8 * n - 1) then Z.of_N v else (Z.of_N v - Z.of_N (2 ^ (8 * n)))%Z.

(** [r] is the result of operation [o] on the [n]-byte numbers [a] (memory) and
    [b] (operand). *)
Definition atomic_result (o : aop) (n a b r : N) : Prop :=
  r < 2 ^ (8 * n) /\
  match o with
  | A_ADD => exists k, a + b = r + k * 2 ^ (8 * n)
  | A_CLR => forall i, N.testbit r i = N.testbit a i && negb (N.testbit b i)
  | A_EOR => forall i, N.testbit r i = xorb (N.testbit a i) (N.testbit b i)
  | A_SET => forall i, N.testbit r i = N.testbit a i || N.testbit b i
  | A_SMAX => r = if (signed n a <? signed n b)%Z then b else a
  | A_SMIN => r = if (signed n b <? signed n a)%Z then b else a
  | A_UMAX => r = N.max a b
  | A_UMIN => r = N.min a b
  end.

(** Opcodes of AtomicStore ([st]) and AtomicLoad, from 0x28 and 0x30 on; legal
    operand sizes; legal outbound sizes of AtomicCompare. *)
Definition op_base (st : bool) : N := if st then 40 else 48.
Definition op_len (n : N) : Prop := n = 1 \/ n = 2 \/ n = 4 \/ n = 8.
Definition cmp_len (n : N) : Prop := n = 2 \/ n = 4 \/ n = 8 \/ n = 16 \/ n = 32.
(** AtomicCompare: the compare data is at the lanes of the address, the swap data
    in the other half of the naturally aligned outbound window of [n] bytes. *)
Definition other_half (off n : N) : N := off - off mod n + (n / 2 - off mod n).

(** Bytes of memory, and the number they stand for. *)
Definition bytes_at (m : mem) (a n : N) : list N :=
  map (fun i => m (a + N.of_nat i)) (seq 0 (N.to_nat n)).
Fixpoint word_le (l : list N) : N :=
  match l with
  | [] => 0
  | b :: l' => b + 256 * word_le l'
  end.
Definition word (big : bool) (l : list N) : N := word_le (if big then rev l else l).

(** [n] bytes from lane [off] of a data buffer. *)
Definition lanes (l : list N) (off n : N) : list N :=
  map (fun i => nth (N.to_nat off + i) l 0) (seq 0 (N.to_nat n)).

Definition mem_ok (m : mem) : Prop := forall x, m x < 256.
Definition same_outside (m m' : mem) (a n : N) : Prop :=
  forall x, x < a \/ a + n <= x -> m' x = m x.

(** The 64-byte data message that returns the [n] bytes found at [a]: only the
    lanes of [a] are enabled. *)
Definition returns (d : sdat) (m : mem) (a n : N) : Prop :=
  exists be, d_be d = Some be /\ length (d_data d) = 64%nat /\ length be = 64%nat /\
  forall i, (i < 64)%nat ->
    let inside := (a mod 64 <=? N.of_nat i) && (N.of_nat i <? a mod 64 + n) in
    nth i (d_data d) 0 = (if inside then m (a + N.of_nat i - a mod 64) else 0) /\
    nth i be 0 = (if inside then 255 else 0).

(** A data message goes to the return node with the return transaction, names the
    home and the transaction of the request. *)
Definition addressed (q : sreq) (d : sdat) : Prop :=
  d_tgt d = q_retnid q /\ d_txn d = q_rettxn q /\ d_home d = q_src q /\ d_dbid d = q_txn q.

(** A request whose buffers are complete. *)
Definition buffers (t : stx) : Prop := length (t_data t) = 64%nat /\ length (t_be t) = 64%nat.

(** *** Data messages of one write: [k] chunks of [w] bytes. *)
Definition chunk_on (c : chunk) (i : nat) : bool :=
  match c_be c with
  | [] => true
  | be => nth (i mod length be) be 0 =? 255
  end.
(** The chunks of a line, in any order: every one [w] bytes, all numbers once. *)
Definition line_chunks (w : nat) (cs : list chunk) : Prop :=
  Forall (fun c => length (c_data c) = w) cs /\
  Permutation (map c_id cs) (map N.of_nat (seq 0 (64 / w))).
(** Data and enable of byte [i] of the line. *)
Fixpoint line_byte (w : nat) (cs : list chunk) (i : nat) : option (N * bool) :=
  match cs with
  | [] => None
  | c :: cs' =>
    if c_id c =? N.of_nat (i / w)
    then Some (nth (i mod w) (c_data c) 0, chunk_on c (i mod w))
    else line_byte w cs' i
  end.

(** *** Requests and answers. *)

(** The requests that are taken and those that are told to retry: of those that
    allow it, the first, third, ... are sent back. *)
Fixpoint taken (tog : bool) (ls : list slabel) : list sreq :=
  match ls with
  | [] => []
  | LReq q _ _ :: ls' =>
    if q_retry q
    then if tog then q :: taken false ls' else taken true ls'
    else q :: taken tog ls'
  | _ :: ls' => taken tog ls'
  end.
Fixpoint retried (tog : bool) (ls : list slabel) : list sreq :=
  match ls with
  | [] => []
  | LReq q _ _ :: ls' =>
    if q_retry q
    then if tog then retried false ls' else q :: retried true ls'
    else retried tog ls'
  | _ :: ls' => retried tog ls'
  end.

(** Kinds of requests by opcode (CHI, table 12-14): ReadNoSnp and ReadNoSnpSep;
    CleanShared, CleanInvalid, MakeInvalid and CleanSharedPersist; the atomics that
    return data, AtomicLoad to AtomicCompare. *)
Definition k_read (q : sreq) : bool := existsb (N.eqb (q_op q)) [4; 17].
Definition k_cmo (q : sreq) : bool := existsb (N.eqb (q_op q)) [8; 9; 10; 39].
Definition k_returning (q : sreq) : bool := (48 <=? q_op q) && (q_op q <? 58).

(** The answer on the response channel that a request is owed: a read has a
    receipt if it asks for one with Order 1 or is a ReadNoSnpSep. *)
Definition answer (q : sreq) : list rkind :=
  if k_read q then (if (q_order q =? 1) || (q_op q =? 17) then [R_ReadReceipt] else [])
  else if k_cmo q then [R_Comp]
  else if k_returning q then [R_DBIDResp]
  else [R_CompDBIDResp].
(** ... and on the data channel, when it has been carried out. *)
Definition owes_data (q : sreq) : bool := k_read q || k_returning q.

Definition is_retry_rsp (r : srsp) : bool :=
  match rs_kind r with R_RetryAck | R_PCrdGrant => true | _ => false end.
Definition rsp_head (r : srsp) : rkind * N * N := (rs_kind r, rs_tgt r, rs_txn r).
Definition dat_head (d : sdat) : N * N * N * N := (d_tgt d, d_txn d, d_home d, d_dbid d).
Definition heads (q : sreq) : list (rkind * N * N) :=
  map (fun k => (k, q_src q, q_txn q)) (answer q).
