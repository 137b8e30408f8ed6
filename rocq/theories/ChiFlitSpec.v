(** The flits of AMBA CHI (chapter 12.9: flit packet definitions), by position. *)
From Verif Require Import Base ChiFlitModel.
Open Scope N_scope.

(** The value of the bits from [pos] on. *)
Definition bits_of (f pos w : N) : N := (f / 2 ^ pos) mod 2 ^ w.
Definition bit_of (f pos : N) : bool := N.testbit f pos.

(** ** Requests: fields in range *)
Definition req_fits (n a r : N) (x : req) : Prop :=
  q_qos x < 2 ^ 4 /\ q_tgt x < 2 ^ n /\ q_src x < 2 ^ n /\ q_txn x < 2 ^ 8 /\
  q_rnid x < 2 ^ n /\ q_rtxn x < 2 ^ 8 /\ q_opc x < 2 ^ 6 /\
  (exists i, i <= 6 /\ q_len x = 2 ^ i) /\ q_addr x < 2 ^ a /\ q_order x < 2 ^ 2 /\
  q_pcrd x < 2 ^ 4 /\ q_lpid x < 2 ^ 5 /\ q_rsvdc x < 2 ^ r.
Definition req_at (n a r f : N) (x : req) : Prop :=
  bits_of f 0 4 = q_qos x /\ bits_of f 4 n = q_tgt x /\ bits_of f (4 + n) n = q_src x /\
  bits_of f (4 + 2 * n) 8 = q_txn x /\ bits_of f (12 + 2 * n) n = q_rnid x /\
  bit_of f (12 + 3 * n) = q_snv x /\ bits_of f (13 + 3 * n) 8 = q_rtxn x /\
  bits_of f (21 + 3 * n) 6 = q_opc x /\ 2 ^ bits_of f (27 + 3 * n) 3 = q_len x /\
  bits_of f (30 + 3 * n) a = q_addr x /\ bit_of f (30 + 3 * n + a) = q_ns x /\
  bit_of f (31 + 3 * n + a) = q_likely x /\ bit_of f (32 + 3 * n + a) = q_retry x /\
  bits_of f (33 + 3 * n + a) 2 = q_order x /\ bits_of f (35 + 3 * n + a) 4 = q_pcrd x /\
  bit_of f (39 + 3 * n + a) = q_ewa x /\ bit_of f (40 + 3 * n + a) = q_dev x /\
  bit_of f (41 + 3 * n + a) = q_cache x /\ bit_of f (42 + 3 * n + a) = q_alloc x /\
  bit_of f (43 + 3 * n + a) = q_snp x /\ bits_of f (44 + 3 * n + a) 5 = q_lpid x /\
  bit_of f (49 + 3 * n + a) = q_excl x /\ bit_of f (50 + 3 * n + a) = q_ack x /\
  bit_of f (51 + 3 * n + a) = q_trace x /\ bits_of f (52 + 3 * n + a) r = q_rsvdc x.

(** ** Responses *)
Definition rsp_fits (n : N) (x : rsp) : Prop :=
  p_qos x < 2 ^ 4 /\ p_tgt x < 2 ^ n /\ p_src x < 2 ^ n /\ p_txn x < 2 ^ 8 /\
  p_opc x < 2 ^ 4 /\ p_err x < 2 ^ 2 /\ p_resp x < 2 ^ 3 /\ p_fwd x < 2 ^ 3 /\
  p_dbid x < 2 ^ 8 /\ p_pcrd x < 2 ^ 4.
Definition rsp_at (n f : N) (x : rsp) : Prop :=
  bits_of f 0 4 = p_qos x /\ bits_of f 4 n = p_tgt x /\ bits_of f (4 + n) n = p_src x /\
  bits_of f (4 + 2 * n) 8 = p_txn x /\ bits_of f (12 + 2 * n) 4 = p_opc x /\
  bits_of f (16 + 2 * n) 2 = p_err x /\ bits_of f (18 + 2 * n) 3 = p_resp x /\
  bits_of f (21 + 2 * n) 3 = p_fwd x /\ bits_of f (24 + 2 * n) 8 = p_dbid x /\
  bits_of f (32 + 2 * n) 4 = p_pcrd x /\ bit_of f (36 + 2 * n) = p_trace x.

(** ** Snoops: the address without its low three bits *)
Definition snp_fits (n a : N) (x : snp) : Prop :=
  s_qos x < 2 ^ 4 /\ s_src x < 2 ^ n /\ s_txn x < 2 ^ 8 /\ s_fnid x < 2 ^ n /\
  s_ftxn x < 2 ^ 8 /\ s_opc x < 2 ^ 5 /\ s_addr x < 2 ^ (a + 3) /\ s_addr x mod 8 = 0.
Definition snp_at (n a f : N) (x : snp) : Prop :=
  bits_of f 0 4 = s_qos x /\ bits_of f 4 n = s_src x /\ bits_of f (4 + n) 8 = s_txn x /\
  bits_of f (12 + n) n = s_fnid x /\ bits_of f (12 + 2 * n) 8 = s_ftxn x /\
  bits_of f (20 + 2 * n) 5 = s_opc x /\ 8 * bits_of f (25 + 2 * n) a = s_addr x /\
  bit_of f (25 + 2 * n + a) = s_ns x /\ bit_of f (26 + 2 * n + a) = s_nosd x /\
  bit_of f (27 + 2 * n + a) = s_ret x /\ bit_of f (28 + 2 * n + a) = s_trace x.

(** ** Data *)
Definition dat_fits (p : dpar) (x : dat) : Prop :=
  d_qos x < 2 ^ 4 /\ d_tgt x < 2 ^ w_n p /\ d_src x < 2 ^ w_n p /\ d_txn x < 2 ^ 8 /\
  d_home x < 2 ^ w_n p /\ d_opc x < 2 ^ w_o p /\ d_err x < 2 ^ 2 /\ d_resp x < 2 ^ 3 /\
  d_fwd x < 2 ^ 3 /\ d_dbid x < 2 ^ 8 /\ d_ccid x < 2 ^ 2 /\ d_rsvdc x < 2 ^ w_r p /\
  d_check x < 2 ^ w_k p /\ d_poison x < 2 ^ w_z p.
(** The attributes of a received packet equal those sent; the first flit has DataID 0. *)
Definition same_attr (x y : dat) : Prop :=
  d_qos y = d_qos x /\ d_tgt y = d_tgt x /\ d_src y = d_src x /\ d_txn y = d_txn x /\
  d_home y = d_home x /\ d_opc y = d_opc x /\ d_err y = d_err x /\ d_resp y = d_resp x /\
  d_fwd y = d_fwd x /\ d_dbid y = d_dbid x /\ d_ccid y = d_ccid x /\ d_dataid y = 0 /\
  d_trace y = d_trace x /\ d_rsvdc y = d_rsvdc x /\ d_check y = d_check x /\
  d_poison y = d_poison x.
(** Which bytes of a payload count. *)
Definition enabled (be : list bool) (len : N) (i : nat) : bool :=
  match be with
  | [] => N.of_nat i <? len
  | _ => nth (i mod length be) be false
  end.
(** The data of the payload arrive in their lanes, the enables cover the bus. *)
Definition same_data (b : N) (buf : list N) (len : N) (be : list bool) (y : dat) : Prop :=
  length (d_be y) = N.to_nat b /\ length (d_data y) = N.to_nat b /\
  (forall i, (i < N.to_nat b)%nat -> nth i (d_be y) false = enabled be len i) /\
  (forall i, (i < N.to_nat len)%nat -> nth i (d_data y) 0 = nth i buf 0).
