(** What software sees of the HSC: registers, keys and their digests, and the MACsec
    frames on the stream ports.  The functions under test are named by their interface
    only (requests, pins, frames). *)
From Coq Require Import ZArith.
From Verif Require Import Base CrcSpec HscModel.
Open Scope N_scope.

(** 32-bit accesses *)
Definition read32 (a : N) : gp := mkGp CRead a [0; 0; 0; 0] false 4.
Definition write32 (a v : N) : gp := mkGp CWrite a (le_enc 4 v) false 4.
(** A 32-bit read of register number j succeeds and returns d. *)
Definition shows (h : hsc) (j : N) (d : list N) : Prop :=
  exists h', user_if h (read32 (4 * j)) = Ok (h', d, true).
Definition is_control (i : N) : Prop := 4 * i = 0x4000 \/ 4 * i = 0x6000.
Definition is_read_only (i : N) : Prop :=
  i = 0 \/ (0x4C00 <= 4 * i < 0x4C20) \/ (0x6C00 <= 4 * i < 0x6C20).
(** A transaction the register interface has to refuse *)
Definition malformed (g : gp) : Prop :=
  g_be g = true \/ (4 < length (g_data g))%nat \/ g_sw g < N.of_nat (length (g_data g)) \/
  0x7D04 <= g_addr g \/ g_cmd g = CIgnore.

(** How software stores eight words as the key of SA n, and asks for its digest *)
Definition base (tx : bool) : N := if tx then 0x4000 else 0x6000.
Definition program (tx : bool) (n : N) (ws : list N) : list hev :=
  map (fun i => User (write32 (base tx + 0x800 + 4 * N.of_nat i) (nth i ws 0))) (seq 0 8)
  ++ [User (write32 (base tx) (3 + 256 * n))].
Definition digest (tx : bool) (n : N) : list hev :=
  [User (write32 (base tx) (1 + 256 * n)); User (read32 (base tx + 0xC00))].
Definition words (ws : list N) : Prop := length ws = 8%nat /\ Forall (fun w => w < 2 ^ 32) ws.
Definition bytes_of (ws : list N) : list N := flat_map (le_enc 4) ws.
(** the answer to the last request *)
Definition final (r : res (hsc * list hout)) : option hout :=
  match r with Ok (_, o) => nth_error (rev o) 0 | _ => None end.
(** The request starts a transfer that computes the digest of a key. *)
Definition asks_digest (g : gp) : Prop :=
  g_cmd g = CWrite /\ (g_addr g / 4 = 0x1000 \/ g_addr g / 4 = 0x1800) /\ le_dec (g_data g) mod 16 = 1.
Definition no_digest (e : hev) : Prop :=
  match e with User g => ~ asks_digest g | Rst => True | Stream _ _ _ _ _ => False end.
Definition answers (r : res (hsc * list hout)) : res (list hout) := rmap snd r.

(** States after a reset and anything that did not stop the program *)
Definition reachable (h : hsc) : Prop := exists h0 es o, hrun (reset h0) es = Ok (h, o).
(** A transaction that port takes: a write to address 0 without byte enables, port 0 not
    in channelized mode, crypto mode MACsec *)
Definition taken (tx : bool) (h : hsc) (port : N) (p : pins) (g : gp) : Prop :=
  port < 4 /\ g_cmd g = CWrite /\ g_addr g = 0 /\ g_be g = false /\ p_mode p mod 4 = 0 /\
  (port = 0 -> h_regs h (if tx then 0x400 else 0x401) <> 2).
(** The key that the pins select *)
Definition selected (h : hsc) (tx : bool) (p : pins) : list N :=
  if p_sa p <? 1024 then key_bytes (h_keys h tx) (p_sa p) else p_ext p.
(** Bytes from [from] on are combined with the key, of which ks bytes count. *)
Fixpoint masked_at (key : list N) (ks from i : nat) (d : list N) : list N :=
  match d with
  | [] => []
  | b :: d' => (if (i <? from)%nat then b else N.lxor b (nth (i mod ks) key 0)) :: masked_at key ks from (S i) d'
  end.
Definition masked (key : list N) (ks from : nat) (d : list N) : list N := masked_at key ks from 0 d.
Definition first_secret (p : pins) (len : nat) : nat :=
  if p_byp p || p_auth p then len else if p_conf p =? 30 then 54%nat else 12%nat.
Definition tag (p : pins) : list N :=
  [0x88; 0xE5; p_tci p * 4 + p_an p; if p_slen p =? 0 then 0 else 1]
  ++ le_enc 4 (p_pn p) ++ le_enc 8 (p_sci p).
(** Pins within their widths, the SA below the sign bit, AN 0 or 1 *)
Definition pins_ok (p : pins) : Prop :=
  p_suite p < 4 /\ p_conf p < 64 /\ p_sa p < 2 ^ 19 /\ p_tci p < 64 /\ p_an p < 2 /\ p_slen p < 256.
Definition size_in_use (p : pins) : nat := if p_suite p =? 0 then 16 else 32.
(** The frame on the encrypted side; the 16 bytes of the ICV are never written. *)
Definition wire (key : list N) (p : pins) (data : list N) (eop : bool) : list (option N) :=
  map Some (firstn 12 data ++ tag p
    ++ skipn 12 (masked key (size_in_use p) (first_secret p (length data)) data))
  ++ repeat None (if eop then 16 else 0).
(** The bytes w may be what was sent as d. *)
Definition carries (d : list (option N)) (w : list N) : Prop :=
  Forall2 (fun o b => match o with Some x => b = x | None => True end) d w.
Definition put (d : list N) : gp := mkGp CWrite 0 d false 4.
