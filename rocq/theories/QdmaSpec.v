(** What a QDMA queue does for its driver, without reference to how. *)
From Verif Require Import Base.
Open Scope N_scope.

Definition memory := N -> N.

(** [w] bits of a structure, from bit [lo]. *)
Definition field (c lo w : N) : N := (c / 2 ^ lo) mod 2 ^ w.
Definition flag (c lo : N) : bool := N.odd (c / 2 ^ lo).

(** The value of [k] little-endian bytes in memory. *)
Fixpoint value (m : memory) (a : N) (k : nat) : N :=
  match k with O => 0 | S k' => m (a mod 2 ^ 64) + 256 * value m (a + 1) k' end.

(** A descriptor: where from, where to, how many bytes. *)
Definition d_src (m : memory) (a : N) : N := value m a 8.
Definition d_cnt (m : memory) (a : N) : N := value m (a + 8) 8 mod 2 ^ 28.
Definition d_dst (m : memory) (a : N) : N := value m (a + 16) 8.

(** How far [x] is past [a] in a 64-bit address space. *)
Definition past (a x : N) : N := (x + 2 ^ 64 - a mod 2 ^ 64) mod 2 ^ 64.

(** [n] bytes of [from] at [src] put in [to] at [dst]. *)
Definition moved (from to : memory) (src dst n : N) : memory :=
  fun x => if past dst x <? n then from ((src + past dst x) mod 2 ^ 64) else to x.

(** The descriptors a driver posted: from [c] up to [p], round a ring of [size]. *)
Definition posted (c p size : N) : N := (p + size - c) mod size.
Definition nth_posted (c size : N) (k : nat) : N := (c + N.of_nat k) mod size.
Definition batch (c p size : N) : list N :=
  map (nth_posted c size) (seq 0 (N.to_nat (posted c p size))).

(** Host and card after the descriptors of a list, one after the other. *)
Definition one (h2c : bool) (base dsz : N) (w : memory * memory) (i : N) : memory * memory :=
  let a := base + dsz * i in
  let (H, C) := w in
  if h2c then (H, moved H C (d_src H a) (d_dst H a) (d_cnt H a))
  else (moved C H (d_src H a) (d_dst H a) (d_cnt H a), C).
Definition all (h2c : bool) (base dsz : N) (l : list N) (w : memory * memory) : memory * memory :=
  fold_left (one h2c base dsz) l w.

(** Every count met on the way is a multiple of 4. *)
Fixpoint whole_words (h2c : bool) (base dsz : N) (l : list N) (w : memory * memory) : Prop :=
  match l with
  | [] => True
  | i :: l' => d_cnt (fst w) (base + dsz * i) mod 4 = 0 /\
               whole_words h2c base dsz l' (one h2c base dsz w i)
  end.

(** Bytes put in a memory. *)
Definition placed (m : memory) (a : N) (d : list N) : memory :=
  fun x => if past a x <? N.of_nat (length d) then nth (N.to_nat (past a x)) d 0 else m x.

(** The number of descriptors of a ring, by its code in the context. *)
Definition descriptors (code : N) : N :=
  nth (N.to_nat code)
    [2048; 64; 128; 192; 256; 384; 512; 768; 1024; 1536; 3072; 4096; 6144; 8192; 12288; 16384] 0.

(** A queue's software context, product guide PG347. *)
Definition g_size (c : N) : N := descriptors (field c 44 4).
Definition g_dsz (c : N) : N := 8 * 2 ^ field c 48 2.
Definition g_writeback (c : N) : bool := flag c 52.
Definition g_interrupt (c : N) : bool := flag c 16 && flag c 53.
Definition g_base (c : N) : N := field c 64 64.

(** The completion status of a ring: two error bits cleared, consumed index in bytes 2-3,
    produced index in bytes 4-5, the rest as it was. *)
Definition status_at (m m' : memory) (a cidx pidx : N) : Prop :=
  field (m' (a mod 2 ^ 64)) 0 2 = 0 /\
  field (m' (a mod 2 ^ 64)) 2 6 = field (m (a mod 2 ^ 64)) 2 6 /\
  value m' (a + 2) 2 = cidx /\ value m' (a + 4) 2 = pidx /\
  (forall x, x < 2 ^ 64 -> past a x <> 0 -> (past a x < 2 \/ 6 <= past a x) -> m' x = m x).

(** ** Interrupt rings *)
Record ring_cfg := mkRing { rg_valid : bool; rg_vector : N; rg_color : bool; rg_base : N;
                            rg_slots : N }.
Definition ring_of (cpm4 : bool) (c : N) : ring_cfg :=
  if cpm4
  then mkRing (flag c 0) (field c 1 5) (flag c 8) (field c 9 52 * 4096)
              ((1 + field c 61 3) * 512)
  else mkRing (flag c 0) (field c 1 11) (flag c 14) (field c 15 52 * 4096)
              ((1 + field c 67 3) * 512).

(** What a driver reads in an entry. *)
Record notice := mkNotice { n_q : N; n_c2h : bool; n_cidx : N; n_pidx : N }.
Definition read_notice (cpm4 : bool) (e : N) : notice :=
  if cpm4
  then mkNotice (field e 52 11) (flag e 51) (field e 16 16) (field e 0 16)
  else mkNotice (field e 39 24) (flag e 38) (field e 16 16) (field e 0 16).
Definition color_of (e : N) : bool := flag e 63.
Definition slot (m : memory) (base slots : N) (k : N) : N :=
  value m (base + 8 * (k mod slots)) 8.
(** The colour a driver waits for in its [k]-th entry, starting with 1. *)
Definition awaited (slots k : N) : bool := N.even (k / slots).

(** The ring after one more entry: the next slot, the other colour after the last one. *)
Definition next_slot (R : ring_cfg) (k : N) : N := if k + 1 =? rg_slots R then 0 else k + 1.
Definition next_ring (R : ring_cfg) (k : N) : ring_cfg :=
  if k + 1 =? rg_slots R
  then mkRing (rg_valid R) (rg_vector R) (negb (rg_color R)) (rg_base R) (rg_slots R)
  else R.
