(** Scatter-gather DMA seen by its driver: descriptors in memory, packets, the
    registers of a channel, interrupts.  Only the types of the model are used. *)
From Verif Require Import Base TlmModel TlmSpec McdmaModel.
Open Scope N_scope.

(** Memory contents: [n] bytes, and a little-endian number of [k] bytes. *)
Definition bytes_at (m : mem) (a : N) (n : nat) : list N :=
  map (fun i => m (a + N.of_nat i)) (seq 0 n).
Fixpoint le_at (m : mem) (a : N) (k : nat) : N :=
  match k with O => 0 | S k' => m a + 256 * le_at m (a + 1) k' end.
Definition mem_ok (m : mem) : Prop := forall x, m x < 256.

(** Descriptor at [a]: next descriptor, buffer, control word (length in the low
    26 bits, end of packet in bit 30), status word (at 28 for MM2S, 24 for S2MM;
    bit 31: completed). *)
Definition d_size : N := 52.
Definition d_next (m : mem) (a : N) : N := le_at m a 8.
Definition d_buffer (m : mem) (a : N) : N := le_at m (a + 8) 8.
Definition d_ctrl (m : mem) (a : N) : N := le_at m (a + 20) 4.
Definition d_len (m : mem) (a : N) : N := d_ctrl m a mod 2 ^ 26.
Definition d_eop (m : mem) (a : N) : bool := N.testbit (d_ctrl m a) 30.
Definition tx_status (m : mem) (a : N) : N := le_at m (a + 28) 4.
Definition rx_status (m : mem) (a : N) : N := le_at m (a + 24) 4.

(** The packet a descriptor of channel [c] stands for. *)
Definition packet_of (m : mem) (c : nat) (a : N) : packet :=
  mkPkt c (bytes_at m (d_buffer m a) (N.to_nat (d_len m a))) (d_eop m a).
Definition of_channel (c : nat) (out : list packet) : list packet :=
  filter (fun p => (p_ch p =? c)%nat) out.

Definition within (a n x : N) : Prop := a <= x < a + n.
Definition apart (a n b k : N) : Prop := forall x, ~ (within a n x /\ within b k x).

(** Each descriptor points to the following one; the last one points to [z]. *)
Fixpoint linked (m : mem) (l : list N) (z : N) : Prop :=
  match l with
  | [] => True
  | a :: l' => d_next m a = hd z l' /\ linked m l' z
  end.

(** [chains c]: the descriptors handed to channel [c], in order.  They are fresh,
    their data fits the engine's buffer, and no descriptor overlaps another or
    any data. *)
Definition handed (nch : nat) (chains : nat -> list N) (c : nat) (a : N) : Prop :=
  (c < nch)%nat /\ In a (chains c).
Record posted (bad : N -> bool) (nch : nat) (chains : nat -> list N) (m : mem) : Prop := {
  po_bytes : mem_ok m;
  po_none : forall c, (nch <= c)%nat -> chains c = [];
  po_links : forall c, exists z, linked m (chains c) z;
  po_nodup : forall c, NoDup (chains c);
  po_fresh : forall c a, handed nch chains c a -> tx_status m a = 0;
  po_len : forall c a, handed nch chains c a -> d_len m a <= 131072;
  po_fits : forall c a, handed nch chains c a ->
    a + d_size <= u64 /\ d_buffer m a + d_len m a <= u64;
  po_good : forall c a, handed nch chains c a ->
    (forall x, within a d_size x -> bad x = false) /\
    (forall x, within (d_buffer m a) (d_len m a) x -> bad x = false);
  po_apart : forall c a c' a', handed nch chains c a -> handed nch chains c' a' ->
    (c, a) <> (c', a') -> apart a d_size a' d_size;
  po_data : forall c a c' a', handed nch chains c a -> handed nch chains c' a' ->
    apart a d_size (d_buffer m a') (d_len m a') }.

(** The bytes the engine relies on. *)
Definition owned (nch : nat) (chains : nat -> list N) (m0 : mem) (x : N) : Prop :=
  exists c a, handed nch chains c a /\
    (within a d_size x \/ within (d_buffer m0 a) (d_len m0 a) x).

(** The registers that control MM2S channel [c]: run/stop of the engine, channel
    enable, run/stop of the channel, idle, current and tail descriptor. *)
Record control := mkControl {
  k_rs : bool; k_en : bool; k_run : bool; k_idle : bool; k_cur : N; k_tail : N }.
Definition ctl (regs : list N) (c : nat) : control :=
  let r i := nth i regs 0 in
  mkControl (N.testbit (r 0%nat) 0) (N.testbit (r 2%nat) (N.of_nat c))
            (N.testbit (r (16 + 16 * c)%nat) 0) (N.testbit (r (17 + 16 * c)%nat) 0)
            (r (18 + 16 * c)%nat + u32 * r (19 + 16 * c)%nat)
            (r (20 + 16 * c)%nat + u32 * r (21 + 16 * c)%nat).
(** Interrupt-on-complete flag of MM2S channel [c] *)
Definition ioc (regs : list N) (c : nat) : bool := N.testbit (nth (17 + 16 * c) regs 0) 5.

Definition regs_ok (regs : list N) : Prop :=
  length regs = NREGS /\ Forall (fun v => v < u32) regs.

(** The registers before the engine starts: a channel with descriptors is on and
    points to the first and last of them; the others are off or idle. *)
Definition armed (nch : nat) (chains : nat -> list N) (regs : list N) : Prop :=
  forall c, (c < nch)%nat ->
    match chains c with
    | [] => let k := ctl regs c in k_rs k && k_en k && k_run k && negb (k_idle k) = false
    | a :: l => ctl regs c = mkControl true true true false a (last l a)
    end.

(** What others may do meanwhile: anything that leaves the control registers and
    the owned bytes alone; they may also notify ev_dma. *)
Definition quiet (nch : nat) (chains : nat -> list N) (m0 : mem) (s s' : state) : Prop :=
  (t_pc s' = t_pc s \/ (t_pc s = P_wait /\ t_pc s' = P_ready)) /\
  t_out s' = t_out s /\ t_buf s' = t_buf s /\ regs_ok (t_regs s') /\ mem_ok (t_mem s') /\
  (forall c, (c < nch)%nat -> ctl (t_regs s') c = ctl (t_regs s) c) /\
  (forall x, owned nch chains m0 x -> t_mem s' x = t_mem s x).

(** Runs of the engine: [n] steps of its thread (none while it waits), [w]
    notifications of ev_dma, any quiet steps in between. *)
Inductive runs (bad : N -> bool) (nch : nat) (chains : nat -> list N) (m0 : mem)
  : state -> nat -> nat -> state -> Prop :=
| runs_nil s : runs bad nch chains m0 s 0 0 s
| runs_thread s n w s' s'' :
    runs bad nch chains m0 s n w s' -> t_pc s' <> P_wait -> step bad nch L_thread s' = Ok s'' ->
    runs bad nch chains m0 s (S n) w s''
| runs_quiet s n w s' s'' :
    runs bad nch chains m0 s n w s' -> quiet nch chains m0 s' s'' ->
    runs bad nch chains m0 s n (match t_pc s', t_pc s'' with P_wait, P_ready => S w | _, _ => w end) s''.

(** Memory after the first [k c] descriptors of every channel: their status
    words say completed with the length, every other owned byte is as before. *)
Definition marked (nch : nat) (chains : nat -> list N) (m0 : mem) (k : nat -> nat) (m : mem) : Prop :=
  (forall c i, (c < nch)%nat -> (i < k c)%nat -> (i < length (chains c))%nat ->
     let a := nth i (chains c) 0 in tx_status m a = 2 ^ 31 + d_len m0 a) /\
  (forall x, owned nch chains m0 x ->
     (forall c i, (c < nch)%nat -> (i < k c)%nat -> (i < length (chains c))%nat ->
        ~ within (nth i (chains c) 0 + 28) 4 x) -> m x = m0 x).

(** S2MM, channel [c]: the registers that control it. *)
Definition rctl (regs : list N) (c : nat) : control :=
  let r i := nth i regs 0 in
  mkControl (N.testbit (r 320%nat) 0) (N.testbit (r 322%nat) (N.of_nat c))
            (N.testbit (r (336 + 16 * c)%nat) 0) (N.testbit (r (337 + 16 * c)%nat) 1)
            (r (338 + 16 * c)%nat + u32 * r (339 + 16 * c)%nat)
            (r (340 + 16 * c)%nat + u32 * r (341 + 16 * c)%nat).
Definition rioc (regs : list N) (c : nat) : bool := N.testbit (nth (337 + 16 * c) regs 0) 5.

(** Memory after packet [d] was received into the descriptor at [a]: the data at
    its buffer; completed, first and last descriptor of the packet, and the
    length in its status word; nothing else changed. *)
Definition received (m : mem) (a : N) (d : list N) (m' : mem) : Prop :=
  bytes_at m' (d_buffer m a) (length d) = d /\
  rx_status m' a = 2 ^ 31 + 2 ^ 27 + 2 ^ 26 + N.of_nat (length d) /\
  forall x, ~ within (d_buffer m a) (N.of_nat (length d)) x -> ~ within (a + 24) 4 x -> m' x = m x.

(** Interrupts: channel [c] requests one when an enabled flag (bits 5 to 7 of the
    status and control registers) is set. *)
Definition requests (regs : list N) (sr cr : nat) : bool :=
  existsb (fun k => N.testbit (nth sr regs 0) k && N.testbit (nth cr regs 0) k) [5; 6; 7].
Definition mm2s_requests (regs : list N) (c : nat) : bool := requests regs (17 + 16 * c) (16 + 16 * c).
Definition s2mm_requests (regs : list N) (c : nat) : bool := requests regs (337 + 16 * c) (336 + 16 * c).

(** Bus writes of a driver. *)
Definition write32 (a v : N) : gp := mkGp C_WRITE a (le_enc 4 v) None 4 St_INCOMPLETE.
Definition read32 (a : N) : gp := mkGp C_READ a [0; 0; 0; 0] None 4 St_INCOMPLETE.

(** Bring channel [c] up with a chain from [first] to [last]: engine on, channel
    enabled, current descriptor, channel on with its interrupt, tail. *)
Definition start_mm2s (c : nat) (first last : N) : list gp :=
  let b := 64 + 64 * N.of_nat c in
  [write32 0 1; write32 8 (2 ^ N.of_nat c); write32 (b + 8) (first mod u32); write32 (b + 12) (first / u32);
   write32 b 33; write32 (b + 16) (last mod u32); write32 (b + 20) (last / u32)].

(** Descriptors handed to an S2MM channel: fresh, in order, nothing overlapping. *)
Record rx_posted (bad : N -> bool) (l : list N) (m : mem) : Prop := {
  rp_links : exists z, linked m l z;
  rp_nodup : NoDup l;
  rp_fresh : forall a, In a l -> N.testbit (rx_status m a) 31 = false;
  rp_fits : forall a, In a l -> a + d_size <= u64 /\ d_buffer m a + d_len m a <= u64;
  rp_good : forall a, In a l -> (forall x, within a d_size x -> bad x = false) /\
                                (forall x, within (d_buffer m a) (d_len m a) x -> bad x = false);
  rp_apart : forall a a', In a l -> In a' l -> a <> a' -> apart a d_size a' d_size;
  rp_data : forall a a', In a l -> In a' l -> apart a d_size (d_buffer m a') (d_len m a');
  rp_bufs : forall a a', In a l -> In a' l -> a <> a' ->
    apart (d_buffer m a) (d_len m a) (d_buffer m a') (d_len m a') }.

(** Packets that fit the descriptors they meet; [None] for no descriptor. *)
Fixpoint fitting (m : mem) (l : list N) (ds : list (list N)) : Prop :=
  match ds, l with
  | [], _ => True
  | d :: ds', [] => N.of_nat (length d) < 2 ^ 31 /\ fitting m [] ds'
  | d :: ds', a :: l' => (d <> [] /\ bytes_ok d /\ N.of_nat (length d) <= d_len m a) /\ fitting m l' ds'
  end.

(** Memory after packets [ds] were received into the descriptors [l], one each;
    packets without descriptor are lost. *)
Definition all_received (m : mem) (l : list N) (ds : list (list N)) (m' : mem) : Prop :=
  (forall i a d, nth_error l i = Some a -> nth_error ds i = Some d ->
     bytes_at m' (d_buffer m a) (length d) = d /\
     rx_status m' a = 2 ^ 31 + 2 ^ 27 + 2 ^ 26 + N.of_nat (length d)) /\
  (forall x, (forall i a d, nth_error l i = Some a -> nth_error ds i = Some d ->
     ~ within (d_buffer m a) (N.of_nat (length d)) x /\ ~ within (a + 24) 4 x) -> m' x = m x).

(** Registers of an S2MM channel with descriptors [l] left and tail [tl]. *)
Definition rx_armed (regs : list N) (c : nat) (l : list N) : Prop :=
  match l with
  | [] => let k := rctl regs c in k_rs k && k_en k && k_run k && negb (k_idle k) = false
  | a :: l' => rctl regs c = mkControl true true true false a (last l' a)
  end.

(** MM2S is set up: the engine is about to look at its channels, [m0] holds the
    descriptors and data, the registers point to the chains. *)
Record ready (nch : nat) (chains : nat -> list N) (m0 : mem) (s : state) : Prop := {
  rd_mem : mem_ok (t_mem s);
  rd_same : forall x, owned nch chains m0 x -> t_mem s x = m0 x;
  rd_regs : regs_ok (t_regs s);
  rd_buf : N.of_nat (length (t_buf s)) = 131072;
  rd_pc : t_pc s = P_ready;
  rd_armed : armed nch chains (t_regs s) }.

(** All descriptors of a set of chains. *)
Definition total (nch : nat) (chains : nat -> list N) : nat :=
  list_sum (map (fun c => length (chains c)) (seq 0 nch)).
(** The chains with which only channel [c] has work. *)
Definition only (c : nat) (l : list N) : nat -> list N := fun x => if (x =? c)%nat then l else [].

(** Steps other than resets; with [b], no writes to S2MM_INTR_STATUS (0x520). *)
Definition no_reset (b : bool) (l : label) : Prop :=
  match l with
  | L_reset => False
  | L_bus g => bytes_ok (g_data g) /\ (b = true -> g_cmd g <> C_READ -> g_addr g <> 1312)
  | _ => True
  end.
