(** Model of soc/dma/xilinx/mcdma/mcdma.cc, mcdma.h and regs-mcdma.h (class
    xilinx_mcdma).

    Modelled: the register descriptions (regs-mcdma.h l.24-604), b_transport
    (mcdma.cc l.403-440), dma_thread (l.235-317), stream_b_transport
    (l.319-401), update_irqs (l.97-119), reset_thread (l.88-94), dma_access and
    push_stream (l.121-161) and the descriptor accesses (l.173-195).

    dma_thread is described from one b_transport call to the next: it can be
    interrupted before and after every memory or stream access takes place (a
    target may wait), and while it waits for ev_dma.  The memory behind
    init_socket is [atomic_memory bad].

    Simplified: stream_b_transport is one step (the targets it calls do not
    wait); the stream targets accept every packet; num_channels is at most 16;
    the host is little-endian.  Not modelled: time, the generic attributes other
    than eop, hexdump and printf. *)
From Verif Require Import Base TlmModel TlmSpec RegapiModel.
Open Scope N_scope.

(** Register numbers, regs-mcdma.h l.24-326; channel [c] counts from zero and
    CH_OFFSET (mcdma.cc l.50) is 16 registers. *)
Definition R_MM2S_CCR : nat := 0.
Definition R_MM2S_CHEN : nat := 2.
Definition R_MM2S_INTR : nat := 10.
Definition MM2S_CR (c : nat) : nat := 16 + 16 * c.
Definition MM2S_SR (c : nat) : nat := 17 + 16 * c.
Definition MM2S_CUR_LSB (c : nat) : nat := 18 + 16 * c.
Definition MM2S_CUR_MSB (c : nat) : nat := 19 + 16 * c.
Definition MM2S_TAIL_LSB (c : nat) : nat := 20 + 16 * c.
Definition MM2S_TAIL_MSB (c : nat) : nat := 21 + 16 * c.
Definition R_S2MM_CCR : nat := 320.
Definition R_S2MM_CHEN : nat := 322.
Definition R_S2MM_INTR : nat := 328.
Definition S2MM_CR (c : nat) : nat := 336 + 16 * c.
Definition S2MM_SR (c : nat) : nat := 337 + 16 * c.
Definition S2MM_CUR_LSB (c : nat) : nat := 338 + 16 * c.
Definition S2MM_CUR_MSB (c : nat) : nat := 339 + 16 * c.
Definition S2MM_TAIL_LSB (c : nat) : nat := 340 + 16 * c.
Definition S2MM_TAIL_MSB (c : nat) : nat := 341 + 16 * c.
(** R_S2MM_Channel_Observer_6 + 1, mcdma.h l.69 *)
Definition NREGS : nat := 598.

(** The fields used: RS is bit 0 of CCR and CR, IOC_IRQ bit 5, the interrupt
    masks of mcdma.cc l.52-58 are bits 5 to 7, IRQ_THRESHOLD is bits 16-23; IDLE
    is bit 0 of MM2S_CHxSR (regs-mcdma.h l.50) and bit 1 of S2MM_CHxSR. *)
Definition IRQ_ALL : N := 224.
Definition IOC_IRQ : N := 32.
Definition MM2S_IDLE_SHIFT : N := 0.
Definition S2MM_IDLE_SHIFT : N := 1.

(** mcdma_reginfo, regs-mcdma.h l.328-604 *)
Definition plain_reg (a : N) : rinfo := mkRinfo a 0 0 0 0.
Definition words (a : N) (n : nat) : list rinfo :=
  map (fun i => plain_reg (a + 4 * N.of_nat i)) (seq 0 n).
Definition sr_reg (a : N) : rinfo := mkRinfo a 4294901761 232 1 0.
Definition mcdma_info : list rinfo :=
  [mkRinfo 0 4 0 0 0] ++ words 4 9 ++ [mkRinfo 40 4294967295 0 0 0]
  ++ [plain_reg 64; sr_reg 68] ++ words 72 5
  ++ flat_map (fun k => words (64 + 64 * N.of_nat k) 7) (seq 1 15)
  ++ words 1088 6
  ++ words 1280 9
  ++ [plain_reg 1344; sr_reg 1348] ++ words 1352 6
  ++ flat_map (fun k => words (1344 + 64 * N.of_nat k) 8) (seq 1 15)
  ++ words 2368 6
  ++ [plain_reg 1200].

Definition reg (regs : list N) (i : nat) : N := nth i regs 0.
(** FIELD_EX of a one bit field *)
Definition bit (v sh : N) : bool := negb (N.land (N.shiftr v sh) 1 =? 0).

(** mm2s_cur, mm2s_tail, s2mm_cur, s2mm_tail, l.197-223 *)
Definition reg64 (regs : list N) (msb lsb : nat) : N :=
  N.lor (N.shiftl (reg regs msb) 32 mod u64) (reg regs lsb).
Definition mm2s_cur regs c := reg64 regs (MM2S_CUR_MSB c) (MM2S_CUR_LSB c).
Definition mm2s_tail regs c := reg64 regs (MM2S_TAIL_MSB c) (MM2S_TAIL_LSB c).
Definition s2mm_cur regs c := reg64 regs (S2MM_CUR_MSB c) (S2MM_CUR_LSB c).
Definition s2mm_tail regs c := reg64 regs (S2MM_TAIL_MSB c) (S2MM_TAIL_LSB c).

(** mm2s_set_idle, s2mm_set_idle, l.225-233 *)
Definition set_idle (sr : nat) (sh : N) (idle : bool) (regs : list N) : list N :=
  let r := N.ldiff (reg regs sr) (N.shiftl 1 sh) in
  set_reg regs sr (N.lor r (N.shiftl (if idle then 1 else 0) sh)).
Definition mm2s_set_idle regs c b := set_idle (MM2S_SR c) MM2S_IDLE_SHIFT b regs.
Definition s2mm_set_idle regs c b := set_idle (S2MM_SR c) S2MM_IDLE_SHIFT b regs.

(** Descriptors (mcdma.h l.28-48) as the 52 bytes read from memory. *)
Definition BD_SIZE : nat := 52.
Definition le_fld (off k : nat) (l : list N) : N := le_dec (slice off k l).
Definition bd_next (bd : list N) : N := le_fld 0 8 bd.
Definition bd_buffer (bd : list N) : N := le_fld 8 8 bd.
Definition bd_ctrl (bd : list N) : N := le_fld 20 4 bd.
Definition MM2S_STATUS : nat := 28.
Definition S2MM_STATUS : nat := 24.
Definition bd_status (off : nat) (bd : list N) : N := le_fld off 4 bd.
Definition bd_set_status (off : nat) (bd : list N) (v : N) : list N := overlay off (le_enc 4 v) bd.
(** ctrl & bitops_mask64(0, 26) *)
Definition bd_len (bd : list N) : nat := N.to_nat (N.land (bd_ctrl bd) (mask64 0 26)).
Definition bd_eop (bd : list N) : bool := bit (bd_ctrl bd) 30.
Definition bd_done (off : nat) (bd : list N) : bool := bit (bd_status off bd) 31.

(** dma_access, l.143-161: buffer afterwards and response status (which the
    callers ignore). *)
Definition dma_access (bad : N -> bool) (c : command) (m : mem) (buf : list N) (addr : N)
  : mem * (list N * status) :=
  atomic_memory bad m (mkGp c addr buf None (N.of_nat (length buf)) St_INCOMPLETE).

(** A descriptor load, l.173-177 and 185-189.  The descriptor is a local
    variable without initial value: after a failed read its fields are
    indeterminate. *)
Definition load_desc (bad : N -> bool) (m : mem) (addr : N) : res (list N) :=
  match dma_access bad C_READ m (repeat 0 BD_SIZE) addr with
  | (_, (d, St_OK)) => Ok d
  | _ => UB
  end.
Definition store (bad : N -> bool) (m : mem) (d : list N) (addr : N) : mem :=
  fst (dma_access bad C_WRITE m d addr).

(** The local buffer of dma_thread, l.237 *)
Definition BUFSZ : nat := N.to_nat 131072.

(** Where dma_thread is.  [c] is the channel, [n] is num_running. *)
Inductive pc :=
| P_wait                                             (* wait(ev_dma), l.314 *)
| P_ready                                            (* woken up, top of the loop *)
| P_load (c n : nat) (a : N)                         (* descriptor load called, l.272 *)
| P_loaded (c n : nat) (bd : list N)
| P_data (c n : nat) (bd : list N)                   (* dma_load of the data called, l.280 *)
| P_got (c n : nat) (bd : list N)
| P_push (c n : nat) (bd : list N) (d : list N)      (* push_stream called, l.284 *)
| P_pushed (c n : nat) (bd : list N)
| P_store (c n : nat) (bd : list N) (a : N)          (* descriptor store called, l.288 *)
| P_stored (c n : nat) (bd : list N).

Record packet := mkPkt { p_ch : nat; p_data : list N; p_eop : bool }.

(** [t_out]: packets pushed so far, oldest first; [t_irqs]: update_irqs is due;
    [t_mm2s], [t_s2mm]: the interrupt lines. *)
Record state := mkState {
  t_regs : list N; t_mem : mem; t_buf : list N; t_pc : pc; t_out : list packet;
  t_irqs : bool; t_mm2s : bool; t_s2mm : bool }.

Definition with_regs s r := mkState r (t_mem s) (t_buf s) (t_pc s) (t_out s) (t_irqs s) (t_mm2s s) (t_s2mm s).
Definition with_mem s m := mkState (t_regs s) m (t_buf s) (t_pc s) (t_out s) (t_irqs s) (t_mm2s s) (t_s2mm s).
Definition with_buf s b := mkState (t_regs s) (t_mem s) b (t_pc s) (t_out s) (t_irqs s) (t_mm2s s) (t_s2mm s).
Definition with_pc s p := mkState (t_regs s) (t_mem s) (t_buf s) p (t_out s) (t_irqs s) (t_mm2s s) (t_s2mm s).
Definition with_out s o := mkState (t_regs s) (t_mem s) (t_buf s) (t_pc s) o (t_irqs s) (t_mm2s s) (t_s2mm s).
Definition with_irqs s b := mkState (t_regs s) (t_mem s) (t_buf s) (t_pc s) (t_out s) b (t_mm2s s) (t_s2mm s).
Definition with_lines s a b := mkState (t_regs s) (t_mem s) (t_buf s) (t_pc s) (t_out s) (t_irqs s) a b.

(** The tests of l.251-269 *)
Definition runnable (regs : list N) (c : nat) : bool :=
  bit (reg regs R_MM2S_CCR) 0
  && negb (N.land (reg regs R_MM2S_CHEN) (N.shiftl 1 (N.of_nat c)) =? 0)
  && bit (reg regs (MM2S_CR c)) 0
  && negb (bit (reg regs (MM2S_SR c)) MM2S_IDLE_SHIFT).

(** The rest of the for loop from channel [c] on: the first channel to serve. *)
Definition scan (nch : nat) (regs : list N) (c : nat) : option nat :=
  find (runnable regs) (seq c (nch - c)).

(** On to the next descriptor load or to wait(ev_dma), l.243-315. *)
Definition advance (nch : nat) (regs : list N) (c n : nat) : pc :=
  match scan nch regs c with
  | Some c' => P_load c' n (mm2s_cur regs c')
  | None =>
    match n with
    | O => P_wait
    | S _ =>
      match scan nch regs 0 with
      | Some c' => P_load c' 0 (mm2s_cur regs c')
      | None => P_wait
      end
    end
  end.

(** After a descriptor, l.291-309 (and l.373-391 for S2MM): idle at the tail,
    next descriptor, IOC interrupt, threshold copied from the control register. *)
Definition finish (cr sr cur_lsb cur_msb : nat) (sh : N) (at_tail : bool) (next : N) (regs : list N)
  : res (list N) :=
  let regs := if at_tail then set_idle sr sh true regs else regs in
  let regs := set_reg regs cur_lsb (next mod u32) in
  let regs := set_reg regs cur_msb (N.shiftr next 32 mod u32) in
  let tmp := N.land (N.shiftr (reg regs cr) 16) 255 in
  let regs := set_reg regs sr (N.lor (reg regs sr) IOC_IRQ) in
  rmap (set_reg regs sr) (reg_deposit 32 (reg regs sr) 16 8 tmp).

(** dma_thread: one access or the computation up to the next access. *)
Definition thread (bad : N -> bool) (nch : nat) (s : state) : res state :=
  let regs := t_regs s in
  match t_pc s with
  | P_wait => Ok s
  | P_ready => Ok (with_pc s (advance nch regs 0 0))
  | P_load c n a => rmap (fun bd => with_pc s (P_loaded c n bd)) (load_desc bad (t_mem s) a)
  | P_loaded c n bd =>
    if bd_done MM2S_STATUS bd
    then let regs' := mm2s_set_idle regs c true in
         Ok (with_pc (with_regs s regs') (advance nch regs' (S c) n))
    else Ok (with_pc s (P_data c n bd))
  | P_data c n bd =>
    if (length (t_buf s) <? bd_len bd)%nat then UB
    else
      let '(_, (d, _)) := dma_access bad C_READ (t_mem s) (firstn (bd_len bd) (t_buf s)) (bd_buffer bd) in
      Ok (with_pc (with_buf s (d ++ skipn (bd_len bd) (t_buf s))) (P_got c n bd))
  | P_got c n bd => Ok (with_pc s (P_push c n bd (firstn (bd_len bd) (t_buf s))))
  | P_push c n bd d =>
    Ok (with_pc (with_out s (t_out s ++ [mkPkt c d (bd_eop bd)])) (P_pushed c n bd))
  | P_pushed c n bd =>
    let st := N.lor (N.lor (bd_status MM2S_STATUS bd) (N.shiftl 1 31)) (N.of_nat (bd_len bd)) in
    Ok (with_pc s (P_store c n (bd_set_status MM2S_STATUS bd st) (mm2s_cur regs c)))
  | P_store c n bd a => Ok (with_pc (with_mem s (store bad (t_mem s) bd a)) (P_stored c n bd))
  | P_stored c n bd =>
    rmap (fun regs' => with_irqs (with_pc (with_regs s regs') (advance nch regs' (S c) (S n))) true)
         (finish (MM2S_CR c) (MM2S_SR c) (MM2S_CUR_LSB c) (MM2S_CUR_MSB c) MM2S_IDLE_SHIFT
                 (mm2s_cur regs c =? mm2s_tail regs c) (bd_next bd) regs)
  end.

(** b_transport, l.403-440.  Reads and all other writes go to the register
    block; a write in the range of the case label (l.416) may start a channel.
    The answer is always OK.  Notifying ev_dma wakes dma_thread up only if it is
    waiting. *)
Definition CASE_FIRST : N := 16.
Definition CASE_LAST : N := 246.       (* R_MM2S_CH15PKTCOUNT_STAT *)
Definition bus (g : gp) (s : state) : res (state * (list N * status)) :=
  let ix := g_addr g / 4 mod u32 in
  let is_read := match g_cmd g with C_READ => true | _ => false end in
  rbind (reg_transport 4 mcdma_info (t_regs s) g) (fun '(regs, (d, _)) =>
    let s := with_irqs (with_regs s regs) true in
    let s :=
      if negb is_read && (CASE_FIRST <=? ix) && (ix <=? CASE_LAST) then
        let c := N.to_nat ((ix - 16) / 16) in
        if (N.to_nat ix =? MM2S_TAIL_MSB c)%nat && bit (reg regs (MM2S_CR c)) 0 then
          with_pc (with_regs s (mm2s_set_idle regs c false))
                  (match t_pc s with P_wait => P_ready | p => p end)
        else s
      else s in
    Ok (s, (d, St_OK))).

(** stream_b_transport, l.319-401.  The loop runs at most once (pos += len); a
    packet of 2 GiB or more makes len negative. *)
Definition rx_ready (regs : list N) (c : nat) : bool :=
  bit (reg regs R_S2MM_CCR) 0
  && negb (N.land (reg regs R_S2MM_CHEN) (N.shiftl 1 (N.of_nat c)) =? 0)
  && bit (reg regs (S2MM_CR c)) 0
  && negb (bit (reg regs (S2MM_SR c)) S2MM_IDLE_SHIFT).

Definition rx (bad : N -> bool) (c : nat) (d : list N) (s : state) : res state :=
  let regs := t_regs s in
  if 2147483648 <=? N.of_nat (length d) then Unmodelled
  else if (length d =? 0)%nat then Ok s
  else if negb (rx_ready regs c) then Ok s
  else
    rbind (load_desc bad (t_mem s) (s2mm_cur regs c)) (fun bd =>
    if (bd_len bd <? length d)%nat then AssertFail
    else
      let s := with_mem s (store bad (t_mem s) d (bd_buffer bd)) in
      if bd_done S2MM_STATUS bd then Ok (with_regs s (s2mm_set_idle regs c true))
      else
        let st := N.lor (N.lor (N.lor (N.shiftl 1 31) (N.shiftl 1 27)) (N.shiftl 1 26)) (N.of_nat (length d)) in
        let s := with_mem s (store bad (t_mem s) (bd_set_status S2MM_STATUS bd st) (s2mm_cur regs c)) in
        rmap (fun regs' => with_irqs (with_regs s regs') true)
             (finish (S2MM_CR c) (S2MM_SR c) (S2MM_CUR_LSB c) (S2MM_CUR_MSB c) S2MM_IDLE_SHIFT
                     (s2mm_cur regs c =? s2mm_tail regs c) (bd_next bd) regs)).

(** update_irqs, l.97-119: one channel of the loop, then the lines. *)
Definition irq_ch (sr cr intr : nat) (c : nat) (regs : list N) : list N :=
  let isr := N.land (reg regs sr) IRQ_ALL in
  let mask := N.land (reg regs cr) IRQ_ALL in
  let irq := if N.land isr mask =? 0 then 0 else 1 in
  let r := N.ldiff (reg regs intr) (N.shiftl 1 (N.of_nat c)) in
  set_reg regs intr (N.lor r (N.shiftl irq (N.of_nat c))).
Definition irq_regs (nch : nat) (regs : list N) : list N :=
  fold_left (fun r c => irq_ch (S2MM_SR c) (S2MM_CR c) R_S2MM_INTR c
                         (irq_ch (MM2S_SR c) (MM2S_CR c) R_MM2S_INTR c r))
            (seq 0 nch) regs.
Definition update_irqs (nch : nat) (s : state) : state :=
  let regs := irq_regs nch (t_regs s) in
  with_irqs (with_lines (with_regs s regs) (negb (reg regs R_MM2S_INTR =? 0))
                        (negb (reg regs R_S2MM_INTR =? 0))) false.

(** reset_thread, l.88-94 *)
Definition reset (s : state) : res state :=
  rmap (with_regs s) (reg_reset_all 4 mcdma_info (t_regs s)).

(** What can happen: a step of dma_thread, a register access, a packet on stream
    socket [c], update_irqs, a reset, and any change of memory by others. *)
Inductive label :=
| L_thread | L_bus (g : gp) | L_rx (c : nat) (d : list N) | L_irqs | L_reset | L_mem (m : mem).

Definition step (bad : N -> bool) (nch : nat) (l : label) (s : state) : res state :=
  match l with
  | L_thread => thread bad nch s
  | L_bus g => rmap fst (bus g s)
  | L_rx c d => if (c <? nch)%nat then rx bad c d s else Unmodelled
  | L_irqs => if t_irqs s then Ok (update_irqs nch s) else Ok s
  | L_reset => reset s
  | L_mem m => Ok (with_mem s m)
  end.

Fixpoint exec (bad : N -> bool) (nch : nat) (ls : list label) (s : state) : res state :=
  match ls with
  | [] => Ok s
  | l :: ls' => rbind (step bad nch l s) (exec bad nch ls')
  end.
