(** Model of soc/pci/xilinx/qdma.h and qdma-ctx.inc, both flavours: CPM4
    ([cpm4 = true]) and CPM5, without QDMA_SOFT_IP.

    A doorbell starts run_mm_dma, which is cut in two places per descriptor: at
    the test of the loop, and between the copy of the data and the update of the
    consumer index, because the bus accesses of the copy may wait and let other
    accesses to the device in.

    Simplified: host and card are two separate byte memories; SC_REPORT_ERROR
    stops the simulation (the default of SystemC is to throw); the stack contents
    that end up in the reserved bits of an interrupt ring entry are one number
    [junk].  Not modelled: msix_strobe and its 10 ns pulses (q_msix lists the
    notified vectors), the user BAR, streaming widths. *)
From Verif Require Import Base.
Open Scope N_scope.

Definition mem := N -> N.
Definition a64 (x : N) : N := x mod 2 ^ 64.
Definition rd (m : mem) (a : N) (k : nat) : list N :=
  map (fun i => m (a64 (a + N.of_nat i))) (seq 0 k).
Definition wr (m : mem) (a : N) (d : list N) : mem :=
  fun x => let i := a64 (x + 2 ^ 64 - a64 a) in
           if i <? N.of_nat (length d) then nth (N.to_nat i) d 0 else m x.

(** Bit-fields of a packed structure. *)
Definition bf (lo w c : N) : N := N.land (N.shiftr c lo) (N.ones w).
Definition bf_set (lo w c v : N) : N :=
  N.lor (N.ldiff c (N.shiftl (N.ones w) lo)) (N.shiftl (N.land v (N.ones w)) lo).
Definition bit_on (lo c : N) : bool := negb (bf lo 1 c =? 0).

Definition QDMA_QUEUE_COUNT : N := 2.
Definition NR_QDMA_IRQ : N := 8.
Definition NREGS : N := 98304.                            (* u32[0x18000] *)
Definition R_CONFIG_BLOCK_IDENT : N := 0.
Definition R_GLBL2_MISC_CAP : N := 77.
Definition R_GLBL_INTR_CFG : N := 177.
Definition R_IND_CTXT_DATA : N := 513.
Definition R_IND_CTXT_CMD (cpm4 : bool) : N := if cpm4 then 521 else 529.
(** address of R_DMAP_SEL_INT_CIDX(v, 0) *)
Definition DMAP (cpm4 : bool) : N := if cpm4 then 25600 else 98304.

Definition SELC_INT_COAL : N := 8.
Definition SELC_QID2VEC : N := 12.
Definition sw_sel (h2c : bool) : N := if h2c then 1 else 0.
Definition hw_sel (h2c : bool) : N := if h2c then 3 else 2.

(** Contexts are 8 words, here one number; [q_ctx qid sel]. *)
Record st := mkQ {
  q_regs : N -> N; q_ctx : N -> N -> N; q_ring : N -> N;
  q_host : mem; q_card : mem; q_msix : list N }.

Definition upd {A} (f : N -> A) (k : N) (v : A) : N -> A :=
  fun x => if x =? k then v else f x.
Definition set_ctx (s : st) (q sel v : N) : st :=
  mkQ (q_regs s) (upd (q_ctx s) q (upd (q_ctx s q) sel v)) (q_ring s) (q_host s)
      (q_card s) (q_msix s).
Definition set_regs (s : st) (r : N -> N) : st :=
  mkQ r (q_ctx s) (q_ring s) (q_host s) (q_card s) (q_msix s).
Definition set_ring (s : st) (q v : N) : st :=
  mkQ (q_regs s) (q_ctx s) (upd (q_ring s) q v) (q_host s) (q_card s) (q_msix s).
Definition set_host (s : st) (m : mem) : st :=
  mkQ (q_regs s) (q_ctx s) (q_ring s) m (q_card s) (q_msix s).
Definition set_card (s : st) (m : mem) : st :=
  mkQ (q_regs s) (q_ctx s) (q_ring s) (q_host s) m (q_msix s).

(** sw_ctx_cpm4/5, qdma-ctx.inc l.27-92: the fields used are in the same place. *)
Definition sw_pidx (c : N) : N := bf 0 16 c.
Definition sw_irq_arm (c : N) : bool := bit_on 16 c.
Definition sw_ring_size (c : N) : N := bf 44 4 c.
Definition sw_desc_size (c : N) : N := bf 48 2 c.
Definition sw_writeback (c : N) : bool := bit_on 52 c.
Definition sw_irq_enabled (c : N) : bool := bit_on 53 c.
Definition sw_base (c : N) : N := a64 (N.shiftl (bf 96 32 c) 32 + bf 64 32 c).
Definition hw_cidx (c : N) : N := bf 0 16 c.              (* qdma.h l.178-190 *)

(** irq_aggregation_enabled and get_vec of the two flavours, l.962-974 and l.998-1013 *)
Definition aggregated (cpm4 : bool) (s : st) (q : N) (h2c : bool) : bool :=
  if cpm4 then bit_on (if h2c then 17 else 8) (q_ctx s q SELC_QID2VEC)
  else bit_on 139 (q_ctx s q (sw_sel h2c)).
Definition get_vec (cpm4 : bool) (s : st) (q : N) (h2c : bool) : N :=
  if cpm4 then bf (if h2c then 9 else 0) 8 (q_ctx s q SELC_QID2VEC)
  else bf 128 11 (q_ctx s q (sw_sel h2c)).

(** intr_ctx_cpm4/5, qdma-ctx.inc l.96-121 *)
Definition it_valid (c : N) : bool := bit_on 0 c.
Definition it_vector (cpm4 : bool) (c : N) : N := bf 1 (if cpm4 then 5 else 11) c.
Definition it_color_at (cpm4 : bool) : N := if cpm4 then 8 else 14.
Definition it_baddr (cpm4 : bool) (c : N) : N := bf (if cpm4 then 9 else 15) 52 c.
Definition it_page_size (cpm4 : bool) (c : N) : N := bf (if cpm4 then 61 else 67) 3 c.
Definition it_pidx_at (cpm4 : bool) : N := if cpm4 then 64 else 70.

(** ** do_mm_dma, l.366-425: [n] words *)
Fixpoint copy (sbad dbad : N -> bool) (from to : mem) (src dst : N) (n : nat) : res mem :=
  match n with
  | O => Ok to
  | S n' =>
      if sbad src then AssertFail
      else if dbad dst then AssertFail
      else copy sbad dbad from (wr to dst (rd from src 4)) (a64 (src + 4)) (a64 (dst + 4)) n'
  end.
Definition words_of (size : N) : nat := N.to_nat ((size + 3) / 4).

(** fetch_descriptor, l.598-620, in words *)
Definition fetch (hbad : N -> bool) (m : mem) (a dsz : N) : res (list N) :=
  if existsb (fun i => hbad (a64 (a + 4 * N.of_nat i))) (seq 0 (N.to_nat (dsz / 4)))
  then AssertFail else Ok (rd m a (N.to_nat dsz)).

Definition le_fld (off k : nat) (l : list N) : N := le_dec (slice off k l).

Definition ring_sizes : list N :=
  [2048; 64; 128; 192; 256; 384; 512; 768; 1024; 1536; 3072; 4096; 6144; 8192; 12288; 16384].

(** ** run_mm_dma, l.429-576 *)
Inductive phase := Top | Copied | Done.
Record thr := mkT {
  t_q : N; t_h2c : bool; t_pidx : N; t_dsz : N; t_ring : N; t_ph : phase }.
Definition at_phase (t : thr) (p : phase) : thr :=
  mkT (t_q t) (t_h2c t) (t_pidx t) (t_dsz t) (t_ring t) p.
Definition sw_of (s : st) (t : thr) : N := q_ctx s (t_q t) (sw_sel (t_h2c t)).
Definition hw_of (s : st) (t : thr) : N := q_ctx s (t_q t) (hw_sel (t_h2c t)).

(** l.445-469.  The test for a bad queue is qid > QDMA_QUEUE_COUNT. *)
Definition start (cpm4 : bool) (s : st) (q : N) (h2c : bool) : res (st * thr) :=
  if QDMA_QUEUE_COUNT <? q then AssertFail
  else if QDMA_QUEUE_COUNT <=? q then UB
  else
    let sw := q_ctx s q (sw_sel h2c) in
    let pidx := N.land (q_regs s ((DMAP cpm4 + (if h2c then 4 else 8) + 16 * q) / 4)) 65535 in
    let ring := nth (N.to_nat (sw_ring_size sw)) ring_sizes 0 in
    let s1 := set_ctx s q (sw_sel h2c) (bf_set 0 16 sw pidx) in
    if ring <=? pidx then AssertFail
    else Ok (s1, mkT q h2c pidx (8 * 2 ^ sw_desc_size sw) ring Top).

(** write_irq_ring_entry, l.645-681 *)
Definition write_entry (cpm4 : bool) (hbad : N -> bool) (s : st) (r e : N) : res st :=
  let c := q_ctx s r SELC_INT_COAL in
  let a := a64 (N.shiftl (it_baddr cpm4 c) 12 + 8 * q_ring s r) in
  if hbad a then AssertFail
  else
    let s1 := set_ring (set_host s (wr (q_host s) a (le_enc 8 e))) r (q_ring s r + 1) in
    if (q_ring s r + 1) * 8 =? (1 + it_page_size cpm4 c) * 4096 then
      Ok (set_ctx (set_ring s1 r 0) r SELC_INT_COAL
            (bf_set (it_color_at cpm4) 1 c (if bit_on (it_color_at cpm4) c then 0 else 1)))
    else Ok s1.

(** intr_ring_entry_cpm4/5, qdma-ctx.inc l.124-148: (lowest bit, width) *)
Definition at_type (cpm4 : bool) : N := if cpm4 then 51 else 38.
Definition at_qid (cpm4 : bool) : N * N := if cpm4 then (52, 11) else (39, 24).
Definition at_error (cpm4 : bool) : N * N := if cpm4 then (35, 4) else (35, 2).
Definition mk_entry (cpm4 : bool) (junk q ty color cidx pidx : N) : N :=
  let e := bf_set (fst (at_qid cpm4)) (snd (at_qid cpm4)) junk q in
  let e := bf_set (at_type cpm4) 1 e ty in
  let e := bf_set 63 1 e color in
  let e := bf_set (fst (at_error cpm4)) (snd (at_error cpm4)) e 0 in
  let e := bf_set 33 2 e 0 in
  let e := bf_set 32 1 e color in
  let e := bf_set 16 16 e cidx in
  bf_set 0 16 e pidx.

Definition notify (s : st) (v : N) : res st :=
  if NR_QDMA_IRQ <=? v then UB
  else Ok (mkQ (q_regs s) (q_ctx s) (q_ring s) (q_host s) (q_card s) (q_msix s ++ [v])).

(** l.526-563 *)
Definition aggregate (cpm4 : bool) (junk : N) (hbad : N -> bool) (s : st) (t : thr) : res st :=
  let r := get_vec cpm4 s (t_q t) (t_h2c t) in
  if QDMA_QUEUE_COUNT <=? r then UB
  else
    let c := bf_set (it_pidx_at cpm4) 12 (q_ctx s r SELC_INT_COAL) (t_pidx t) in
    let s := set_ctx s r SELC_INT_COAL c in
    if negb (it_valid c) then AssertFail
    else
      let color := bf (it_color_at cpm4) 1 c in
      let e := mk_entry cpm4 junk (t_q t) (if t_h2c t then 0 else 1) color
                 (hw_cidx (hw_of s t)) (bf (it_pidx_at cpm4) 12 c) in
      rbind (write_entry cpm4 hbad s r e) (fun s =>
      notify s (it_vector cpm4 (q_ctx s r SELC_INT_COAL))).

(** The status descriptor, l.497-517 *)
Definition status_bytes (d : list N) (cidx pidx : N) : list N :=
  [N.land (nth 0 d 0) 252] ++ slice 1 1 d ++ le_enc 2 cidx ++ le_enc 2 pidx ++ skipn 6 d.
Definition write_status (hbad : N -> bool) (s : st) (t : thr) : res st :=
  if sw_writeback (sw_of s t) then
    let a := a64 (sw_base (sw_of s t) + t_dsz t * t_ring t) in
    rbind (fetch hbad (q_host s) a (t_dsz t)) (fun d =>
    if hbad a then AssertFail
    else Ok (set_host s (wr (q_host s) a
                           (status_bytes d (hw_cidx (hw_of s t)) (t_pidx t)))))
  else Ok s.

Definition step (cpm4 : bool) (junk : N) (hbad cbad : N -> bool) (s : st) (t : thr)
    : res (st * thr) :=
  match t_ph t with
  | Done => Ok (s, t)
  | Top =>
      if sw_pidx (sw_of s t) =? hw_cidx (hw_of s t) then Ok (s, at_phase t Done)
      else
        let a := a64 (sw_base (sw_of s t) + t_dsz t * hw_cidx (hw_of s t)) in
        rbind (fetch hbad (q_host s) a (t_dsz t)) (fun d =>
        (* a smaller descriptor leaves the fields used uninitialised *)
        if t_dsz t <? 32 then UB
        else
          let src := le_fld 0 8 d in
          let n := words_of (N.land (le_fld 8 8 d) (N.ones 28)) in
          let dst := le_fld 16 8 d in
          rbind (if t_h2c t
                 then rmap (set_card s) (copy hbad cbad (q_host s) (q_card s) src dst n)
                 else rmap (set_host s) (copy cbad hbad (q_card s) (q_host s) src dst n))
            (fun s => Ok (s, at_phase t Copied)))
  | Copied =>
      let c := hw_cidx (hw_of s t) in
      let c' := if c =? t_ring t - 1 then 0 else (c + 1) mod 65536 in
      let s := set_ctx s (t_q t) (hw_sel (t_h2c t)) (bf_set 0 16 (hw_of s t) c') in
      if negb (sw_pidx (sw_of s t) =? c') then Ok (s, at_phase t Top)
      else
        rbind (write_status hbad s t) (fun s =>
        if negb (sw_irq_arm (sw_of s t) && sw_irq_enabled (sw_of s t))
        then Ok (s, at_phase t Top)
        else if aggregated cpm4 s (t_q t) (t_h2c t)
        then rmap (fun s => (s, at_phase t Top)) (aggregate cpm4 junk hbad s t)
        else rmap (fun s => (s, at_phase t Top))
               (notify s (get_vec cpm4 s (t_q t) (t_h2c t))))
  end.

(** Until the thread is done. *)
Fixpoint run (cpm4 : bool) (junk : N) (hbad cbad : N -> bool) (n : nat) (s : st) (t : thr)
    : res st :=
  match t_ph t with
  | Done => Ok s
  | _ =>
      match n with
      | O => Unmodelled
      | S n' => rbind (step cpm4 junk hbad cbad s t) (fun x =>
                run cpm4 junk hbad cbad n' (fst x) (snd x))
      end
  end.

(** ** handle_ctxt_cmd and handle_irq_ctxt_cmd, l.250-343 *)
Definition ctx_data (r : N -> N) : N :=
  fold_right (fun i acc => N.lor (N.shiftl (r (R_IND_CTXT_DATA + N.of_nat i)) (32 * N.of_nat i)) acc)
    0 (seq 0 8).
Definition put_data (r : N -> N) (c : N) : N -> N :=
  fun x => if (R_IND_CTXT_DATA <=? x) && (x <? R_IND_CTXT_DATA + 8)
           then bf (32 * (x - R_IND_CTXT_DATA)) 32 c else r x.

Definition supported (sel : N) : bool := (sel <? 8) || (sel =? SELC_QID2VEC).

Definition ctxt_cmd (s : st) (v : N) : res st :=
  let qid := N.land (N.shiftr v 7) 8191 in
  let cmd := N.land (N.shiftr v 5) 3 in
  let sel := N.land (N.shiftr v 1) 15 in
  if sel =? SELC_INT_COAL then
    (* the index is not checked *)
    if QDMA_QUEUE_COUNT <=? qid then UB
    else
      let c := q_ctx s qid sel in
      if cmd =? 0 then Ok (set_ctx s qid sel 0)
      else if cmd =? 1 then
        let c' := ctx_data (q_regs s) in
        let s1 := set_ctx s qid sel c' in
        Ok (if it_valid c' && negb (it_valid c) then set_ring s1 qid 0 else s1)
      else if cmd =? 2 then Ok (set_regs s (put_data (q_regs s) c))
      else Ok (set_ctx s qid sel (bf_set 0 1 c 0))
  else if QDMA_QUEUE_COUNT <=? qid then AssertFail
  else if negb (supported sel) then AssertFail
  else
    if cmd =? 0 then Ok (set_ctx s qid sel 0)
    else if cmd =? 1 then Ok (set_ctx s qid sel (ctx_data (q_regs s)))
    else if cmd =? 2 then Ok (set_regs s (put_data (q_regs s) (q_ctx s qid sel)))
    else Ok s.

(** ** config_bar_b_transport, l.724-861.  [None]: TLM_GENERIC_ERROR_RESPONSE *)
Definition cfg_read (version : N) (s : st) (addr : N) (len : nat) : res (option (list N)) :=
  if (4 <? len)%nat then Ok None
  else if NREGS <=? addr / 4 then UB
  else
    let v := if addr / 4 =? R_GLBL2_MISC_CAP then version else q_regs s (addr / 4) in
    Ok (Some (firstn len (le_enc 4 v))).

Definition set_reg (s : st) (i v : N) : st := set_regs s (upd (q_regs s) i v).

Definition cfg_write (cpm4 : bool) (s : st) (addr : N) (d : list N)
    : res (option (st * option thr)) :=
  if (4 <? length d)%nat then Ok None
  else
    let v := le_dec d in
    let i := addr / 4 in
    if (DMAP cpm4 / 4 <=? i) && (i <=? (DMAP cpm4 + 12 + 16 * QDMA_QUEUE_COUNT) / 4) then
      let q := (addr - DMAP cpm4) / 16 in
      let s := set_reg s i v in
      let go h2c := rmap (fun x => Some (fst x, Some (snd x))) (start cpm4 s q h2c) in
      if addr mod 16 =? 4 then go true
      else if addr mod 16 =? 8 then go false
      else Ok (Some (s, None))
    else if i =? R_IND_CTXT_CMD cpm4 then
      rmap (fun s => Some (set_reg s i (N.ldiff v 1), None)) (ctxt_cmd s v)
    else if (i =? R_CONFIG_BLOCK_IDENT) || (i =? R_GLBL2_MISC_CAP) then Ok (Some (s, None))
    else if i =? R_GLBL_INTR_CFG then Ok (Some (set_reg s i (N.ldiff v 2), None))
    else if NREGS <=? i then UB
    else Ok (Some (set_reg s i v, None)).

(** reset, l.875-885 *)
Definition reset (s : st) : st :=
  set_reg (set_reg (set_reg (set_reg (set_reg (set_reg s 0 533921793) 65 1) 72 2) 70 200463)
    75 0) 67 4.
