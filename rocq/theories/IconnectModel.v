(** Model of soc/interconnect/iconnect.h (class iconnect).

    Modelled: the constructor's effect on [map] (l.90-118), set_target_offset,
    memmap (l.129-153), map_address (l.155-178), unmap_offset (l.180-201),
    b_transport (l.203-224), get_direct_mem_ptr (l.226-253), transport_dbg
    (l.255-277).  Not modelled: socket binding itself, the delay, the check of
    the initiator tag against N_INITIATORS (tags come from the constructor),
    invalidate_direct_mem_ptr. *)
From Verif Require Import Base TlmModel TlmSpec.
Open Scope N_scope.

(** struct memmap_entry, l.38-43 *)
Record mentry := mkMent { m_addr : N; m_size : N; m_rel : bool; m_idx : nat }.
Definition free_entry := mkMent 0 0 false 0.

(** Constructor, l.109-117: the loop over N_TARGETS sets [size] of the first
    N_TARGETS of 4*N_TARGETS entries; the others keep whatever the memory held. *)
Definition ic_init (nt : nat) (garbage : list mentry) : list mentry :=
  repeat free_entry nt ++ garbage.

(** memmap, l.129-153.  [idx = None] is -1: bind the socket with the entry's
    number (out of bounds from N_TARGETS on). *)
Fixpoint memmap_from (nt i : nat) (mp : list mentry) (addr size : N) (rel : bool)
    (idx : option nat) : res (list mentry) :=
  match mp with
  | [] => AssertFail
  | e :: mp' =>
    if m_size e =? 0 then
      match idx with
      | None => if (i <? nt)%nat then Ok (mkMent addr size rel i :: mp') else UB
      | Some k => Ok (mkMent addr size rel k :: mp')
      end
    else rmap (cons e) (memmap_from nt (S i) mp' addr size rel idx)
  end.
Definition memmap nt mp addr size rel idx := memmap_from nt 0 mp addr size rel idx.

(** map_address, l.155-178: socket number and offset; [None] is the decode
    error, after which the caller goes on with socket 0 and an offset that was
    never assigned. *)
Definition map_hit (e : mentry) (a : N) : bool :=
  negb (m_size e =? 0) && (m_addr e <=? a) && (a <=? (m_addr e + m_size e) mod u64).
Fixpoint map_address (mp : list mentry) (a : N) : option (nat * N) :=
  match mp with
  | [] => None
  | e :: mp' =>
    if map_hit e a
    then Some (m_idx e, if m_rel e then a - m_addr e else a)
    else map_address mp' a
  end.

(** unmap_offset, l.180-201: the entry is looked up by socket number. *)
Definition unmap_offset (nt : nat) (mp : list mentry) (target_nr : nat) (off : N) : res N :=
  if (nt <=? target_nr)%nat then AssertFail
  else
    let e := nth target_nr mp free_entry in
    if m_rel e then
      if m_size e <=? off then AssertFail else Ok ((m_addr e + off) mod u64)
    else Ok off.

Definition at_address (g : gp) (a : N) : gp :=
  mkGp (g_cmd g) a (g_data g) (g_be g) (g_sw g) (g_status g).

(** b_transport, l.203-224.  [ofs] is target_offset[id] modulo 2^64.  The
    result includes the address left in the payload. *)
Definition ic_transport {S} (nt : nat) (mp : list mentry) (ofs : N) (ts : nat -> target S)
    (s : S) (g : gp) : res (S * (list N * status) * N) :=
  let addr := (g_addr g + ofs) mod u64 in
  match map_address mp addr with
  | None => UB
  | Some (k, off) =>
    if (k <? nt)%nat then Ok (ts k s (at_address g off), addr) else UB
  end.

(** A target's DMI answer: granted or not, with the inclusive range. *)
Record dmi := mkDmi { d_ok : bool; d_start : N; d_end : N }.

(** get_direct_mem_ptr, l.226-253 *)
Definition ic_dmi (nt : nat) (mp : list mentry) (ofs : N) (ts : nat -> N -> dmi) (a : N) : res dmi :=
  let addr := (a + ofs) mod u64 in
  match map_address mp addr with
  | None => UB
  | Some (k, off) =>
    if (k <? nt)%nat then
      let r := ts k off in
      rbind (unmap_offset nt mp k (d_start r)) (fun s =>
      rbind (unmap_offset nt mp k (d_end r)) (fun e => Ok (mkDmi (d_ok r) s e)))
    else UB
  end.

(** transport_dbg, l.255-277: [ts k s g] also gives the number of bytes the
    target handled. *)
Definition ic_debug {S} (nt : nat) (mp : list mentry) (ofs : N)
    (ts : nat -> S -> gp -> S * list N * N) (s : S) (g : gp) : res (S * list N * N) :=
  let addr := (g_addr g + ofs) mod u64 in
  match map_address mp addr with
  | None => UB
  | Some (k, off) =>
    if (k <? nt)%nat then let '(s', d, n) := ts k s (at_address g off) in Ok (s', d, 0) else UB
  end.

(** A configuration: the memmap calls in order. *)
Fixpoint map_all (nt : nat) (mp : list mentry) (calls : list (N * N * bool * option nat))
  : res (list mentry) :=
  match calls with
  | [] => Ok mp
  | (a, sz, rel, idx) :: calls' =>
    rbind (memmap nt mp a sz rel idx) (fun mp' => map_all nt mp' calls')
  end.
