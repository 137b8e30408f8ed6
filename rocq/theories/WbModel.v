(** Models of the Wishbone bridges tlm-bridges/tlm2wishbone-bridge.h and
    wishbone2tlm-bridge.h, connected to each other.  Little-endian host,
    ENDIAN_NATIVE or ENDIAN_LITTLE (the master supports nothing else). *)
From Verif Require Import Base TlmModel TlmSpec.
Open Scope N_scope.

(** adr, we, sel, dat while stb is high *)
Record wb_beat := mkWb { w_adr : N; w_we : bool; w_sel : N; w_dat : N }.

Section Wb.
(** bus_width in bytes (4 or 8) and ADDR_WIDTH in bits *)
Context (bw aw : N).

Definition is_read (g : gp) : bool := match g_cmd g with C_READ => true | _ => false end.

(** tlm2wishbone-bridge.h:110 *)
Definition wb_tlen (g : gp) : N := N.min bw (g_len g).

(** :110-127, the beat at [pos].  memcpy reads tlen bytes from [data + pos]. *)
Definition wb_beat_at (g : gp) (pos : N) : res wb_beat :=
  let tlen := wb_tlen g in
  let adr := (g_addr g + pos) mod u64 mod 2 ^ aw in
  let sel := 2 ^ tlen - 1 in
  if is_read g then Ok (mkWb adr false sel 0)
  else if pos + tlen <=? g_len g then
    let tdata := le_dec (slice (N.to_nat pos) (N.to_nat tlen) (g_data g)) in
    let shift := ((g_addr g + pos) mod u64 mod bw) * 8 in
    Ok (mkWb adr true sel (N.shiftl tdata shift mod u64 mod 256 ^ bw))
  else UB.

(** :109-144: all beats; positions advance by tlen *)
Fixpoint wb_beats (fuel : nat) (g : gp) (pos : N) : res (list wb_beat) :=
  match fuel with
  | O => Unmodelled
  | S fuel' =>
    rbind (wb_beat_at g pos) (fun b =>
    let pos' := pos + wb_tlen g in
    if pos' <? g_len g then rbind (wb_beats fuel' g pos') (fun l => Ok (b :: l)) else Ok [b])
  end.

(** :137-141: the data sampled with each acknowledge goes to the buffer *)
Fixpoint wb_store (g : gp) (pos : N) (dats : list N) (buf : list N) : res (list N) :=
  match dats with
  | [] => Ok buf
  | d :: ds =>
    let tlen := wb_tlen g in
    if pos + tlen <=? g_len g then
      wb_store g (pos + tlen) ds
        (overlay (N.to_nat pos) (le_enc (N.to_nat tlen) (N.shiftr d ((g_addr g mod bw) * 8))) buf)
    else UB
  end.

(** wishbone2tlm-bridge.h: the data array and dat_o *)
Record wb_slave := mkSl { sl_data : list N; sl_dat_o : N }.

(** :124-146: the payload.  The byte enable array is set but its length is left
    at zero (:104). *)
Definition slave_gp (s : wb_slave) (b : wb_beat) : gp :=
  if w_we b
  then mkGp C_WRITE (w_adr b) (le_enc (N.to_nat bw) (w_dat b)) (Some []) bw St_INCOMPLETE
  else mkGp C_READ (w_adr b) (sl_data s) None bw St_INCOMPLETE.

(** :149-162; err_o is not connected to tlm2wishbone *)
Definition slave_beat {T} (t : target T) (st : T * wb_slave) (b : wb_beat) : T * wb_slave :=
  let g := slave_gp (snd st) b in
  let '(t', (d, rs)) := t (fst st) g in
  (t', match rs with
       | St_OK => mkSl d (if w_we b then sl_dat_o (snd st) else le_dec d)
       | _ => mkSl d (sl_dat_o (snd st))
       end).

(** ** The wires, clock edge by clock edge *)
(** :94-168: waiting for stb; in b_transport for some more edges; ack is high *)
Inductive spc := S_Wait | S_Busy (k : nat) | S_Ack.
Record link (T : Type) := mkLink {
  k_todo : list wb_beat;     (* beats of the master, the first one is on the wires *)
  k_got : list N;            (* dat_i sampled with each ack *)
  k_ack : bool; k_spc : spc; k_st : T * wb_slave;
  k_calls : nat }.
Arguments mkLink {T}. Arguments k_todo {T}. Arguments k_got {T}. Arguments k_ack {T}.
Arguments k_spc {T}. Arguments k_st {T}. Arguments k_calls {T}.

Definition link_edge {T} (t : target T) (lat : nat -> nat) (s : link T) : link T :=
  let '(todo, got) :=                      (* the master, tlm2wishbone-bridge.h:129-135 *)
    match k_todo s with
    | b :: q => if k_ack s then (q, k_got s ++ [sl_dat_o (snd (k_st s))]) else (b :: q, k_got s)
    | [] => ([], k_got s)
    end in
  match k_spc s with
  | S_Wait =>
    match k_todo s with
    | [] => mkLink todo got (k_ack s) S_Wait (k_st s) (k_calls s)
    | b :: _ =>
      let st' := slave_beat t (k_st s) b in
      match lat (k_calls s) with
      | O => mkLink todo got true S_Ack st' (S (k_calls s))
      | S k => mkLink todo got false (S_Busy k) st' (S (k_calls s))
      end
    end
  | S_Busy O => mkLink todo got true S_Ack (k_st s) (k_calls s)
  | S_Busy (S k) => mkLink todo got false (S_Busy k) (k_st s) (k_calls s)
  | S_Ack => mkLink todo got false S_Wait (k_st s) (k_calls s)
  end.
Fixpoint link_edges {T} (t : target T) lat (n : nat) (s : link T) : link T :=
  match n with O => s | S n' => link_edges t lat n' (link_edge t lat s) end.

(** ** A whole transaction: the beats, then the buffer and the response *)
(** What the edges amount to (C55_wb_link): the beats are carried out in order. *)
Fixpoint wb_serve {T} (t : target T) (st : T * wb_slave) (l : list wb_beat) : T * wb_slave * list N :=
  match l with
  | [] => (st, [])
  | b :: l' =>
    let st' := slave_beat t st b in
    let '(st'', ds) := wb_serve t st' l' in (st'', sl_dat_o (snd st') :: ds)
  end.
Definition wb_transport {T} (t : target T) (st : T * wb_slave) (g : gp)
  : res (T * wb_slave * (list N * status)) :=
  rbind (wb_beats (S (length (g_data g))) g 0) (fun l =>
  let '(st', ds) := wb_serve t st l in
  rbind (if is_read g then wb_store g 0 ds (g_data g) else Ok (g_data g)) (fun d =>
  Ok (st', (d, St_OK)))).
End Wb.
Arguments mkLink {T}. Arguments k_todo {T}. Arguments k_got {T}. Arguments k_ack {T}.
Arguments k_spc {T}. Arguments k_st {T}. Arguments k_calls {T}.
