(** Model of /repo/rtl-bridges/pcie-host/axi/tlm/axi2tlm-hw-bridge.h, process_desc_free
    (l.265-499) with process_be (l.228-263): how a burst that the hardware received becomes a
    TLM transaction, and how the data of a read go back.

    Buffers and memories are functions from positions to bytes; beat b has the positions from
    b * W on, W being the width of the bus in bytes.  The hardware gives (AxLEN + 1) * W as the
    size (rtl/slave/slave_inf.v l.858, l.886), so that l.333-334 give back AxLEN + 1; the model
    takes the number of beats.  Simplified: the two memmoves of l.401-402 are two runs of the
    same loop; modes, descriptors, exclusive accesses, the wrap expander (l.437) and the size of
    the buffers are left out. *)
From Coq Require Import ZArith.
From Verif Require Import Base.
Open Scope N_scope.

Definition mem := N -> N.
Inductive burst : Type := FIXED | INCR | WRAP.     (* amba.h l.40-44 *)
Definition is_fixed (b : burst) : bool := match b with FIXED => true | _ => false end.

Record axi : Type := mkAxi {
  a_write : bool; a_addr : N;
  a_nb : N;            (* number_bytes, l.324: 1 << axsize *)
  a_beats : N;         (* burst_length, l.334 *)
  a_burst : burst;
  a_strb : bool }.     (* type & 2, l.365 *)

Definition memmove (d : mem) (pos : N) (s : mem) (src len : N) : mem :=
  fun x => if (pos <=? x) && (x <? pos + len) then s (src + (x - pos)) else d x.

(** l.355-356 *)
Definition offset (W : N) (a : axi) : N := a_addr a - a_addr a / W * W.
(** l.383-384, l.457-458: bytes of the first beat; number_bytes is a power of two *)
Definition first_len (a : axi) : N := a_nb a - a_addr a mod a_nb a.
(** l.372-373, l.445-446 *)
Definition narrow (W : N) (a : axi) : bool :=
  (1 <? a_beats a) && (is_fixed (a_burst a) || (a_nb a <? W)).

(** l.388-404, for one of the two buffers; the position behind the last byte *)
Fixpoint pack (n : nat) (fixed : bool) (W off nb b pos len : N) (d : mem) : mem * N :=
  match n with
  | O => (d, pos)
  | S n' =>
      let len := if fixed then len else nb in
      let src := (if fixed then off else pos mod W) + b * W in
      pack n' fixed W off nb (b + 1) (pos + len) len (memmove d pos d src len)
  end.
Definition packed (W : N) (a : axi) (d : mem) : mem * N :=
  let off := offset W a in
  pack (N.to_nat (a_beats a - 1)) (is_fixed (a_burst a)) W off (a_nb a) 1
    (off + first_len a) (first_len a) d.

(** l.460-473 *)
Fixpoint unpack (n : nat) (fixed : bool) (W off nb b pos len : N) (bounce d : mem) : mem :=
  match n with
  | O => d
  | S n' =>
      let len := if fixed then len else nb in
      let dst := (if fixed then off else pos mod W) + b * W in
      unpack n' fixed W off nb (b + 1) (pos + len) len bounce (memmove d dst bounce pos len)
  end.

Record gp : Type := mkGp {
  g_write : bool; g_addr : N; g_len : N; g_sw : N;
  g_data : mem; g_be : option mem; g_wrap : bool }.

(** l.359-433: the transaction for the data [d] and the strobes [be] in the memories *)
Definition to_tlm (W : N) (a : axi) (d be : mem) : gp :=
  let off := offset W a in
  let size := a_beats a * W in
  let '(d1, be1, tx) :=
    if a_write a then
      if narrow W a then (fst (packed W a d), fst (packed W a be), snd (packed W a d))
      else (d, be, size)
    else
      (d, be, if (1 <? a_beats a) && (a_nb a <? W)
              then off + a_nb a * a_beats a - a_addr a mod a_nb a else size) in
  mkGp (a_write a) (a_addr a) (tx - off)
    (if is_fixed (a_burst a) then a_nb a - a_addr a mod a_nb a else tx - off)
    (fun k => d1 (off + k))
    (if a_write a && a_strb a then Some (fun k => be1 (off + k)) else None)
    (match a_burst a with WRAP => true | _ => false end).

(** l.442-481: what a read leaves in the memory; [rd] are the bytes that the target returned
    and [d] is what the buffer had before *)
Definition from_tlm (W : N) (a : axi) (d rd : mem) : mem :=
  let off := offset W a in
  let g := to_tlm W a d (fun _ => 0) in
  let d1 := fun x => if (off <=? x) && (x <? off + g_len g) then rd (x - off) else d x in
  if narrow W a then
    unpack (N.to_nat (a_beats a - 1)) (is_fixed (a_burst a)) W off (a_nb a) 1
      (off + first_len a) (first_len a) d1 d1
  else d1.

(** l.484-485: the responses of all descriptors in one register *)
Definition put_resp (r d resp : N) : N := N.lor (N.ldiff r (N.shiftl 3 (2 * d))) (N.shiftl resp (2 * d)).
