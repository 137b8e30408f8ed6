(** Model of tlm-modules/tlm-exmon.h (class tlm_exclusive_monitor).

    Modelled: class Transaction (l.59-120), is_exclusive, is_monitored_location,
    monitor_clear_locations, monitor_clear_id, monitor_location,
    set_exclusive_handled, b_transport (l.122-254).  Not modelled: concurrent
    b_transport calls that block inside the target (each call is one step), the
    other attributes, the delay. *)
From Verif Require Import Base TlmModel TlmSpec.
Open Scope N_scope.

(** A transaction and its generic attributes: [None] is a payload without the
    extension. *)
Record xattr := mkXattr { xa_excl : bool; xa_id : N; xa_handled : bool }.
Record xop := mkXop { xo_gp : gp; xo_attr : option xattr }.

(** One monitored transaction: address, length, masked id (l.62-74, l.111-119). *)
Record mentry := mkMe { me_addr : N; me_len : N; me_id : N }.

(** is_exclusive, l.133-143 *)
Definition x_exclusive (o : xop) : bool :=
  match xo_attr o with Some a => xa_excl a | None => false end.

(** has_location, l.76-83; addr + len is computed in 64 bits. *)
Definition has_location (e : mentry) (g : gp) : bool :=
  (me_addr e <=? g_addr g) && (g_addr g <? (me_addr e + me_len e) mod u64).
(** has_same_location, l.85-89 *)
Definition has_same_location (e : mentry) (g : gp) : bool :=
  (me_addr e =? g_addr g) && (me_len e =? g_len g).
(** has_masked_id, l.91-104 *)
Definition has_masked_id (mask : N) (e : mentry) (o : xop) : bool :=
  match xo_attr o with Some a => me_id e =? N.land (xa_id a) mask | None => false end.

(** is_monitored_location, l.145-157 *)
Definition is_monitored (mask : N) (m : list mentry) (o : xop) : bool :=
  existsb (fun e => has_masked_id mask e o && has_same_location e (xo_gp o)) m.

(** monitor_clear_locations, l.159-172 *)
Definition clear_locations (m : list mentry) (g : gp) : list mentry :=
  filter (fun e => negb (has_location e g)) m.

(** monitor_clear_id, l.174-186: the first entry with this id. *)
Fixpoint clear_id (m : list mentry) (id : N) : list mentry :=
  match m with
  | [] => []
  | e :: m' => if me_id e =? id then m' else e :: clear_id m' id
  end.

(** monitor_location, l.188-196; without the extension the id is the default 0. *)
Definition monitor_location (mask : N) (m : list mentry) (o : xop) : list mentry :=
  let id := match xo_attr o with Some a => N.land (xa_id a) mask | None => 0 end in
  clear_id m id ++ [mkMe (g_addr (xo_gp o)) (g_len (xo_gp o)) id].

(** set_exclusive_handled, l.198-210: the call at l.208 uses the default
    argument of PROP_GETSET_GEN(exclusive_handled, bool, false),
    tlm-extensions/genattr.h l.211, that is [false]. *)
Definition set_handled (a : option xattr) : option xattr :=
  match a with Some a => Some (mkXattr (xa_excl a) (xa_id a) false) | None => None end.

(** What the initiator gets back. *)
Record xres := mkXres { xr_data : list N; xr_status : status; xr_attr : option xattr }.

(** b_transport, l.212-254 *)
Definition exmon_transport {S} (mask : N) (t : target S) (ms : list mentry * S) (o : xop)
  : (list mentry * S) * xres :=
  let '(m, s) := ms in
  let g := xo_gp o in
  let excl := x_exclusive o in
  match g_cmd g with
  | C_WRITE =>
    if excl then
      if is_monitored mask m o then
        let '(s', (d, st)) := t s g in
        ((clear_locations m g, s'), mkXres d st (set_handled (xo_attr o)))
      else ((m, s), mkXres (g_data g) St_OK (set_handled (xo_attr o)))
    else
      let '(s', (d, st)) := t s g in
      ((clear_locations m g, s'), mkXres d st (xo_attr o))
  | C_READ =>
    let '(s', (d, st)) := t s g in
    match excl, st with
    | true, St_OK => ((monitor_location mask m o, s'), mkXres d st (set_handled (xo_attr o)))
    | _, _ => ((m, s'), mkXres d st (xo_attr o))
    end
  | C_IGNORE =>
    let '(s', (d, st)) := t s g in ((m, s'), mkXres d st (xo_attr o))
  end.

(** A history of transactions through the monitor. *)
Fixpoint exmon_run {S} (mask : N) (t : target S) (ms : list mentry * S) (ops : list xop)
  : list mentry * S :=
  match ops with
  | [] => ms
  | o :: ops' => exmon_run mask t (fst (exmon_transport mask t ms o)) ops'
  end.
