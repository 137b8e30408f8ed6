(** Model of how /repo/rtl-bridges/pcie-host/axi/tlm/tlm-hw-bridge-base.h forwards the
    interrupt wires of the user logic: c2h_wires_toggled (l.265-276) and process_wires
    (l.278-317).

    The thread makes one access to the device at a time; between two of them the hardware may
    change any wire.  The hardware: a wire that changes its level sets its toggle flag; a write
    to the clear register clears the flags of the bits set; the line irq is high while some flag
    is set.  Simplified: other sources of irq and the second reader of it (desc_access) are left
    out; the writes to the outputs (l.308-313) take effect together; 64 wires (l.224), all
    connected; a reset of the bridge is left out. *)
From Coq Require Import ZArith.
From Verif Require Import Base.
Open Scope N_scope.

Definition wires := N -> bool.
Definition NW : N := 64.
Definition hi (i : N) : bool := (32 <=? i) && (i <? NW).
Definition lo (i : N) : bool := i <? 32.
(** r_toggles as an integer is zero *)
Definition none_set (w : wires) : bool := forallb (fun n => negb (w (N.of_nat n))) (seq 0 64).

Inductive pc : Type :=
| Rd1                              (* l.270: about to read TOGGLE_STATUS_1 *)
| Rd0 (t : wires)                  (* l.272: TOGGLE_STATUS_0 *)
| Chk (t : wires)                  (* l.290-294 *)
| Wait                             (* l.292: in wait() *)
| Clr0 (t : wires)                 (* l.297 *)
| Clr1 (t : wires)                 (* l.299 *)
| St1 (t : wires)                  (* l.302 *)
| St0 (t s : wires)                (* l.304 *)
| Out (t s : wires).               (* l.308-313 *)

Record st : Type := mkSt {
  level : wires;      (* the wires *)
  flag : wires;       (* INTR_C2H_TOGGLE_STATUS *)
  outp : wires;       (* c2h_irq *)
  at_ : pc }.

Definition irq (s : st) : bool := negb (none_set (flag s)).

(** The hardware sets wire i to b; a thread in wait() goes on when irq rises (l.292: the event
    is the rising edge) *)
Definition hw_set (s : st) (i : N) (b : bool) : st :=
  if (i <? NW) && negb (Bool.eqb (level s i) b) then
    let f := fun k => (k =? i) || flag s k in
    mkSt (fun k => if k =? i then b else level s k) f (outp s)
      (match at_ s with
       | Wait => if irq s then Wait else Rd1
       | p => p
       end)
  else s.
(** b_transport notifies process_wires_ev *)
Definition kick (s : st) : st :=
  match at_ s with Wait => mkSt (level s) (flag s) (outp s) Rd1 | _ => s end.

(** One step of the thread; in wait() it makes none *)
Definition thread (s : st) : st :=
  let go f o p := mkSt (level s) f o p in
  match at_ s with
  | Rd1 => go (flag s) (outp s) (Rd0 (fun i => hi i && flag s i))
  | Rd0 t => go (flag s) (outp s) (Chk (fun i => t i || (lo i && flag s i)))
  | Chk t =>
      if none_set t then go (flag s) (outp s) (if irq s then Rd1 else Wait)
      else go (flag s) (outp s) (Clr0 t)
  | Wait => s
  | Clr0 t => go (fun i => flag s i && negb (lo i && t i)) (outp s) (Clr1 t)
  | Clr1 t => go (fun i => flag s i && negb (hi i && t i)) (outp s) (St1 t)
  | St1 t => go (flag s) (outp s) (St0 t (fun i => hi i && level s i))
  | St0 t r => go (flag s) (outp s) (Out t (fun i => r i || (lo i && level s i)))
  | Out t r => go (flag s) (fun i => if t i then r i else outp s i) Rd1
  end.

Inductive ev : Type := Thread | Hw (i : N) (b : bool) | Kick.
Definition step (s : st) (e : ev) : st :=
  match e with Thread => thread s | Hw i b => hw_set s i b | Kick => kick s end.
Definition run (s : st) (es : list ev) : st := fold_left step es s.

(** After the reset, with no wire raised (l.76: sc_out<bool> starts with false) *)
Definition init : st := mkSt (fun _ => false) (fun _ => false) (fun _ => false) Rd1.
