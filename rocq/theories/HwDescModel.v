(** Model of /repo/rtl-bridges/pcie-host/axi/tlm/axi2tlm-hw-bridge.h, process (l.501-566) and
    work_thread (l.568-609): who owns the descriptors of the slave bridge in hardware.

    What the registers say is an input.  process_desc_free is C112; here it counts with its flip
    of the ownership (l.489) and l.491-492 only.  The payloads of mode 1 (l.536-539), debug output
    and the waits of l.579-583 are left out. *)
From Coq Require Import ZArith.
From Verif Require Import Base.
Open Scope N_scope.

Definition MASK : N := 65535.                                    (* DESC_MASK, l.56 *)
Definition descs : list N := map N.of_nat (seq 0 16).            (* MAX_NR_DESCRIPTORS, l.55 *)

(** desc_busy (l.80) and desc_state (l.79): whether it is DESC_STATE_DATA *)
Record st : Type := mkSt { db : N; data : N -> bool }.
Definition init : st := mkSt 0 (fun _ => false).                 (* l.124 *)

Inductive act : Type :=
| Clear (m : N)       (* write of INTR_TXN_AVAIL_CLEAR *)
| Flip (m : N)        (* write of OWNERSHIP_FLIP *)
| Handle (d : N)      (* the transaction of a descriptor *)
| Enable (m : N).     (* write of INTR_TXN_AVAIL_ENABLE *)

Definition upd (f : N -> bool) (d : N) (b : bool) : N -> bool := fun x => if x =? d then b else f x.

(** l.489-492 *)
Definition desc_free (s : st) (d : N) : st * list act :=
  (mkSt (N.lor (db s) (2 ^ d)) (upd (data s) d true), [Handle d; Flip (2 ^ d)]).

(** l.533-540 *)
Definition release (s : st) (d : N) : st := mkSt (N.ldiff (db s) (2 ^ d)) (upd (data s) d false).

(** l.529-545 *)
Fixpoint loop (ds : list N) (avail ack : N) (s : st) : st * list act :=
  match ds with
  | [] => (s, [])
  | d :: ds' =>
      let '(s1, a1) := if N.testbit avail d then desc_free s d else (s, []) in
      let s2 := if N.testbit ack d then release s1 d else s1 in
      let '(s3, a3) := loop ds' avail ack s2 in (s3, a1 ++ a3)
  end.

(** l.515-526 *)
Definition acked (s : st) (busy own : N) : N :=
  let ack := N.ldiff (N.ldiff (N.land (db s) MASK) busy) own in
  if negb (ack =? 0) && negb ((busy =? 0) && (own =? 0)) then 0 else ack.

(** l.501-566; the result is that of l.565 *)
Definition process (s : st) (avail busy own : N) : st * list act * bool :=
  let ack := acked s busy own in
  let '(s', acts) := loop descs avail ack s in
  (s', Clear avail :: (if ack =? 0 then [] else [Flip ack]) ++ acts, db s' =? MASK).

(** The thread waits (l.579-588), or is in the inner loop with r_avail *)
Inductive phase : Type := Idle | Busy (avail : N).

(** [Irq r]: l.586 reads r.  [Iter busy own r]: l.512, l.513 and l.600 read busy, own and r. *)
Inductive event : Type := Irq (r : N) | Iter (busy own r : N).

(** l.578-608 *)
Definition step (x : st * phase) (e : event) : (st * phase) * list act :=
  match x, e with
  | (s, Idle), Irq r => if r =? 0 then (x, []) else ((s, Busy r), [Enable 0])
  | (s, Busy avail), Iter busy own r =>
      let '(s', acts, pending) := process s avail busy own in
      if negb (r =? 0) || pending then ((s', Busy r), acts)
      else ((s', Idle), acts ++ [Enable MASK])
  | _, _ => (x, [])
  end.

Fixpoint run (x : st * phase) (es : list event) : st * phase :=
  match es with
  | [] => x
  | e :: es' => run (fst (step x e)) es'
  end.
