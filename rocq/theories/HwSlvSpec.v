(** What C112 says: where AXI (A3.4) has the bytes of a burst. *)
From Coq Require Import ZArith.
From Verif Require Import Base HwSlvModel.
Open Scope N_scope.

(** A burst on a bus of W bytes: AxSIZE at most the width, both powers of two *)
Definition legal (W : N) (a : axi) : Prop :=
  1 <= a_beats a /\ exists s w, s <= w /\ a_nb a = 2 ^ s /\ W = 2 ^ w.

(** Bytes in the burst: the first beat may be unaligned; in a FIXED burst all are like it *)
Definition total (a : axi) : N :=
  match a_burst a with
  | FIXED => a_beats a * (a_nb a - a_addr a mod a_nb a)
  | _ => a_beats a * a_nb a - a_addr a mod a_nb a
  end.
(** Byte k of a burst that is FIXED or INCR: its beat and its lane *)
Definition place (W : N) (a : axi) (k : N) : N :=
  match a_burst a with
  | FIXED =>
      let m := a_nb a - a_addr a mod a_nb a in
      k / m * W + (a_addr a mod W + k mod m)
  | _ =>
      let x := a_addr a + k in
      (x / a_nb a - a_addr a / a_nb a) * W + x mod W
  end.
(** WRAP: the same with addresses that wrap at the size of the burst *)
Definition wrap_addr (a : axi) (k : N) : N :=
  let z := a_beats a * a_nb a in
  a_addr a / z * z + (a_addr a + k) mod z.
Definition wrap_place (W : N) (a : axi) (k : N) : N :=
  k / a_nb a * W + wrap_addr a k mod W.
