(** Model of tlm-bridges/tlm2apb-bridge.h, clock edge by clock edge, with any
    number of b_transport calls in progress (there is no mutex). *)
From Verif Require Import Base TlmModel TlmSpec.
Open Scope N_scope.

Record apb := mkApb { p_sel : bool; p_enable : bool; p_write : bool; p_addr : N; p_wdata : N }.
Definition apb_idle := mkApb false false false 0 0.

(** Where a call is: [A_Delay n] until n rising edges have passed (wait(delay),
    :105), before the rising edge of :108, before the falling edge of :109, in
    the loop :113-123, returned with status and data. *)
Inductive apc :=
| A_Delay (n : nat) | A_Setup | A_Neg | A_Access
| A_Done (st : status) (d : list N).
Record athread := mkAth { a_gp : gp; a_pc : apc; a_data : list N }.

Section Apb.
(** ADDR_WIDTH *)
Context (aw : N).

Definition is_write (g : gp) : bool := match g_cmd g with C_WRITE => true | _ => false end.

(** tlm2apb-bridge.h:73-106; [delay] in rising edges *)
Definition enter (w : apb) (g : gp) (delay : nat) : apb * athread :=
  match g_be g with
  | Some _ => (w, mkAth g (A_Done St_BYTE_ENABLE (g_data g)) (g_data g))
  | None =>
    if negb (g_len g =? 4) || (g_sw g <? g_len g)
    then (w, mkAth g (A_Done St_BURST (g_data g)) (g_data g))
    else
      (mkApb true (p_enable w) (is_write g) (g_addr g mod 2 ^ aw)
             (if is_write g then le_dec (g_data g) else 0),
       mkAth g (match delay with O => A_Setup | _ => A_Delay delay end) (g_data g))
  end.

(** A rising edge at which pready and prdata are seen. *)
Definition pos_edge (w : apb) (t : athread) (ready : bool) (rdata : N) : apb * athread :=
  match a_pc t with
  | A_Delay (S (S n)) => (w, mkAth (a_gp t) (A_Delay (S n)) (a_data t))
  | A_Delay _ => (w, mkAth (a_gp t) A_Setup (a_data t))
  | A_Setup => (w, mkAth (a_gp t) A_Neg (a_data t))
  | A_Access =>
    let d := match g_cmd (a_gp t) with C_READ => le_enc 4 rdata | _ => a_data t end in
    let w' := mkApb (negb ready) (negb ready) (p_write w) (p_addr w) (p_wdata w) in
    (w', mkAth (a_gp t) (if ready then A_Done St_OK d else A_Access) d)
  | _ => (w, t)
  end.
(** A falling edge. *)
Definition neg_edge (w : apb) (t : athread) : apb * athread :=
  match a_pc t with
  | A_Neg => (mkApb (p_sel w) true (p_write w) (p_addr w) (p_wdata w), mkAth (a_gp t) A_Access (a_data t))
  | _ => (w, t)
  end.

(** All threads one after the other; the last one to write a signal wins. *)
Fixpoint each (f : apb -> athread -> apb * athread) (w : apb) (l : list athread) : apb * list athread :=
  match l with
  | [] => (w, [])
  | t :: l' => let '(w1, t1) := f w t in let '(w2, l2) := each f w1 l' in (w2, t1 :: l2)
  end.
Fixpoint enter_all (w : apb) (l : list (gp * nat)) : apb * list athread :=
  match l with
  | [] => (w, [])
  | (g, d) :: l' => let '(w1, t) := enter w g d in let '(w2, ts) := enter_all w1 l' in (w2, t :: ts)
  end.

(** One clock cycle: calls that are made, then the rising edge (at which the
    slave sees the wires as they are now), then the falling edge. *)
Record acycle := mkCyc { y_calls : list (gp * nat); y_ready : bool; y_rdata : N }.
Definition apb_cycle (s : apb * list athread) (y : acycle) : apb * list athread * apb :=
  let '(w1, ts) := enter_all (fst s) (y_calls y) in
  let '(w2, l2) := each (fun w t => pos_edge w t (y_ready y) (y_rdata y)) w1 (snd s ++ ts) in
  let '(w3, l3) := each neg_edge w2 l2 in
  (w3, l3, w1).
(** The wires seen by the slave at each rising edge. *)
Fixpoint apb_cycles (s : apb * list athread) (l : list acycle) : apb * list athread * list apb :=
  match l with
  | [] => (s, [])
  | y :: l' =>
    let '(s1, o) := apb_cycle s y in
    let '(s2, os) := apb_cycles s1 l' in (s2, o :: os)
  end.
End Apb.
