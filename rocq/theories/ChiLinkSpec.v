(** What a CHI link layer owes its users (AMBA CHI chapter 13): credits and delivery. *)
From Verif Require Import Base ChiLinkModel.

Definition flag (b : bool) : nat := if b then 1 else 0.
Definition held {A} (o : option A) : nat := match o with Some _ => 1 | None => 0 end.
(** All credits: with the transmitter, with the receiver, on the wires. *)
Definition credits (c : chan) : nat := c_tx c + c_rx c + flag (c_lv c) + held (c_fv c).

(** The packets among flits. *)
Fixpoint packets (l : list flit) : list N :=
  match l with
  | [] => []
  | Pkt x :: l' => x :: packets l'
  | Ret :: l' => packets l'
  end.
Definition flying (c : chan) : list N :=
  match c_fv c with Some (Pkt x) => [x] | _ => [] end.
(** The two directions: [true] from A to B. *)
Definition way (b : bool) (s : sys) : dir := if b then s_ab s else s_ba s.
Definition news (b : bool) (l : label) : list (list N) := if b then l_ab l else l_ba l.
Definition want (b : bool) (l : label) : lstate := if b then l_a l else l_b l.
(** Packets accepted for channel [i] of a direction in the course of an execution. *)
Definition given (b : bool) (i : nat) (ls : list label) : list N :=
  flat_map (fun l => nth i (news b l) []) ls.

(** The state of a direction during an execution. *)
Definition always (P : sys -> Prop) (s : sys) (ls : list label) : Prop :=
  forall k, (k < length ls)%nat -> P (run s (firstn k ls)).
Definition reached (n m : nat) (s : sys) : Prop := exists ls, s = run (start n m) ls.
