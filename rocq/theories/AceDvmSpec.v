(** DVM Sync and DVM Complete (AMBA AXI and ACE, C12): each other participant sends one
    Complete for each Sync, in order; the initiator gets its Complete when it has all. *)
From Verif Require Import Base AceDvmModel.
Open Scope N_scope.

(** The Syncs so far and how many Completes each port sent *)
Definition syncs (es : list dev) : list N := flat_map (fun e => match e with Sync p => [p] | _ => [] end) es.
Definition sent_by (r : N) (es : list dev) : nat :=
  length (filter (fun e => match e with Complete x => x =? r | _ => false end) es).
(** Who has to complete a Sync of p *)
Definition others (ports : list N) (fwd : N -> bool) (p : N) : list N :=
  filter (fun r => fwd r && negb (r =? p)) ports.
Definition owes (ports : list N) (fwd : N -> bool) (p r : N) : bool := existsb (N.eqb r) (others ports fwd p).
(** Each Sync takes one Complete of every other participant, in the order of the Syncs;
    the initiators of those that have them all *)
Fixpoint complete_syncs (ports : list N) (fwd : N -> bool) (c : N -> nat) (l : list N) : list N :=
  match l with
  | [] => []
  | p :: l' =>
    let c' := fun r => if owes ports fwd p r then pred (c r) else c r in
    if forallb (fun r => Nat.ltb 0 (c r)) (others ports fwd p)
    then p :: complete_syncs ports fwd c' l'
    else complete_syncs ports fwd c' l'
  end.
(** How many Completes port r has to send *)
Definition due (ports : list N) (fwd : N -> bool) (r : N) (l : list N) : nat :=
  length (filter (fun p => owes ports fwd p r) l).

(** The masters keep the rules: one Sync at a time each; a Complete only if one is due;
    and there is somebody else who takes part. *)
Definition legal (ports : list N) (fwd : N -> bool) (before : list dev) (s : dvm) (e : dev) : Prop :=
  match e with
  | Sync p => ~ In p (d_list s) /\ others ports fwd p <> []
  | Complete r => (sent_by r before < due ports fwd r (syncs before))%nat
  | Sent _ => True
  end.
(** No Complete comes while the interconnect is still sending one. *)
Definition prompt (s : dvm) (e : dev) : Prop :=
  match e with Complete _ => d_exec s = [] | _ => True end.
Definition keeps_rules (ports : list N) (fwd : N -> bool) (es : list dev) : Prop :=
  forall e1 e e2 s, es = e1 ++ e :: e2 -> drun ports fwd dvm_init e1 = Ok s ->
    legal ports fwd e1 s e /\ prompt s e.
Definition times (p : N) (l : list N) : nat := length (filter (N.eqb p) l).
