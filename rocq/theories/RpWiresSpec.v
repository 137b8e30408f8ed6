(** Specification of the wire bridge on wire values. *)
From Verif Require Import Base RpProtoModel RpProtoSpec RpWiresModel.
Open Scope N_scope.

(** The interrupt messages meant by the packets of a cycle. *)
Definition wire_msgs (dev clk : N) (l : list (N * N * N * N)) : list msg :=
  map (fun '(id, line, v, fl) => MIrq id dev clk line 0 v fl) l.

(** No wire changes in a cycle in which the sender waits for an acknowledgement. *)
Fixpoint quiet_while_blocked (posted_cfg ack_cap : bool) (t : wthread)
    (cs : list (list bool * bool)) : Prop :=
  match cs with
  | [] => True
  | c :: cs' =>
    (t_blocked t = true -> fst c = t_prev t) /\
    quiet_while_blocked posted_cfg ack_cap (snd (wire_cycle posted_cfg ack_cap t c)) cs'
  end.

(** All cycles have the same number of wires. *)
Definition widths (n : nat) (cs : list (list bool * bool)) : Prop :=
  Forall (fun c => length (fst c) = n) cs.

(** The peer over a run: it receives and applies the packets of each cycle. *)
Fixpoint peer_run (dev clk : N) (buf : list N) (ls : list (list (N * N * N * N)))
    (outs : list bool) : res (list (list bool)) :=
  match ls with
  | [] => Ok []
  | l :: ls' =>
    rbind (rx_all (length l) buf (wire_bytes dev clk l)) (fun rs =>
      rbind (wires_apply dev rs outs) (fun os =>
        let o := last os outs in
        rbind (peer_run dev clk buf ls' o) (fun r => Ok (o :: r))))
  end.
