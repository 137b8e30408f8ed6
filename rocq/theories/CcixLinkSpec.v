(** What the credits of a CCIX link have to do (CCIX base specification, 3.7). *)
From Verif Require Import Base CcixLinkModel.
Open Scope N_scope.

Definition is_req (m : lmsg) : bool := match m with LReq _ _ => true | LSnp _ => false end.
Definition is_snp (m : lmsg) : bool := negb (is_req m).
(** Write requests, by CHI opcode *)
Definition is_wr (m : lmsg) : bool :=
  match m with LReq _ op => existsb (N.eqb op) [21; 23; 24; 25; 26; 27; 28; 29; 32; 33] | LSnp _ => false end.
(** Requests with data: writes and atomics *)
Definition with_data (m : lmsg) : bool :=
  is_wr m || match m with LReq _ op => (40 <=? op) && (op <=? 57) | LSnp _ => false end.
Definition count (f : lmsg -> bool) (l : list lmsg) : N := N.of_nat (length (filter f l)).
Fixpoint total (f : credits -> N) (l : list credits) : N :=
  match l with [] => 0 | g :: gs => f g + total f gs end.

(** Credits of one kind: at the sender, on the way, at the receiver, and the messages
    that hold one. *)
Definition credit_sum (get : credits -> N) (kind : lmsg -> bool) (s : link) : N :=
  get (k_rx s) + total get (k_grants s) + get (k_tx s) + count kind (k_wire s) + count kind (k_open s).

Definition asked (es : list lev) : list lmsg :=
  flat_map (fun e => match e with Ask m => [m] | _ => [] end) es.
