(** What the snoop filters are for: which node has which line, and who has to be snooped. *)
From Verif Require Import Base CcixHomeModel.
Open Scope N_scope.

Definition line_of (a : N) (ns : bool) : aline := (a / 64 * 64, ns).
(** Requests after which the requester has the line (CHI tables 4-12 and 4-13) *)
Definition takes (op : N) : bool :=
  existsb (N.eqb op) [1 (* ReadShared *); 2 (* ReadClean *); 7 (* ReadUnique *); 11 (* CleanUnique *); 12 (* MakeUnique *); 38 (* ReadNotSharedDirty *)].
(** Requests that change nothing: CleanShared, WriteCleanFull, CleanSharedPersist *)
Definition keeps (op : N) : bool := existsb (N.eqb op) [8; 23; 39].
(** Answers of a node that no longer has the line: I and I_PD *)
Definition gone (resp : N) : bool := existsb (N.eqb resp) [0; 4].

(** Which node has which line, as the nodes know it *)
Definition same (x y : N * aline) : bool :=
  (fst x =? fst y) && (fst (snd x) =? fst (snd y)) && Bool.eqb (snd (snd x)) (snd (snd y)).
Definition give_up (n : N) (x : aline) (h : list (N * aline)) : list (N * aline) :=
  filter (fun y => negb (same y (n, x))) h.
Definition truth (s : home) (h : list (N * aline)) (e : hev) : list (N * aline) :=
  match e with
  | Start _ => h
  | Answer i resp =>
    match nth_error (h_snp s) i with
    | Some (_, n, x) => if gone resp then give_up n x h else h
    | None => h
    end
  | Finish =>
    match h_cur s with
    | Some (q, []) =>
      let x := line_of (q_addr q) (q_ns q) in
      if takes (q_op q) then (q_src q, x) :: h
      else if keeps (q_op q) then h else give_up (q_src q) x h
    | _ => h
    end
  | Drop n x => give_up n x h
  end.
Fixpoint holders (s : home) (h : list (N * aline)) (es : list hev) : list (N * aline) :=
  match es with
  | [] => h
  | e :: r => match hstep s e with Ok s' => holders s' (truth s h e) r | _ => truth s h e end
  end.

(** Requests as CHI allows them: the reads that allocate have a CompAck, and the source
    is a node of the home. *)
Definition proper (nodes : list N) (e : hev) : Prop :=
  match e with
  | Start q => In (q_src q) nodes /\ (In (q_op q) [1; 2; 7; 38] -> q_ack q = true)
  | _ => True
  end.
(** All nodes of a home *)
Definition nodes_of (rnf : list N) (agents : list N) : list N := rnf ++ agents.
(** Every CCIX port has one agent. *)
Definition one_each (agents : list N) : list (list N) := map (fun a => [a]) agents.
Definition snooped (s : home) : list N := map (fun e => snd (fst e)) (h_snp s).

(** What an event means for a line: the node has it from then on, or no longer has it. *)
Definition q_at (q : hrq) (a : N) (ns : bool) : Prop := q_addr q / 64 = a / 64 /\ q_ns q = ns.
Definition gets (e : sfev) (a : N) (ns : bool) : Prop :=
  match e with SfRequest q => takes (q_op q) = true /\ q_at q a ns | SfAnswer _ _ => False end.
Definition loses (e : sfev) (a : N) (ns : bool) : Prop :=
  match e with
  | SfRequest q => takes (q_op q) = false /\ keeps (q_op q) = false /\ q_at q a ns
  | SfAnswer resp q => gone resp = true /\ q_at q a ns
  end.
