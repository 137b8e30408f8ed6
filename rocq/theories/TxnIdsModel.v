(** Model of tlm-modules/private/chi/txnids.h (class TxnIDs) under SystemC's
    cooperative scheduler: a thread runs until it waits; notify() (immediate)
    makes every thread waiting on the event ready; ready threads resume one at a
    time in any order, and other threads may run in between. *)
From Verif Require Import Base.
Open Scope N_scope.

Record tstate := mkT {
  t_ids : list N;            (* m_ids *)
  t_waiting : list nat;      (* threads inside wait(m_returnIDEvent), l.53 *)
  t_ready : list nat;        (* woken, not yet resumed *)
  t_held : list (nat * N) }. (* ids handed out, by thread *)

(** Constructor, l.41-46 *)
Definition ids_init : tstate := mkT (map N.of_nat (seq 0 256)) [] [] [].

(** l.56-59: front() and pop_front() of an empty list are undefined. *)
Definition take_id (s : tstate) (ready : list nat) (t : nat) : res tstate :=
  match t_ids s with
  | [] => UB
  | id :: ids => Ok (mkT ids (t_waiting s) ready ((t, id) :: t_held s))
  end.

Inductive tevent :=
| Get (t : nat)          (* thread t calls GetID *)
| Resume (t : nat)       (* thread t resumes after the wait *)
| Ret (t : nat) (id : N). (* thread t calls ReturnID(id) *)

Definition pair_eqb (a b : nat * N) : bool := (fst a =? fst b)%nat && (snd a =? snd b).
Fixpoint remove_first (x : nat * N) (l : list (nat * N)) : list (nat * N) :=
  match l with
  | [] => []
  | y :: l' => if pair_eqb x y then l' else y :: remove_first x l'
  end.

(** GetID, l.48-60, and ReturnID, l.62-66. *)
Definition tstep (s : tstate) (e : tevent) : res tstate :=
  match e with
  | Get t =>
    match t_ids s with
    | [] => Ok (mkT [] (t :: t_waiting s) (t_ready s) (t_held s))
    | _ => take_id s (t_ready s) t
    end
  | Resume t => take_id s (remove Nat.eq_dec t (t_ready s)) t
  | Ret t id =>
    Ok (mkT (t_ids s ++ [id]) [] (t_ready s ++ t_waiting s) (remove_first (t, id) (t_held s)))
  end.

(** Events that can happen: only ready threads resume, and (the callers' part) a
    thread returns only an id it holds. *)
Definition possible (s : tstate) (e : tevent) : Prop :=
  match e with
  | Get _ => True
  | Resume t => In t (t_ready s)
  | Ret t id => In (t, id) (t_held s)
  end.

(** Executions from the initial state. *)
Inductive texec : tstate -> list tevent -> res tstate -> Prop :=
| te_nil s : texec s [] (Ok s)
| te_step s e es s1 r : possible s e -> tstep s e = Ok s1 -> texec s1 es r -> texec s (e :: es) r
| te_fail s e es : possible s e -> tstep s e = UB -> texec s (e :: es) UB.
