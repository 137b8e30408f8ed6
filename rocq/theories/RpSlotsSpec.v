(** What it means that every requester gets its own response, on histories of
    observations alone. *)
From Verif Require Import Base RpSlotsModel.
Open Scope N_scope.

(** The request thread [t] is waiting for after history [h] (oldest first). *)
Definition pend1 (t : N) (p : option N) (o : obs) : option N :=
  match o with
  | Sent t' q false => if t' =? t then Some q else p
  | Got t' _ => if t' =? t then None else p
  | _ => p
  end.
Definition pending (t : N) (h : list obs) : option N := fold_left (pend1 t) h None.

(** Every response handed to a thread answers the request it is waiting for. *)
Definition own_responses (h : list obs) : Prop :=
  forall pre post t r, h = pre ++ Got t r :: post -> pending t pre = Some r.

(** Packet ids are 32 bits: no thread is still waiting when 2^32 further requests
    have been made. *)
Definition young (y : sys) : Prop :=
  forall w, In w (y_wait y) -> y_seq y < w_seq w + 4294967296.
Definition always_young (os : list op) : Prop :=
  forall pre post y h, os = pre ++ post -> run sys0 pre = Ok (y, h) -> young y.
