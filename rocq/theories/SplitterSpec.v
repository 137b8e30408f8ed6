(** Recording of the calls a one-to-many module makes. *)
From Verif Require Import Base TlmModel TlmSpec.
Open Scope N_scope.

(** Logs with the output number, the payload it was called with and its answer. *)
Definition call : Type := nat * gp * list N * status.

Definition logged {S} (i : nat) (t : target S) : target (S * list call) :=
  fun sl g => let '(s', (d, r)) := t (fst sl) g in
              ((s', snd sl ++ [(i, g, d, r)]), (d, r)).

Fixpoint logged_from {S} (i : nat) (ts : list (target S)) : list (target (S * list call)) :=
  match ts with [] => [] | t :: ts' => logged i t :: logged_from (Datatypes.S i) ts' end.

Definition call_status (c : call) : status := snd c.
Definition call_gp (c : call) : gp := snd (fst (fst c)).
Definition call_data (c : call) : list N := snd (fst c).
Definition call_out (c : call) : nat := fst (fst (fst c)).

Definition same_request (g h : gp) : Prop :=
  g_cmd h = g_cmd g /\ g_addr h = g_addr g /\ g_be h = g_be g /\ g_sw h = g_sw g.

(** The status of the last failing call, if any. *)
Definition last_error (st0 : status) (l : list call) : status :=
  fold_left (fun st c => match call_status c with St_OK => st | e => e end) l st0.

(** A well-behaved target does not change the data of a write. *)
Definition write_keeps_data {S} (t : target S) : Prop :=
  forall s g, g_cmd g <> C_READ -> fst (snd (t s g)) = g_data g.
