(** What an exclusive monitor has to do, in terms of the history of
    transactions seen on its downstream side. *)
From Verif Require Import Base TlmModel TlmSpec ExmonModel.
Open Scope N_scope.

(** One entry of the history: what was asked, and the downstream answer if the
    transaction went downstream. *)
Definition event : Type := xop * option status.

(** [e] was a successful exclusive read of [a, a+l) by the master with masked
    id [id]. *)
Definition opens (mask : N) (e : event) (id a l : N) : Prop :=
  g_cmd (xo_gp (fst e)) = C_READ /\ snd e = Some St_OK /\
  g_addr (xo_gp (fst e)) = a /\ g_len (xo_gp (fst e)) = l /\
  exists x, xo_attr (fst e) = Some x /\ xa_excl x = true /\ N.land (xa_id x) mask = id.

(** [e] was a write that went downstream. *)
Definition written (e : event) : Prop :=
  g_cmd (xo_gp (fst e)) = C_WRITE /\ snd e <> None.

Definition overlaps (g : gp) (a l : N) : Prop :=
  g_addr g < a + l /\ a < g_addr g + g_len g.
Definition starts_inside (g : gp) (a l : N) : Prop :=
  a <= g_addr g < a + l.

(** After history [h], master [id] holds a reservation for [a, a+l): it read
    the range exclusively, and since then nothing hit the range ([hits]) and it
    made no other exclusive read. *)
Definition reserved (hits : gp -> N -> N -> Prop) (mask : N) (h : list event)
    (id a l : N) : Prop :=
  exists before e after, h = before ++ e :: after /\ opens mask e id a l /\
    Forall (fun e' => ~ (written e' /\ hits (xo_gp (fst e')) a l) /\
                      ~ exists a' l', opens mask e' id a' l') after.

(** An exclusive write by master [id]. *)
Definition exclusive_write (mask : N) (o : xop) (id : N) : Prop :=
  g_cmd (xo_gp o) = C_WRITE /\
  exists x, xo_attr o = Some x /\ xa_excl x = true /\ N.land (xa_id x) mask = id.

Definition xop_ok (o : xop) : Prop :=
  0 < g_len (xo_gp o) /\ g_addr (xo_gp o) + g_len (xo_gp o) < u64.

(** A target that records what reached it. *)
Definition hears {S} (t : target S) : target (S * list (gp * status)) := recording t.

(** History of a run: each transaction with the answer it got downstream. *)
Fixpoint history {S} (mask : N) (t : target S) (ms : list mentry * S) (ops : list xop)
  : list event :=
  match ops with
  | [] => []
  | o :: ops' =>
    let '((m, sl), _) := exmon_transport mask (recording t) (fst ms, (snd ms, [])) o in
    (o, match snd sl with [] => None | e :: _ => Some (snd e) end)
      :: history mask t (m, fst sl) ops'
  end.
