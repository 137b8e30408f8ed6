(** What exclusive accesses have to do (IHI 0050, chapter 6). *)
From Verif Require Import Base ChiExModel.
Open Scope N_scope.

(** Two addresses in the same 64-byte line. *)
Definition same_line (a b : N) : Prop := a / 64 = b / 64.

(** [e] is an exclusive load of a range with byte [a], or an exclusive store from [a] on. *)
Definition loads (e : xev) (a : N) : Prop :=
  match e with XLoad b n _ _ => b <= a < b + n | _ => False end.
Definition stores_at (e : xev) (a : N) : Prop :=
  match e with XStore b n _ => b = a /\ 0 < n | _ => False end.
(** Another requester takes the line of [a]. *)
Definition taken_by_other (e : xev) (a : N) : Prop :=
  match e with Other b => same_line b a | _ => False end.
Definition displaced (e : xev) : Prop := match e with Evict _ => True | _ => False end.

(** The pieces written, given by their first bytes, cover the range. *)
Definition covers (ws : list N) (a n : N) : Prop :=
  forall x, a <= x < a + n -> exists w, In w ws /\ w <= x /\ same_line w x.

(** The point of coherency's monitor, on the answers given: the exclusive store at
    position [k] may succeed only if the same requester made an exclusive access
    before, and no exclusive store of another one succeeded since. *)
Definition exclusive (r : hreq) : Prop := h_excl r = true /\ (h_op r < 40 \/ 57 < h_op r).
Definition opens (r : hreq) : Prop := exclusive r /\ In (h_op r) [1; 2; 38; 11].
Definition may_pass (out : list (hreq * routed)) (k : nat) (r : hreq) : Prop :=
  exists i ri oi, (i < k)%nat /\ nth_error out i = Some (ri, oi) /\ opens ri /\ h_lpid ri = h_lpid r /\
    forall j rj oj, (i < j < k)%nat -> nth_error out j = Some (rj, oj) -> ro_okay oj = true ->
      h_lpid rj = h_lpid r.
