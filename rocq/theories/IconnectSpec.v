(** What an address map means.  A region is given by its base and the offset of
    its last byte: every memmap call in the repository passes "size - 1". *)
From Verif Require Import Base.
Open Scope N_scope.

Record region := mkRegion { r_base : N; r_last : N; r_rel : bool; r_idx : option nat }.

(** Inside the 64-bit space and longer than one byte (a last offset of zero is
    the code's mark for a free entry). *)
Definition region_ok (r : region) : Prop := 0 < r_last r /\ r_base r + r_last r < u64.

Definition contains (r : region) (a : N) : Prop := r_base r <= a <= r_base r + r_last r.

(** Address seen by the target. *)
Definition local (r : region) (a : N) : N := if r_rel r then a - r_base r else a.
(** And back. *)
Definition global (r : region) (x : N) : N := if r_rel r then r_base r + x else x.

(** The target of the [i]-th mapped region. *)
Definition target_of (r : region) (i : nat) : nat :=
  match r_idx r with None => i | Some k => k end.

Definition calls (rs : list region) : list (N * N * bool * option nat) :=
  map (fun r => (r_base r, r_last r, r_rel r, r_idx r)) rs.

(** Region number [i] is the first that contains [a]. *)
Definition first_region (rs : list region) (a : N) (i : nat) (r : region) : Prop :=
  nth_error rs i = Some r /\ contains r a /\
  forall j r', (j < i)%nat -> nth_error rs j = Some r' -> ~ contains r' a.
(** ... or the only one. *)
Definition only_region (rs : list region) (a : N) (i : nat) (r : region) : Prop :=
  nth_error rs i = Some r /\ contains r a /\
  forall j r', j <> i -> nth_error rs j = Some r' -> ~ contains r' a.
