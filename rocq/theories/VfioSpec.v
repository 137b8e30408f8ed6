(** What the VFIO bridge should do, without its code. *)
From Coq Require Import ZArith.
From Verif Require Import Base.
Open Scope N_scope.

(** [m'] is [m] with the bytes [l] from [off] on *)
Definition written (m m' : N -> N) (off : N) (l : list N) : Prop :=
  (forall i, (i < length l)%nat -> m' (off + N.of_nat i) = nth i l 0)
  /\ (forall x, x < off \/ off + N.of_nat (length l) <= x -> m' x = m x).

(** [l] are the bytes of [m] from [off] on *)
Definition read_from (m : N -> N) (off : N) (l : list N) : Prop :=
  forall i, (i < length l)%nat -> nth i l 0 = m (off + N.of_nat i).

(** Two ranges of [n] bytes have no byte in common *)
Definition apart (a b n : N) : Prop := a + n <= b \/ b + n <= a.
