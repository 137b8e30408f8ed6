(** Vocabulary for the read/write loop theorems. *)
From Verif Require Import Base RpIoModel.

(** A system call result that is not an error and not end of file. *)
Definition good (e : os) : Prop :=
  match e with Some_bytes _ | Eintr => True | _ => False end.
Definition good_or_eof (e : os) : Prop :=
  match e with Some_bytes _ | Eintr | Zero => True | _ => False end.

(** Number of calls that transfer something. *)
Fixpoint calls (evs : list os) : nat :=
  match evs with
  | [] => 0
  | Some_bytes _ :: l => S (calls l)
  | _ :: l => calls l
  end.
