(** What a byte stream with packet boundaries carries. *)
From Verif Require Import Base.

Inductive item := Byte (b : N) | End.
(** A transaction: its data, and an end of packet if the attribute says so. *)
Definition items (t : list N * bool) : list item := map Byte (fst t) ++ (if snd t then [End] else []).
Definition stream (ts : list (list N * bool)) : list item := flat_map items ts.
