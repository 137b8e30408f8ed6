(** What an atomic has to do, stated on the payload and on memory. *)
From Verif Require Import Base TlmModel SnModel SnSpec AtomModel.
Open Scope N_scope.

(** A payload for an [n]-byte atomic inside a line: data of that length, no byte
    enables, 32 bytes of operands in the extension. *)
Definition pay_ok (p : apay) : Prop :=
  length (p_data p) = N.to_nat (p_len p) /\ p_be p = [] /\ length (p_attr p) = 32%nat /\
  p_addr p mod 64 + p_len p <= 64.

(** The operand: the data of the payload for AtomicStore, the first bytes of the
    extension for the others. *)
Definition operand (st : bool) (p : apay) : list N := if st then p_data p else lanes (p_attr p) 0 (p_len p).

(** No other copy of the line, or copies that only need to go. *)
Definition quiet (h : holder) : Prop := h = HNone \/ h = HShared.

(** Buffers of 64 bytes. *)
Definition junk_ok (j : junk) : Prop :=
  length (j_be j) = 64%nat /\ length (j_wd j) = 64%nat /\ length (j_wb j) = 64%nat /\
  length (j_ad j) = 64%nat /\ length (j_ab j) = 64%nat.

(** The value every observer should see at byte [x]: that of a dirty copy, of memory
    otherwise. *)
Definition current (m : mem) (line : N) (h : holder) (x : N) : N :=
  match h with
  | HDirty d => if (line <=? x) && (x <? line + 64) then nth (N.to_nat (x - line)) d 0 else m x
  | _ => m x
  end.
