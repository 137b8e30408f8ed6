(** Shared vocabulary of the models: outcomes of C/C++ code, bytes, big- and
    little-endian integers, byte buffers. *)
From Coq Require Export List NArith ZArith Lia Bool Arith.
From Coq Require Export ZifyBool ZifyNat ZifyN.
Export ListNotations.

(** Outcome of a modelled piece of C/C++ code.  [AssertFail]: an assert() or
    exit() stops the program.  [UB]: undefined behaviour (out-of-bounds access,
    division by zero ...).  [Unmodelled]: the code is defined here but the model
    deliberately does not describe it; no theorem treats it as success. *)
Inductive res (A : Type) : Type :=
| Ok (a : A)
| AssertFail
| UB
| Unmodelled.
Arguments Ok {A} a.
Arguments AssertFail {A}.
Arguments UB {A}.
Arguments Unmodelled {A}.

Definition rbind {A B} (x : res A) (f : A -> res B) : res B :=
  match x with
  | Ok a => f a
  | AssertFail => AssertFail
  | UB => UB
  | Unmodelled => Unmodelled
  end.

Definition rmap {A B} (f : A -> B) (x : res A) : res B :=
  rbind x (fun a => Ok (f a)).

(** A byte is an [N] below 256. *)
Definition is_byte (b : N) : Prop := (b < 256)%N.
Definition bytes_ok (l : list N) : Prop := Forall is_byte l.

(** htobe16/32/64 followed by a store, seen as bytes in memory: most
    significant byte first, [k] bytes. *)
Fixpoint be_enc (k : nat) (v : N) : list N :=
  match k with
  | O => []
  | S k' => ((v / 256 ^ N.of_nat k') mod 256)%N :: be_enc k' v
  end.

(** Value of a byte sequence read most-significant-first (load + beNNtoh). *)
Fixpoint be_dec_acc (acc : N) (l : list N) : N :=
  match l with
  | [] => acc
  | b :: l' => be_dec_acc (acc * 256 + b)%N l'
  end.
Definition be_dec (l : list N) : N := be_dec_acc 0 l.

(** Value of a byte sequence loaded on a little-endian host without swapping. *)
Definition le_dec (l : list N) : N := be_dec (rev l).
Definition le_enc (k : nat) (v : N) : list N := rev (be_enc k v).

(** [k] bytes at offset [off] of a buffer. *)
Definition slice (off k : nat) (l : list N) : list N := firstn k (skipn off l).

(** Big-endian field of [k] bytes at offset [off]. *)
Definition fld (off k : nat) (l : list N) : N := be_dec (slice off k l).

(** memcpy of [d] over the beginning of [l] starting at [off] (in bounds). *)
Definition overlay (off : nat) (d l : list N) : list N :=
  firstn off l ++ d ++ skipn (off + length d) l.

Definition u8  : N := 256.
Definition u16 : N := 65536.
Definition u32 : N := 4294967296.
Definition u64 : N := 18446744073709551616.
