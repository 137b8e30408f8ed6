(** CRC-32 of IEEE 802.3 (ISO 3309), bit by bit, independent of any table.

    The message is processed least significant bit of each byte first; the
    register holds the remainder reflected; the generator polynomial
    x^32+x^26+x^23+x^22+x^16+x^12+x^11+x^10+x^8+x^7+x^5+x^4+x^2+x+1 is
    therefore the constant with bit 31-k set for each term x^k, k < 32. *)
From Verif Require Import Base.
Open Scope N_scope.

Definition generator_exponents : list N := [26;23;22;16;12;11;10;8;7;5;4;2;1;0].
Definition generator : N :=
  fold_left (fun acc k => N.lor acc (N.shiftl 1 (31 - k))) generator_exponents 0.

(** Shift one message bit in. *)
Definition shift_bit (r : N) (b : bool) : N :=
  let q := N.shiftr r 1 in if xorb (N.testbit r 0) b then N.lxor q generator else q.

Definition bits_of_byte (c : N) : list bool :=
  map (fun i => N.testbit c (N.of_nat i)) (seq 0 8).
Definition message_bits (m : list N) : list bool := flat_map bits_of_byte m.

(** All-ones preset, complemented result. *)
Definition ones32 : N := 4294967295.
Definition crc_ieee (m : list N) : N :=
  N.lxor (fold_left shift_bit (message_bits m) ones32) ones32.
