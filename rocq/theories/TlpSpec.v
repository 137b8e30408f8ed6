(** PCI Express packets as bytes (PCI Express Base Specification 5.0, 2.2.1,
    2.2.7, 2.2.9), without reference to the bridge.  Fields the bridge always
    sends as zero (traffic class, attributes, digest, poison ...) are zero. *)
From Verif Require Import Base.
Open Scope N_scope.

(** Length field: 1 to 1024 words, 1024 is written as 0. *)
Definition len_bytes (dw : N) : list N := be_enc 2 (dw mod 1024).

(** Memory request: 64-bit addresses use the header of four words. *)
Definition mem_packet (write : bool) (requester tag last first addr dw : N) (data : list N) : list N :=
  [(if addr <? 2 ^ 32 then 0 else 32) + (if write then 64 else 0); 0] ++ len_bytes dw ++
  be_enc 2 requester ++ [tag; 16 * last + first] ++
  (if addr <? 2 ^ 32 then be_enc 4 addr else be_enc 8 addr) ++ data.

(** Completion with data. *)
Definition cpl_packet (completer status bytes requester tag lower dw : N) (data : list N) : list N :=
  [64 + 10; 0] ++ len_bytes dw ++ be_enc 2 completer ++
  be_enc 2 (status * 8192 + bytes mod 4096) ++ be_enc 2 requester ++ [tag; lower] ++ data.

(** Configuration request, type 0. *)
Definition cfg_packet (write : bool) (requester tag first bus dev fn ext reg : N) (data : list N) : list N :=
  [(if write then 64 else 0) + 4; 0; 0; 1] ++ be_enc 2 requester ++ [tag; first] ++
  [bus; dev * 8 + fn; ext; reg * 4] ++ data.

(** Bit [i] of a byte-enable field. *)
Definition be_bit (be i : N) : bool := N.testbit be i.

(** Completion without data. *)
Definition cpl_nodata (completer status bytes requester tag lower : N) : list N :=
  [10; 0; 0; 0] ++ be_enc 2 completer ++
  be_enc 2 (status * 8192 + bytes mod 4096) ++ be_enc 2 requester ++ [tag; lower].

(** A register access within one word: its bytes in their lanes, 0 elsewhere. *)
Definition in_lanes (start : nat) (data : list N) : list N :=
  repeat 0 start ++ data ++ repeat 0 (4 - start - length data).
