(** A register block seen from the bus, bit by bit. *)
From Verif Require Import Base TlmModel TlmSpec RegapiModel.
Open Scope N_scope.

(** Descriptions: one per register, at its own address, naturally aligned and
    inside the block of [n] registers of [sz] bytes. *)
Definition described (sz : N) (n : nat) (info : list rinfo) : Prop :=
  0 < sz /\ (length info <= n)%nat /\ NoDup (map ri_addr info) /\
  Forall (fun i => ri_addr i mod sz = 0 /\ ri_addr i / sz < N.of_nat n) info.

(** Bit [k] of the register at address [a]. *)
Definition bit_of (sz : N) (regs : list N) (a k : N) : bool :=
  N.testbit (nth (N.to_nat (a / sz)) regs 0) k.

(** The write a transaction performs on the register at [a]: a bus write of the
    register's size to that address. *)
Definition is_write_to (sz a : N) (g : gp) : bool :=
  match g_cmd g with C_WRITE => (g_addr g =? a) && (g_len g =? sz) | _ => false end.

(** Value of bit [k] after a history: the last value written, or the initial. *)
Fixpoint last_written (sz a k : N) (init : bool) (ops : list gp) : bool :=
  match ops with
  | [] => init
  | g :: ops' =>
    last_written sz a k (if is_write_to sz a g then N.testbit (le_dec (g_data g)) k else init) ops'
  end.

Definition only_reads_and_writes (ops : list gp) : Prop :=
  Forall (fun g => g_cmd g <> C_IGNORE) ops.

(** Bit ranges. *)
Definition in_range (start len k : N) : bool := (start <=? k) && (k <? start + len).
