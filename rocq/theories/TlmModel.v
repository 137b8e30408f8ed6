(** TLM-2.0 vocabulary shared by the models: generic payload, response status,
    the generic attribute extension of tlm-extensions/genattr.h, and the
    reference meaning of a payload on a byte memory (TLM-2.0 LRM, 14.10-14.13).*)
From Verif Require Import Base.
Open Scope N_scope.

(** tlm_gp.h: tlm_response_status *)
Inductive status :=
| St_OK | St_INCOMPLETE | St_GENERIC | St_ADDRESS | St_COMMAND | St_BURST
| St_BYTE_ENABLE.

Definition status_eqb (a b : status) : bool :=
  match a, b with
  | St_OK, St_OK | St_INCOMPLETE, St_INCOMPLETE | St_GENERIC, St_GENERIC
  | St_ADDRESS, St_ADDRESS | St_COMMAND, St_COMMAND | St_BURST, St_BURST
  | St_BYTE_ENABLE, St_BYTE_ENABLE => true
  | _, _ => false
  end.

(** tlm_gp.h: tlm_command *)
Inductive command := C_READ | C_WRITE | C_IGNORE.

(** tlm_gp.h: TLM_BYTE_ENABLED is 0xff, TLM_BYTE_DISABLED is 0x0. *)
Definition BE_ON : N := 255.
Definition BE_OFF : N := 0.

(** Generic payload; [g_be = None] is a NULL byte-enable pointer.  The length of
    the data buffer is the data length. *)
Record gp := mkGp {
  g_cmd : command; g_addr : N; g_data : list N; g_be : option (list N);
  g_sw : N; g_status : status }.

Definition g_len (g : gp) : N := N.of_nat (length (g_data g)).
Definition g_be_len (g : gp) : N :=
  match g_be g with None => 0 | Some b => N.of_nat (length b) end.

(** Is data byte [i] enabled?  (no byte-enable array: all bytes are) *)
Definition be_at (be : option (list N)) (i : N) : bool :=
  match be with
  | None => true
  | Some [] => true
  | Some b => nth (N.to_nat (i mod N.of_nat (length b))) b 0 =? BE_ON
  end.

(** A byte memory. *)
Definition mem := N -> N.
Definition upd (m : mem) (a v : N) : mem := fun x => if x =? a then v else m x.

(** Reference meaning of a write: byte [i] of the data goes to address
    [addr + i mod sw], in order. *)
Fixpoint mem_write_from (m : mem) (addr sw : N) (be : option (list N)) (i : N)
    (d : list N) : mem :=
  match d with
  | [] => m
  | b :: d' =>
    let m' := if be_at be i then upd m (addr + i mod sw) b else m in
    mem_write_from m' addr sw be (i + 1) d'
  end.
Definition mem_write (m : mem) (g : gp) : mem :=
  mem_write_from m (g_addr g) (g_sw g) (g_be g) 0 (g_data g).

(** Reference meaning of a read: enabled bytes of the buffer are replaced. *)
Fixpoint mem_read_from (m : mem) (addr sw : N) (be : option (list N)) (i : N)
    (d : list N) : list N :=
  match d with
  | [] => []
  | b :: d' =>
    (if be_at be i then m (addr + i mod sw) else b)
      :: mem_read_from m addr sw be (i + 1) d'
  end.
Definition mem_read (m : mem) (g : gp) : list N :=
  mem_read_from m (g_addr g) (g_sw g) (g_be g) 0 (g_data g).
