(** Model of tlm-extensions/genattr.h (class genattr_extension): every member is
    a cell, named after it. *)
From Verif Require Import Base.
Open Scope N_scope.

(** Members of genattr_ace (l.71-102), genattr_stream (l.109) and genattr_bus
    (l.123-195). *)
Inductive member :=
| M_snoop | M_domain | M_barrier | M_datatransfer | M_error_bit | M_shared
| M_dirty | M_was_unique | M_is_read_tx
| M_eop
| M_master_id | M_secure | M_posted | M_wrap | M_burst_width | M_transaction_id
| M_exclusive | M_locked | M_bufferable | M_modifiable | M_read_allocate
| M_write_allocate | M_qos | M_region | M_exclusive_handled | M_IO_access.
Definition member_eq_dec (a b : member) : {a = b} + {a <> b}.
Proof. decide equality. Defined.

(** An extension object; booleans are 0 and 1. *)
Definition genattr := member -> N.

(** The generated setters and getters, l.35-37. *)
Definition get_member (g : genattr) (m : member) : N := g m.
Definition set_member (g : genattr) (m : member) (v : N) : genattr :=
  fun x => if member_eq_dec x m then v else g x.

(** copy_from, l.249-278: the setter calls in order. *)
Definition copied_members : list member :=
  [M_eop; M_master_id; M_secure; M_wrap; M_posted; M_burst_width; M_transaction_id;
   M_exclusive; M_locked; M_bufferable; M_modifiable; M_read_allocate;
   M_write_allocate; M_qos; M_region; M_exclusive_handled; M_snoop; M_domain;
   M_barrier; M_datatransfer; M_error_bit; M_shared; M_dirty; M_was_unique;
   M_is_read_tx].
Definition copy_from (dst src : genattr) : genattr :=
  fold_left (fun d m => set_member d m (get_member src m)) copied_members dst.

(** clone, l.280-283: the implicit copy constructor. *)
Definition clone (src : genattr) : genattr := fun m => src m.

(** Constructors, l.43-53, l.112-114, l.214-231. *)
Definition genattr_default : genattr :=
  fun m => match m with M_secure | M_is_read_tx => 1 | _ => 0 end.
