(** Property C21: copying the generic attributes. *)
From Verif Require Import Base GenattrModel.
Open Scope N_scope.

(** Every attribute but IO_access has the source's value after copy_from. *)
Theorem C21_copy_partial dst src m : m <> M_IO_access ->
  get_member (copy_from dst src) m = get_member src m.
Proof. intros H. destruct m; try reflexivity. congruence. Qed.

Theorem C21_clone src m : get_member (clone src) m = get_member src m.
Proof. reflexivity. Qed.

(** IO_access keeps the destination's old value. *)
Theorem C21_io_access_refuted :
  exists src, get_member src M_IO_access = 1 /\
    get_member (copy_from genattr_default src) M_IO_access = 0.
Proof. exists (set_member genattr_default M_IO_access 1). split; reflexivity. Qed.

Example C21_case :
  let src := set_member (set_member genattr_default M_wrap 1) M_transaction_id 77 in
  map (get_member (copy_from genattr_default src)) [M_wrap; M_transaction_id; M_secure; M_posted] = [1;77;1;0].
Proof. reflexivity. Qed.

Print Assumptions C21_copy_partial.
Print Assumptions C21_clone.
Print Assumptions C21_io_access_refuted.
