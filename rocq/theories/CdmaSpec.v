(** Memory copy. *)
From Verif Require Import Base TlmModel.
Open Scope N_scope.

(** Memory after copying [n] bytes from [sa] to [da], all at once. *)
Definition copied (m : mem) (sa da n : N) : mem :=
  fun x => if (da <=? x) && (x <? da + n) then m (sa + (x - da)) else m x.

(** The driver's part: program source, destination and length. *)
Definition reg_write (addr v : N) : gp := mkGp C_WRITE addr (le_enc 4 v) None 4 St_INCOMPLETE.
Definition program (sa da n : N) : list gp :=
  [reg_write 24 (sa mod u32); reg_write 28 (sa / u32);
   reg_write 32 (da mod u32); reg_write 36 (da / u32); reg_write 40 n].
