(** A cache line byte by byte: what the history says about byte [i]. *)
From Verif Require Import Base TlmModel CachelineModel.
Open Scope N_scope.

(** The byte an operation stores at [i], if any. *)
Definition stores (o : clop) (i : nat) : option N :=
  match o with
  | OpWrite off src be pos =>
    if (off <=? i)%nat && (i <? off + length src)%nat &&
       match be with
       | [] => true
       | _ => nth (N.to_nat ((pos + N.of_nat (i - off)) mod N.of_nat (length be))) be 0 =? BE_ON
       end
    then Some (nth (i - off) src 0) else None
  | _ => None
  end.

(** Has byte [i] been written or filled since the line was last emptied?
    [v0]: before the history. *)
Fixpoint byte_valid (v0 : bool) (ops : list clop) (i : nat) : bool :=
  match ops with
  | [] => v0
  | o :: ops' =>
    byte_valid (match o with
                | OpEmpty => false
                | OpFill => true
                | _ => match stores o i with Some _ => true | None => v0 end
                end) ops' i
  end.

(** The last value stored (zero by emptying). *)
Fixpoint byte_value (x0 : N) (ops : list clop) (i : nat) : N :=
  match ops with
  | [] => x0
  | o :: ops' =>
    byte_value (match o with
                | OpEmpty => 0
                | _ => match stores o i with Some x => x | None => x0 end
                end) ops' i
  end.

(** Writes stay inside the line. *)
Definition in_line (o : clop) : Prop :=
  match o with OpWrite off src _ _ => (off + length src <= LINE)%nat | _ => True end.

(** Line states of CHI (ARM IHI 0050C, 4.1) from validity, uniqueness, dirtiness
    and how many bytes are valid. *)
Inductive chi_state (valid shared dirty : bool) (all none : Prop) : cstatus -> Prop :=
| st_inv : valid = false -> chi_state valid shared dirty all none S_INV
| st_sd : valid = true -> shared = true -> dirty = true -> chi_state valid shared dirty all none S_SD
| st_sc : valid = true -> shared = true -> dirty = false -> chi_state valid shared dirty all none S_SC
| st_ud : valid = true -> shared = false -> dirty = true -> all -> chi_state valid shared dirty all none S_UD
| st_uc : valid = true -> shared = false -> dirty = false -> all -> chi_state valid shared dirty all none S_UC
| st_udp : valid = true -> shared = false -> dirty = true -> ~ all -> ~ none -> chi_state valid shared dirty all none S_UDP
| st_uce : valid = true -> shared = false -> dirty = false -> none -> chi_state valid shared dirty all none S_UCE.

(** The last value given to each flag; emptying a line also makes it clean. *)
Fixpoint flags_after (f0 : bool * bool * bool) (ops : list clop) : bool * bool * bool :=
  match ops with
  | [] => f0
  | o :: ops' =>
    let '(v, s, d) := f0 in
    flags_after (match o with
                 | OpValid b => (b, s, d)
                 | OpShared b => (v, b, d)
                 | OpDirty b => (v, s, b)
                 | OpEmpty => (v, s, false)
                 | _ => (v, s, d)
                 end) ops'
  end.
