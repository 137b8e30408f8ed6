(** Model of tlm-modules/private/chi/cacheline.h (class CacheLine).

    Not modelled: the attribute copy m_chiattr, the tag. *)
From Verif Require Import Base TlmModel.
Open Scope N_scope.

(** CACHELINE_SZ, tlm-bridges/amba-chi.h *)
Definition LINE : nat := 64.

Record cline := mkCl {
  cl_valid : bool; cl_shared : bool; cl_dirty : bool;
  cl_data : list N; cl_be : list N }.

(** Constructor, l.53-60: the data is not initialised ([junk]). *)
Definition cl_new (junk : list N) : cline := mkCl false false false junk (repeat BE_ON LINE).

Definition set_at (l : list N) (i : nat) (v : N) : list N := firstn i l ++ v :: skipn (S i) l.

(** The loop of Write, l.72-79 *)
Fixpoint write_loop (off : nat) (src : list N) (be : list N) (pos : N) (d b : list N)
  : list N * list N :=
  match src with
  | [] => (d, b)
  | x :: src' =>
    let en := nth (N.to_nat (pos mod N.of_nat (length be))) be 0 =? BE_ON in
    write_loop (S off) src' be (pos + 1)
      (if en then set_at d off x else d) (if en then set_at b off BE_ON else b)
  end.

(** Write, l.62-84; [src] are the [len] source bytes, [be] the byte enables
    ([] for be_len = 0). *)
Definition cl_write (c : cline) (off : nat) (src be : list N) (pos : N) : res cline :=
  if (LINE <? off + length src)%nat then UB
  else match be with
  | [] => Ok (mkCl (cl_valid c) (cl_shared c) (cl_dirty c)
                (overlay off src (cl_data c)) (overlay off (repeat BE_ON (length src)) (cl_be c)))
  | _ => let '(d, b) := write_loop off src be pos (cl_data c) (cl_be c) in
         Ok (mkCl (cl_valid c) (cl_shared c) (cl_dirty c) d b)
  end.

(** ByteEnablesDisableAll, l.86-95 *)
Definition cl_disable_all (c : cline) : cline :=
  mkCl (cl_valid c) (cl_shared c) false (repeat 0 LINE) (repeat BE_OFF LINE).

(** ByteEnablesEnableAll, l.97-100 *)
Definition cl_enable_all (c : cline) : cline :=
  mkCl (cl_valid c) (cl_shared c) (cl_dirty c) (cl_data c) (repeat BE_ON LINE).

(** GetFillGrade, l.104-121 *)
Inductive grade := Empty | Partial | Full.
Definition fill_grade (c : cline) : grade :=
  let n := length (filter (fun b => b =? BE_ON) (firstn LINE (cl_be c))) in
  if (n =? LINE)%nat then Full else if (0 <? n)%nat then Partial else Empty.

(** GetStatus, l.123-150 *)
Inductive cstatus := S_INV | S_UC | S_UCE | S_UD | S_UDP | S_SC | S_SD.
Definition get_status (c : cline) : res cstatus :=
  if cl_valid c then
    if cl_shared c && cl_dirty c then Ok S_SD
    else if cl_shared c && negb (cl_dirty c) then Ok S_SC
    else match fill_grade c with
         | Full => if cl_dirty c then Ok S_UD else Ok S_UC
         | Partial => if cl_dirty c then Ok S_UDP else AssertFail
         | Empty => if cl_dirty c then AssertFail else Ok S_UCE
         end
  else Ok S_INV.

(** IsClean, l.152-161; IsUniqueCleanFull, l.163-168; IsDirtyPartial,
    l.170-175; IsDirtyFull, l.177-182; IsDirty, l.184-193. *)
Definition is_clean (c : cline) : res bool :=
  match cl_dirty c, fill_grade c with false, Partial => AssertFail | d, _ => Ok (negb d) end.
Definition is_unique_clean_full (c : cline) : bool :=
  match fill_grade c with Full => negb (cl_dirty c) | _ => false end.
Definition is_dirty_partial (c : cline) : bool :=
  match fill_grade c with Partial => cl_dirty c | _ => false end.
Definition is_dirty_full (c : cline) : bool :=
  match fill_grade c with Full => cl_dirty c | _ => false end.
Definition is_dirty (c : cline) : res bool :=
  match cl_dirty c, fill_grade c with true, Empty => AssertFail | d, _ => Ok d end.

(** The operations a cache applies to a line. *)
Inductive clop :=
| OpWrite (off : nat) (src be : list N) (pos : N)
| OpEmpty | OpFill
| OpValid (v : bool) | OpShared (v : bool) | OpDirty (v : bool).

Definition cl_step (c : cline) (o : clop) : res cline :=
  match o with
  | OpWrite off src be pos => cl_write c off src be pos
  | OpEmpty => Ok (cl_disable_all c)
  | OpFill => Ok (cl_enable_all c)
  | OpValid v => Ok (mkCl v (cl_shared c) (cl_dirty c) (cl_data c) (cl_be c))
  | OpShared v => Ok (mkCl (cl_valid c) v (cl_dirty c) (cl_data c) (cl_be c))
  | OpDirty v => Ok (mkCl (cl_valid c) (cl_shared c) v (cl_data c) (cl_be c))
  end.
Fixpoint cl_run (c : cline) (ops : list clop) : res cline :=
  match ops with
  | [] => Ok c
  | o :: ops' => rbind (cl_step c o) (fun c' => cl_run c' ops')
  end.
