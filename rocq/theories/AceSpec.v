(** What a coherent memory system promises, independent of how caches and the
    interconnect work.  A history is a list of observable events; every access
    of a master is carried out as pieces (at least one per cache line) and each
    piece takes effect at one point of the history. *)
From Verif Require Import Base TlmModel TlmSpec.
Open Scope N_scope.

(** Requests a master can make.  [o_be]: TLM byte enables, [o_data]: buffer. *)
Inductive opkind := O_Load | O_Store | O_CleanShared | O_CleanInvalid | O_MakeInvalid.
Record op := mkOp {
  o_kind : opkind; o_addr : N; o_len : N; o_be : option (list N);
  o_data : list N; o_sec : bool; o_excl : bool }.

(** Byte [i] of a request. *)
Definition op_byte (o : op) (i : N) : access :=
  mkAcc (o_addr o + i) (be_at (o_be o) i) (nth (N.to_nat i) (o_data o) 0).
Definition op_bytes (o : op) (pos n : N) : list access :=
  map (fun i => op_byte o (pos + N.of_nat i)) (seq 0 (N.to_nat n)).

Inductive event :=
| Ev_Read  (m : nat) (sec : bool) (l : list access)   (* [a_byte]: byte returned *)
| Ev_Write (m : nat) (sec : bool) (l : list access)
| Ev_Done  (m : nat) (o : op) (l : list access) (ex : bool).
   (* request [o] of master [m] answered; [l]: its bytes; [ex]: EXOKAY *)

(** The latest value of every byte, per security state. *)
Definition world := bool -> mem.
Definition world_upd (w : world) (sec : bool) (m : mem) : world :=
  fun s => if Bool.eqb s sec then m else w s.

Definition latest (w : world) (e : event) : world :=
  match e with
  | Ev_Write _ sec l => world_upd w sec (fold_left put l (w sec))
  | _ => w
  end.

(** Every enabled byte read is the latest value stored. *)
Fixpoint reads_latest (w : world) (tr : list event) : Prop :=
  match tr with
  | [] => True
  | e :: tr' =>
    match e with
    | Ev_Read _ sec l => forall a, In a l -> a_en a = true -> a_byte a = w sec (a_addr a)
    | _ => True
    end /\ reads_latest (latest w e) tr'
  end.

(** The pieces a master has carried out since its last completed request. *)
Definition piece (m : nat) (cur : list access) (e : event) : list access :=
  match e with
  | Ev_Read m' _ l | Ev_Write m' _ l => if Nat.eqb m' m then cur ++ l else cur
  | Ev_Done m' _ _ _ => if Nat.eqb m' m then [] else cur
  end.

(** A completed load or store consists of exactly the pieces carried out for
    it, and these cover the bytes asked for: addresses and enables in order and,
    for a store, the bytes of the buffer. *)
Definition answered (o : op) (l : list access) : Prop :=
  match o_kind o with
  | O_Load => map (fun a => (a_addr a, a_en a)) l =
              map (fun a => (a_addr a, a_en a)) (op_bytes o 0 (o_len o))
  | O_Store => l = op_bytes o 0 (o_len o)
  | _ => l = []
  end.

Fixpoint served (cur : nat -> list access) (tr : list event) : Prop :=
  match tr with
  | [] => True
  | e :: tr' =>
    match e with
    | Ev_Done m o l _ => l = cur m /\ (o_excl o = false -> answered o l)
    | _ => True
    end /\ served (fun m => piece m (cur m) e) tr'
  end.

(** A line state as seen from outside: (valid, tag, secure, shared, dirty).
    Two caches may both hold a line only if both mark it shared, and at most one
    holds it dirty. *)
Record held := mkHeld { h_shared : bool; h_dirty : bool }.
Definition single_writer (h : nat -> bool * N -> option held) : Prop :=
  forall i j x hi hj, i <> j -> h i x = Some hi -> h j x = Some hj ->
    h_shared hi = true /\ h_shared hj = true /\ (h_dirty hi = true -> h_dirty hj = false).

(** Exclusive accesses.  A reservation: the bytes loaded, whether another master
    has stored to one of them since, and whether it was intact at the owner's
    last store. *)
Record resv := mkResv { rv_addr : N; rv_len : N; rv_intact : bool; rv_stored : bool }.
Definition hits (v : resv) (l : list access) : bool :=
  existsb (fun a => a_en a && (rv_addr v <=? a_addr a) && (a_addr a <? rv_addr v + rv_len v)) l.
Definition resv_step (m : nat) (v : option resv) (e : event) : option resv :=
  match e with
  | Ev_Read _ _ _ => v
  | Ev_Write m' _ l =>
    match v with
    | None => None
    | Some v =>
      if Nat.eqb m' m then Some (mkResv (rv_addr v) (rv_len v) (rv_intact v) (rv_intact v))
      else Some (mkResv (rv_addr v) (rv_len v) (rv_intact v && negb (hits v l)) (rv_stored v))
    end
  | Ev_Done m' o _ _ =>
    if Nat.eqb m' m && o_excl o then
      match o_kind o with
      | O_Load => Some (mkResv (o_addr o) (o_len o) true false)
      | _ => None
      end
    else v
  end.
(** An exclusive store reported as successful follows an exclusive load of the
    same bytes, none of which another master has stored to in between. *)
Fixpoint excl_sound (v : nat -> option resv) (tr : list event) : Prop :=
  match tr with
  | [] => True
  | e :: tr' =>
    match e with
    | Ev_Done m o _ true =>
      match o_kind o with
      | O_Store => o_excl o = true -> exists rv, v m = Some rv /\ rv_addr rv = o_addr o /\
                     rv_len rv = o_len o /\ rv_stored rv = true
      | _ => True
      end
    | _ => True
    end /\ excl_sound (fun m => resv_step m (v m) e) tr'
  end.
