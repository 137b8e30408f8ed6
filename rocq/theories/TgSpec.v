(** What the traffic generators are for. *)
From Verif Require Import Base TgModel.
Open Scope N_scope.

(** rand_r of the GNU C library (stdlib/rand_r.c), used for the concrete cases only. *)
Definition lcg (s : N) : N := (s * 1103515245 + 12345) mod 2 ^ 32.
Definition glibc (s : N) : N * N :=
  let s1 := lcg s in let s2 := lcg s1 in let s3 := lcg s2 in
  let part s k := (s / 65536) mod k in
  (N.lxor (N.shiftl (N.lxor (N.shiftl (part s1 2048) 10) (part s2 1024)) 10) (part s3 1024),
   s3).

(** Parameters that make sense: a non-empty window below 2^64 whose start is on the
    boundary the mask asks for, and lengths of at least one byte. *)
Definition sensible (mn mx k minlen maxlen maxbe : N) : Prop :=
  mn < mx /\ mx < 2 ^ 64 /\ k < 64 /\ mn mod 2 ^ k = 0 /\
  1 <= minlen < 2 ^ 32 /\ 1 <= maxlen < 2 ^ 32 - 1 /\ maxbe < 2 ^ 32.
Definition aligned (k : N) : N := 2 ^ 64 - 2 ^ k.      (* the mask *)

(** A transaction inside the window and within the limits asked for. *)
Definition within (mn mx k minlen maxlen maxbe : N) (x : txn) : Prop :=
  mn <= x_addr x /\ x_addr x + x_len x <= mx /\ x_addr x mod 2 ^ k = 0 /\
  1 <= x_len x <= maxlen /\
  (x_len x < minlen -> x_len x = maxlen \/ x_addr x + x_len x = mx) /\
  N.of_nat (length (x_be x)) <= maxbe /\ N.of_nat (length (x_be x)) <= x_len x /\
  1 <= x_sw x <= x_len x.
(** A streaming width within the limits asked for, or none (the whole length). *)
Definition in_limits (minsw maxsw : N) (x : txn) : Prop :=
  x_sw x = x_len x \/ minsw <= x_sw x <= maxsw.
(** Its data: one byte for each address; none for a read. *)
Definition carries (x : txn) : Prop :=
  match x_cmd x with
  | Write => N.of_nat (length (x_data x)) = x_len x /\ bytes_ok (x_data x)
  | Read => x_data x = []
  | Ignore => False
  end.
(** A read of everything a write covered. *)
Definition reads_back (w r : txn) : Prop :=
  x_cmd r = Read /\ x_addr r = x_addr w /\ x_len r = x_len w /\ x_be r = [] /\
  x_sw r = x_len w.
Definition paired (l : list txn) : Prop :=
  forall i w r, nth_error l i = Some w -> nth_error l (S i) = Some r ->
    x_cmd w = Write -> reads_back w r.
(** A write of zeros over the window. *)
Definition clears (mn mx : N) (x : txn) : Prop :=
  x_cmd x = Write /\ x_addr x = mn /\ x_len x = mx - mn /\ x_be x = [] /\
  x_sw x = mx - mn /\ x_data x = repeat 0 (N.to_nat (mx - mn)).

(** ** Lists of transfers *)
Definition named (t : transfer) (e : option ext) : Prop :=
  let a := tr_attr t in
  match e with
  | None => g_enabled a = false
  | Some e =>
      g_enabled a = true /\
      e_master e = g_master a /\ e_secure e = g_secure a /\ e_eop e = g_eop a /\
      e_wrap e = g_wrap a /\ e_burst e = g_burst a /\ e_id e = g_id a /\
      e_exclusive e = g_exclusive a /\ e_locked e = g_locked a /\
      e_bufferable e = g_bufferable a /\ e_modifiable e = g_modifiable a /\
      e_ralloc e = g_ralloc a /\ e_walloc e = g_walloc a /\ e_qos e = g_qos a /\
      e_region e = g_region a /\ e_snoop e = g_snoop a /\ e_domain e = g_domain a /\
      e_barrier e = g_barrier a /\ e_read e = g_read a
  end.
(** The transaction a transfer asks for. *)
Definition asked (t : transfer) (x : txn * option ext) : Prop :=
  x_addr (fst x) = tr_addr t /\ x_len (fst x) = tr_len t /\ x_be (fst x) = tr_be t /\
  x_sw (fst x) = tr_sw t /\
  (tr_cmd t = 1 -> x_cmd (fst x) = Write /\ x_data (fst x) = tr_data t) /\
  (tr_cmd t = 0 -> x_cmd (fst x) = Read) /\ (1 < tr_cmd t -> x_cmd (fst x) = Ignore) /\
  named t (snd x).

(** The answers of a target to a list of transactions. *)
Fixpoint answers {T} (target : T -> txn * option ext -> T * bool * list N) (s : T)
    (xs : list (txn * option ext)) : list (bool * list N) :=
  match xs with
  | [] => []
  | x :: xs' => let '(s1, ok, d) := target s x in (ok, d) :: answers target s1 xs'
  end.
(** An answer that is as expected. *)
Definition fine (t : transfer) (a : bool * list N) : Prop :=
  fst a = true /\
  forall e, tr_expect t = Some e ->
    forall i, (i < N.to_nat (tr_len t))%nat -> nth_error e i = nth_error (snd a) i.

(** ** Batches on a thread *)
Inductive tact := Add (b : N) (c : option N) | Top | Finish (re : option (N * option N)).
Definition act (s : tg) (a : tact) : tg * list tev :=
  match a with
  | Add b c => (add s b c, [])
  | Top => top s
  | Finish re => finish s re
  end.
Fixpoint acts (s : tg) (l : list tact) : tg * list tev :=
  match l with
  | [] => (s, [])
  | a :: l' => let (s1, e1) := act s a in let (s2, e2) := acts s1 l' in (s2, e1 ++ e2)
  end.
(** The batches in the order they are added; those of a callback count when it runs. *)
Fixpoint added (s : tg) (l : list tact) : list (N * option N) :=
  match l with
  | [] => []
  | a :: l' =>
      match a with
      | Add b c => [(b, c)]
      | Finish (Some x) =>
          match g_ph s, g_cb s with Running _, Some _ => [x] | _, _ => [] end
      | _ => []
      end ++ added (fst (act s a)) l'
  end.
(** A thread that has finished everything given to it. *)
Definition free (s : tg) : Prop :=
  g_pend s = None /\ (g_ph s = Delayed \/ g_ph s = Waiting).
(** Batches are added only to a free thread or by a callback. *)
Fixpoint polite (s : tg) (l : list tact) : Prop :=
  match l with
  | [] => True
  | a :: l' => (match a with Add _ _ => free s | _ => True end) /\ polite (fst (act s a)) l'
  end.
Definition served (x : N * option N) : list tev :=
  Ran (fst x) :: match snd x with Some c => [Called c] | None => [] end.
Definition tg0 : tg := mkTg None None Delayed.
