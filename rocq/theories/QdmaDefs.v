(** The specification of QdmaSpec on the states of the model. *)
From Verif Require Import Base QdmaModel QdmaSpec.
Open Scope N_scope.

Definition door (cpm4 : bool) (q : N) (h2c : bool) : N :=
  (if cpm4 then 25600 else 98304) + 16 * q + (if h2c then 4 else 8).
(** The contexts of a queue. *)
Definition software (s : st) (q : N) (h2c : bool) : N := q_ctx s q (if h2c then 1 else 0).
Definition hardware (s : st) (q : N) (h2c : bool) : N := q_ctx s q (if h2c then 3 else 2).
Definition consumed (s : st) (q : N) (h2c : bool) : N := field (hardware s q h2c) 0 16.
Definition rings (cpm4 : bool) (s : st) (q : N) (h2c : bool) : bool :=
  if cpm4 then flag (q_ctx s q 12) (if h2c then 17 else 8)
  else flag (software s q h2c) 139.
Definition vector (cpm4 : bool) (s : st) (q : N) (h2c : bool) : N :=
  if cpm4 then field (q_ctx s q 12) (if h2c then 9 else 0) 8
  else field (software s q h2c) 128 11.
Definition ring (cpm4 : bool) (s : st) (r : N) : ring_cfg := ring_of cpm4 (q_ctx s r 8).

(** One entry put in interrupt ring [r]. *)
Definition entered (cpm4 : bool) (s s' : st) (r q : N) (h2c : bool) (cidx pidx : N)
    (m1 : memory) : Prop :=
  let R := ring cpm4 s r in
  (exists e, read_notice cpm4 e = mkNotice q (negb h2c) cidx pidx /\
     color_of e = rg_color R /\ e < 2 ^ 64 /\
     (forall x, q_host s' x = placed m1 (rg_base R + 8 * q_ring s r) (le_enc 8 e) x)) /\
  q_ring s' r = next_slot R (q_ring s r) /\
  (forall r', r' <> r -> q_ring s' r' = q_ring s r') /\
  ring cpm4 s' r = next_ring R (q_ring s r) /\
  (forall a b, (a, b) <> (r, 8) -> q_ctx s' a b = q_ctx s a b) /\
  q_msix s' = q_msix s ++ [rg_vector R].

(** What follows the last descriptor: status, then the interrupt. *)
Definition completed (cpm4 : bool) (s s' : st) (q : N) (h2c : bool) (pidx : N) : Prop :=
  let sw := software s q h2c in
  q_regs s' = q_regs s /\ q_card s' = q_card s /\
  exists m1 : memory,
    (if g_writeback sw
     then status_at (q_host s) m1 (g_base sw + g_dsz sw * g_size sw) pidx pidx
     else m1 = q_host s) /\
    if g_interrupt sw then
      if rings cpm4 s q h2c then
        rg_valid (ring cpm4 s (vector cpm4 s q h2c)) = true /\
        entered cpm4 s s' (vector cpm4 s q h2c) q h2c pidx (pidx mod 4096) m1
      else q_host s' = m1 /\ q_ring s' = q_ring s /\ q_ctx s' = q_ctx s /\
           q_msix s' = q_msix s ++ [vector cpm4 s q h2c]
    else q_host s' = m1 /\ q_ring s' = q_ring s /\ q_ctx s' = q_ctx s /\
         q_msix s' = q_msix s.

(** The queue's interrupt leads somewhere. *)
Definition irq_ready (cpm4 : bool) (s : st) (q : N) (h2c : bool) : Prop :=
  g_interrupt (software s q h2c) = true ->
  if rings cpm4 s q h2c then
    vector cpm4 s q h2c < 2 /\
    rg_valid (ring cpm4 s (vector cpm4 s q h2c)) = true /\
    rg_vector (ring cpm4 s (vector cpm4 s q h2c)) < 8
  else vector cpm4 s q h2c < 8.

(** Entries put in ring [r], with anything else in between that leaves the ring
    alone. *)
Definition elsewhere (cpm4 : bool) (r : N) (s s' : st) : Prop :=
  ring cpm4 s' r = ring cpm4 s r /\ q_ring s' r = q_ring s r /\
  forall x, past (rg_base (ring cpm4 s r)) x < 8 * rg_slots (ring cpm4 s r) ->
    q_host s' x = q_host s x.
Inductive fed (cpm4 : bool) (junk : N) (hbad : N -> bool) (r : N)
    : st -> list notice -> st -> Prop :=
| fed_nil s : fed cpm4 junk hbad r s [] s
| fed_cons s l s1 s2 t s3 :
    fed cpm4 junk hbad r s l s1 -> elsewhere cpm4 r s1 s2 ->
    t_q t < 2 -> t_pidx t < 4096 -> vector cpm4 s2 (t_q t) (t_h2c t) = r ->
    aggregate cpm4 junk hbad s2 t = Ok s3 ->
    fed cpm4 junk hbad r s
      (l ++ [mkNotice (t_q t) (negb (t_h2c t)) (consumed s2 (t_q t) (t_h2c t)) (t_pidx t)]) s3.

(** The device with its threads: resets, configuration writes, thread steps in
    any order. *)
Inductive act := Reset | Write (addr : N) (d : list N) | Go (i : nat).
Fixpoint set_nth {A} (i : nat) (x : A) (l : list A) : list A :=
  match i, l with
  | _, [] => []
  | O, _ :: l' => x :: l'
  | S i', y :: l' => y :: set_nth i' x l'
  end.
Definition exec (cpm4 : bool) (junk : N) (hbad cbad : N -> bool) (z : st * list thr) (e : act)
    : res (st * list thr) :=
  match e with
  | Reset => Ok (reset (fst z), snd z)
  | Write a d =>
      rmap (fun o => match o with
                     | None => z
                     | Some (s, None) => (s, snd z)
                     | Some (s, Some t) => (s, snd z ++ [t])
                     end) (cfg_write cpm4 (fst z) a d)
  | Go i => match nth_error (snd z) i with
            | None => Ok z
            | Some t => rmap (fun x => (fst x, set_nth i (snd x) (snd z)))
                          (step cpm4 junk hbad cbad (fst z) t)
            end
  end.
Fixpoint execs (cpm4 : bool) (junk : N) (hbad cbad : N -> bool) (z : st * list thr) (l : list act)
    : res (st * list thr) :=
  match l with
  | [] => Ok z
  | e :: l' => rbind (exec cpm4 junk hbad cbad z e) (fun z' =>
               execs cpm4 junk hbad cbad z' l')
  end.

(** Command words, and where they go. *)
Definition command (q cmd sel : N) : N := 128 * q + 32 * cmd + 2 * sel + 1.
Definition cmd_addr (cpm4 : bool) : N := if cpm4 then 2084 else 2116.
Definition data_reg (i : N) : N := 513 + i.

(** A write that neither rings a doorbell nor changes context [(q, sel)]. *)
Definition bystander (cpm4 : bool) (q sel addr : N) (d : list N) : Prop :=
  (forall q' h2c, addr <> door cpm4 q' h2c) /\
  (addr / 4 = cmd_addr cpm4 / 4 ->
     exists q' cmd sel', q' < 8192 /\ cmd < 4 /\ sel' < 16 /\
       d = le_enc 4 (command q' cmd sel') /\ ((q', sel') <> (q, sel) \/ cmd = 2)).

(** A context command: what it changes and what it leaves. *)
Definition obeyed (cpm4 : bool) (s s' : st) (q cmd sel : N) : Prop :=
  (forall a b, (a, b) <> (q, sel) -> q_ctx s' a b = q_ctx s a b) /\
  q_host s' = q_host s /\ q_card s' = q_card s /\ q_msix s' = q_msix s /\
  N.odd (q_regs s' (cmd_addr cpm4 / 4)) = false /\
  (forall x, x <> cmd_addr cpm4 / 4 -> (cmd = 2 -> x < 513 \/ 521 <= x) ->
     q_regs s' x = q_regs s x) /\
  (cmd = 0 -> q_ctx s' q sel = 0) /\
  (cmd = 1 -> forall i, i < 8 -> field (q_ctx s' q sel) (32 * i) 32 = q_regs s (data_reg i)) /\
  (cmd = 2 -> q_ctx s' q sel = q_ctx s q sel /\
     forall i, i < 8 -> q_regs s' (data_reg i) = field (q_ctx s q sel) (32 * i) 32) /\
  (cmd = 3 -> if sel =? 8
     then ring cpm4 s' q = mkRing false (rg_vector (ring cpm4 s q)) (rg_color (ring cpm4 s q))
                             (rg_base (ring cpm4 s q)) (rg_slots (ring cpm4 s q))
     else q_ctx s' q sel = q_ctx s q sel) /\
  (forall r, q_ring s' r =
     if (r =? q) && (cmd =? 1) && (sel =? 8) && rg_valid (ring cpm4 s' q)
        && negb (rg_valid (ring cpm4 s q)) then 0 else q_ring s r).
