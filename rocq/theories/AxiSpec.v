(** AXI bursts (ARM IHI 0022, A3.4): which bytes a burst transfers, beat by beat
    and lane by lane.  Nothing here mentions a model of repository code. *)
From Verif Require Import Base TlmModel TlmSpec.
Open Scope N_scope.

(** AxBURST *)
Inductive bkind := B_FIXED | B_INCR | B_WRAP.

(** Address channel: AxBURST, AxADDR, AxSIZE (log2 of bytes per beat) and AxLEN
    (beats minus one). *)
Record aburst := mkBurst { b_kind : bkind; b_addr : N; b_size : N; b_len : N }.

Definition b_bytes (b : aburst) : N := 2 ^ b_size b.
Definition b_beats (b : aburst) : N := b_len b + 1.

(** Address of beat [n], counted from zero. *)
Definition beat_addr (b : aburst) (n : N) : N :=
  let nb := b_bytes b in
  let aligned := b_addr b / nb * nb in
  match b_kind b with
  | B_FIXED => b_addr b
  | B_INCR => if n =? 0 then b_addr b else aligned + n * nb
  | B_WRAP =>
    let span := nb * b_beats b in
    let upper := b_addr b / span * span + span in
    if n =? 0 then b_addr b
    else let a := aligned + n * nb in if upper <=? a then a - span else a
  end.

(** The bytes of beat [n]: from its address up to the next multiple of the beat
    size. *)
Definition beat_range (b : aburst) (n : N) : list N :=
  let a := beat_addr b n in
  map (fun j => a + N.of_nat j) (seq 0 (N.to_nat (b_bytes b - a mod b_bytes b))).

(** On a bus of [B] bytes address [a] is on lane [a mod B]. *)
Definition lane (B a : N) : nat := N.to_nat (a mod B).

(** One beat of the write data channel. *)
Record wbeat := mkW { w_data : list N; w_strb : list bool; w_last : bool }.

Definition beat_writes (B : N) (b : aburst) (n : N) (w : wbeat) : list (N * N) :=
  flat_map (fun a => if nth (lane B a) (w_strb w) false
                     then [(a, nth (lane B a) (w_data w) 0)] else [])
           (beat_range b n).

(** Bytes written by the beats [ws], the first being beat [n]. *)
Fixpoint writes_from (B : N) (b : aburst) (n : N) (ws : list wbeat) : list (N * N) :=
  match ws with
  | [] => []
  | w :: ws' => beat_writes B b n w ++ writes_from B b (n + 1) ws'
  end.
Definition burst_writes (B : N) (b : aburst) (ws : list wbeat) : list (N * N) :=
  writes_from B b 0 ws.

(** Only lanes of the beat may be strobed. *)
Definition strobes_legal (B : N) (b : aburst) (n : N) (w : wbeat) : Prop :=
  length (w_strb w) = N.to_nat B /\ length (w_data w) = N.to_nat B /\
  forall l, nth l (w_strb w) false = true -> exists a, In a (beat_range b n) /\ lane B a = l.

(** Address channel rules: A3.4.1. *)
Definition burst_legal (B maxbeats : N) (b : aburst) : Prop :=
  b_bytes b <= B /\ b_beats b <= maxbeats /\
  (b_kind b = B_WRAP ->
     b_addr b mod b_bytes b = 0 /\ In (b_beats b) [2; 4; 8; 16]).

(** WLAST on the last beat only, and as many beats as announced. *)
Definition last_legal (b : aburst) (ws : list wbeat) : Prop :=
  N.of_nat (length ws) = b_beats b /\
  map w_last ws = repeat false (length ws - 1) ++ [true].

Definition beats_legal (B : N) (b : aburst) (ws : list wbeat) : Prop :=
  forall n w, nth_error ws n = Some w -> strobes_legal B b (N.of_nat n) w.

(** The write a TLM payload asks for: its enabled bytes in order. *)
Definition enabled (l : list access) : list (N * N) :=
  map (fun a => (a_addr a, a_byte a)) (filter a_en l).

(** Read data: the bytes a burst of read beats carries, in order. *)
Definition beat_reads (B : N) (b : aburst) (n : N) (lanes : list N) : list (N * N) :=
  map (fun a => (a, nth (lane B a) lanes 0)) (beat_range b n).
Fixpoint reads_from (B : N) (b : aburst) (n : N) (rs : list (list N)) : list (N * N) :=
  match rs with
  | [] => []
  | r :: rs' => beat_reads B b n r ++ reads_from B b (n + 1) rs'
  end.

(** What a payload's buffer holds after a read whose bytes were supplied as
    [sup]. *)
Definition read_result (l : list access) (sup : list (N * N)) : list N :=
  map (fun '(a, (_, v)) => if a_en a then v else a_byte a) (combine l sup).

(** RLAST on the last beat only, as many beats as announced. *)
Definition rlast_legal (b : aburst) (lasts : list bool) : Prop :=
  N.of_nat (length lasts) = b_beats b /\ lasts = repeat false (length lasts - 1) ++ [true].

(** A slave that is a memory. *)
Definition serves (B : N) (b : aburst) (m : mem) (rs : list (list N)) : Prop :=
  forall n r a, nth_error rs n = Some r -> In a (beat_range b (N.of_nat n)) -> nth (lane B a) r 0 = m a.
