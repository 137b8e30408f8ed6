(** Specification vocabulary for modules that forward TLM payloads: what a
    payload asks of its target byte by byte, targets, and recording of what a
    module sends downstream.  Nothing here mentions a model of repository code. *)
From Verif Require Import Base TlmModel.
Open Scope N_scope.

(** One byte of a transaction: where, whether enabled, and the buffer byte. *)
Record access := mkAcc { a_addr : N; a_en : bool; a_byte : N }.

(** Offset of data byte [i] from the start address (TLM-2.0 LRM 14.12): a
    streaming width of zero is not legal but the code base treats it as "no
    streaming". *)
Definition stream_off (sw i : N) : N := if sw =? 0 then i else i mod sw.

Definition byte_addr (g : gp) (i : N) : N :=
  (g_addr g + stream_off (g_sw g) i) mod u64.

Definition access_at (g : gp) (i : nat) : access :=
  mkAcc (byte_addr g (N.of_nat i)) (be_at (g_be g) (N.of_nat i))
        (nth i (g_data g) 0).

(** All bytes of a transaction in order. *)
Definition accesses (g : gp) : list access :=
  map (access_at g) (seq 0 (length (g_data g))).

(** A downstream target: new state, buffer after the call, response status. *)
Definition target (S : Type) := S -> gp -> S * (list N * status).

(** A target may not write outside the data buffer. *)
Definition keeps_length {S} (t : target S) : Prop :=
  forall s g, length (fst (snd (t s g))) = length (g_data g).

(** A target that keeps a log of every call with the response it gave. *)
Definition recording {S} (t : target S) : target (S * list (gp * status)) :=
  fun sl g =>
    let '(s', (d, st)) := t (fst sl) g in
    ((s', snd sl ++ [(g, st)]), (d, st)).

(** Targets that handle the bytes of a transaction one after another and stop
    at the first byte that fails.  [f s cmd a] is the new state, the byte left
    in the buffer and an error, if any. *)
Definition byte_step (S : Type) := S -> command -> access -> S * N * option status.

Fixpoint serial {S} (f : byte_step S) (s : S) (c : command) (l : list access)
  : S * list N * option status :=
  match l with
  | [] => (s, [], None)
  | a :: l' =>
    match f s c a with
    | (s', b, Some e) => (s', b :: map a_byte l', Some e)
    | (s', b, None) =>
      let '(s'', d, e) := serial f s' c l' in (s'', b :: d, e)
    end
  end.

Definition status_of (e : option status) : status :=
  match e with None => St_OK | Some e => e end.

Definition serial_target {S} (f : byte_step S) : target S :=
  fun s g =>
    let '(s', d, e) := serial f s (g_cmd g) (accesses g) in (s', (d, status_of e)).

Definition errors_are_errors {S} (f : byte_step S) : Prop :=
  forall s c a s' b, f s c a <> (s', b, Some St_OK).

(** A memory that refuses a whole transaction, without effect, when it touches
    an address in [bad]. *)
Definition put (m : mem) (a : access) : mem :=
  if a_en a then upd m (a_addr a) (a_byte a) else m.
Definition get (m : mem) (a : access) : N :=
  if a_en a then m (a_addr a) else a_byte a.

Definition atomic_memory (bad : N -> bool) : target mem :=
  fun m g =>
    let l := accesses g in
    if existsb (fun a => bad (a_addr a)) l then (m, (g_data g, St_ADDRESS))
    else match g_cmd g with
         | C_READ => (m, (map (get m) l, St_OK))
         | C_WRITE => (fold_left put l m, (g_data g, St_OK))
         | C_IGNORE => (m, (g_data g, St_OK))
         end.

(** Ranges a well-formed payload of the simulator has: 64-bit address, 32-bit
    length, streaming width and byte-enable length. *)
Definition gp_ok (g : gp) : Prop :=
  g_addr g < u64 /\ g_len g < u32 /\ g_sw g < u32 /\ g_be_len g < 2147483648.

(** [run P c t s l s' d st]: the byte accesses [l] were sent to target [t], in
    order and without repetition, as a sequence of payloads satisfying [P] with
    command [c], stopping after the first payload that was not answered OK.
    [d] is what the buffer holds afterwards. *)
Inductive run {S} (P : gp -> Prop) (c : command) (t : target S)
  : S -> list access -> S -> list N -> status -> Prop :=
| run_done s : run P c t s [] s [] St_OK
| run_fail s g rest s' d st :
    P g -> g_cmd g = c -> t s g = (s', (d, st)) -> st <> St_OK ->
    run P c t s (accesses g ++ rest) s' (d ++ map a_byte rest) st
| run_step s g rest s' d s'' d' st :
    P g -> g_cmd g = c -> t s g = (s', (d, St_OK)) ->
    run P c t s' rest s'' d' st ->
    run P c t s (accesses g ++ rest) s'' (d ++ d') st.

(** What a log must look like when the accesses [l] were delivered and the
    final status is [st]. *)
Definition delivered (P : gp -> Prop) (c : command) (l : list access)
    (st : status) (log : list (gp * status)) : Prop :=
  Forall (fun e => P (fst e) /\ g_cmd (fst e) = c) log /\
  (st = St_OK ->
     concat (map (fun e => accesses (fst e)) log) = l /\
     Forall (fun e => snd e = St_OK) log) /\
  (st <> St_OK ->
     exists before last rest,
       log = before ++ [(last, st)] /\
       Forall (fun e => snd e = St_OK) before /\
       concat (map (fun e => accesses (fst e)) log) ++ rest = l).
