(** Which TLM payloads the tlm2axi bridge carries faithfully, and what it should
    do with them.  [bw] and [wrap] are the burst_width and wrap attributes, [B]
    the bytes of the data bus. *)
From Verif Require Import Base TlmModel TlmSpec WrapSpec AxiSpec.
Open Scope N_scope.

Definition bus_width (B : N) : Prop := exists k, B = 2 ^ k /\ k <= 7.

(** Bytes per beat: the attribute if set, else the bus; a narrow fixed burst
    without the attribute uses the streaming width. *)
Definition beat_width (B bw : N) : N := if bw =? 0 then B else bw.
Definition fixed_width (g : gp) (bw : N) : N := if bw =? 0 then g_sw g else bw.

(** A linear transfer. *)
Definition incr_case (B : N) (g : gp) (bw : N) (wrap : bool) : Prop :=
  bus_width B /\ bus_width (beat_width B bw) /\ beat_width B bw <= B /\
  0 < g_len g /\ g_len g <= g_sw g /\ (wrap = false \/ g_sw g <> g_len g) /\
  g_addr g + g_len g <= u64 /\ g_len g + 256 < u32.

(** A stream whose streaming width is what one beat moves. *)
Definition fixed_case (B : N) (g : gp) (bw : N) : Prop :=
  let w := fixed_width g bw in
  bus_width B /\ bus_width w /\ w <= B /\
  g_sw g < g_len g /\ g_sw g = w - g_addr g mod w /\
  g_addr g + g_sw g <= u64 /\ g_len g + 256 < u32.

(** A wrapping transfer starting on a beat boundary. *)
Definition wrap_case (B : N) (g : gp) (bw : N) (wrap : bool) : Prop :=
  let w := beat_width B bw in
  bus_width B /\ bus_width w /\ w <= B /\ wrap = true /\
  0 < g_len g /\ g_sw g = g_len g /\ (w | g_len g) /\ g_addr g mod w = 0 /\
  ((B | g_len g) \/ (g_len g | B) /\ g_addr g mod g_len g = 0) /\
  g_addr g + g_len g <= u64 /\ g_len g + 256 < u32.

(** Byte enables repeat with the streaming width. *)
Definition enables_stream (g : gp) : Prop := forall i, be_at (g_be g) i = be_at (g_be g) (i mod g_sw g).

(** Beats needed. *)
Definition linear_beats (g : gp) (w : N) : N := (g_len g + g_addr g mod w + w - 1) / w.
Definition stream_beats (g : gp) : N := (g_len g + g_sw g - 1) / g_sw g.

(** A write is refused only for needing more than [mx] beats; otherwise the beats
    are a burst of kind [k] that writes exactly [want]. *)
Definition write_good (B mx : N) (k : bkind) (g : gp) (w beats : N) (want : list access)
    (r : option (aburst * list wbeat)) : Prop :=
  match r with
  | None => mx < beats
  | Some (b, ws) =>
    b_kind b = k /\ b_addr b = g_addr g /\ b_bytes b = w /\ b_beats b = beats /\ b_beats b <= mx /\
    burst_writes B b ws = enabled want /\ beats_legal B b ws /\ last_legal b ws
  end.
