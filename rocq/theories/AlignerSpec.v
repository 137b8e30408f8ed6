(** What the aligner promises about the payloads it issues (comment above
    class tlm_aligner and field comments, tlm-aligner.h l.34-38, l.85-92). *)
From Verif Require Import Base TlmModel TlmSpec.
Open Scope N_scope.

(** Non-empty, not longer than [max], not crossing a multiple of [bound] and,
    on request, not longer than the largest power of two dividing its address
    (address 0 is aligned to everything). *)
Definition within_limits (max bound : N) (natural : bool) (g : gp) : Prop :=
  0 < g_len g <= max /\
  g_addr g mod bound + g_len g <= bound /\
  (natural = true ->
     g_addr g = 0 \/ exists k, g_addr g mod 2 ^ k = 0 /\ g_len g <= 2 ^ k).
