(** What a wrapping burst means (AMBA AXI A3.4.1 with byte granularity). *)
From Verif Require Import Base TlmModel TlmSpec.
Open Scope N_scope.

Definition wrap_base (g : gp) : N := g_addr g / g_len g * g_len g.

(** Byte [k] of the burst. *)
Definition wrap_access_at (g : gp) (k : nat) : access :=
  mkAcc ((wrap_base g + (g_addr g - wrap_base g + N.of_nat k) mod g_len g) mod u64)
        (be_at (g_be g) (N.of_nat k)) (nth k (g_data g) 0).
Definition wrap_accesses (g : gp) : list access :=
  map (wrap_access_at g) (seq 0 (length (g_data g))).

(** The streaming width does not shorten the burst. *)
Definition not_streaming (g : gp) : Prop := g_sw g = 0 \/ g_len g <= g_sw g.
