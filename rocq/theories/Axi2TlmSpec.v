(** Bursts the axi2tlm bridge carries faithfully; [B] is the bytes of the bus. *)
From Verif Require Import Base TlmModel TlmSpec AxiSpec Tlm2AxiSpec.
Open Scope N_scope.

Definition span (b : aburst) : N := b_bytes b * b_beats b.

(** Beats fit the bus and the burst does not leave the address space. *)
Definition incr_burst (B : N) (b : aburst) : Prop :=
  bus_width B /\ bus_width (b_bytes b) /\ b_bytes b <= B /\ b_kind b = B_INCR /\
  b_addr b / b_bytes b * b_bytes b + span b <= u64.
Definition fixed_burst (B : N) (b : aburst) : Prop :=
  bus_width B /\ bus_width (b_bytes b) /\ b_bytes b <= B /\ b_kind b = B_FIXED /\
  b_addr b / B * B + B <= u64.
Definition wrap_burst (B : N) (b : aburst) : Prop :=
  bus_width B /\ bus_width (b_bytes b) /\ b_bytes b <= B /\ b_kind b = B_WRAP /\
  b_addr b mod b_bytes b = 0 /\ b_addr b + span b <= u64.

(** The wrap block covers whole bus words, or nothing wraps. *)
Definition wrap_lanes (B : N) (b : aburst) : Prop :=
  (B | span b) \/ (span b | B) /\ b_addr b mod span b = 0.

(** [done] happened in the order of [todo] among elements with equal [key]. *)
Definition pick_key {X} (key : X -> N) (c : N) (l : list X) : list X := filter (fun x => key x =? c) l.
Definition in_order {X} (key : X -> N) (todo done : list X) : Prop :=
  forall c, exists rest, pick_key key c todo = pick_key key c done ++ rest.
