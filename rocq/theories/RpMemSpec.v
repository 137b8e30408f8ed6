(** What a remote access must do, compared with the same access made directly on
    the target. *)
From Verif Require Import Base TlmModel RpProtoModel RpProtoSpec RpMemModel.
Open Scope N_scope.

(** The three classes of outcome an initiator can tell apart across the wire. *)
Definition status_class (st : status) : status :=
  match st with
  | St_OK => St_OK
  | St_ADDRESS => St_ADDRESS
  | _ => St_GENERIC
  end.

(** The payload and attributes the target has to see: same command, address, data
    length, streaming width and (for writes) data; status INCOMPLETE as for any
    fresh payload; for reads the buffer content is irrelevant (zeroes). *)
Definition at_target (g : gp) : gp :=
  mkGp (g_cmd g) (g_addr g)
       (match g_cmd g with C_READ => repeat 0 (length (g_data g)) | _ => g_data g end)
       None (g_sw g) St_INCOMPLETE.
Definition attrs_at_target (a : mattr) : mattr :=
  mkAttr (a_posted a) (a_master a) (a_eop a) (a_secure a) false false.

(** A request that fits the C types. *)
Definition wf_access (g : gp) (a : mattr) (id dev clk : N) : Prop :=
  (g_cmd g = C_READ \/ g_cmd g = C_WRITE) /\
  g_addr g < u64 /\ g_sw g < u32 /\ bytes_ok (g_data g) /\ 80 + g_len g < u32 /\
  a_master a < 65535 /\ id < u32 /\ dev < u32 /\ clk < u64.

(** A target reads as many data bytes as it was asked for. *)
Definition target_ok {S} (t : target S) : Prop :=
  forall s g a s' d st, g_cmd g = C_READ -> t s g a = (s', d, st) ->
    length d = length (g_data g) /\ bytes_ok d.
