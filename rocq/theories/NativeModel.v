(** Model of tlm-bridges/tlm2native-bridge.h: a TLM target in front of a host
    buffer.  Latency is not modelled. *)
From Verif Require Import Base TlmModel TlmSpec.
Open Scope N_scope.

Section Native.
(** [size] as given to the constructor; [cap] the real size of the buffer. *)
Context (size cap : N).

(** tlm2native-bridge.h:97-110, positions from [pos] on; [ptr] the rest of the
    data.  The data buffer after the call, and memory. *)
Fixpoint native_loop (g : gp) (sw : N) (pos : N) (ptr : list N) (m : mem) : res (mem * list N) :=
  match ptr with
  | [] => Ok (m, [])
  | b :: ptr' =>
    let be := match g_be g with
              | None | Some [] => true
              | Some l => nth (N.to_nat (pos mod N.of_nat (length l))) l 0 =? BE_ON
              end in
    let idx := (g_addr g + pos mod sw) mod u64 in
    if be then
      if idx <? cap then
        match g_cmd g with
        | C_READ => rbind (native_loop g sw (pos + 1) ptr' m) (fun r => Ok (fst r, m idx :: snd r))
        | _ => rbind (native_loop g sw (pos + 1) ptr' (upd m idx b)) (fun r => Ok (fst r, b :: snd r))
        end
      else UB
    else rbind (native_loop g sw (pos + 1) ptr' m) (fun r => Ok (fst r, b :: snd r))
  end.

(** :71-122.  With no byte enables and streaming width zero the data length is
    zero and nothing is copied (:111-116).  SC_REPORT_FATAL ends the simulation. *)
Definition native_transport (m : mem) (g : gp) : res (mem * (list N * status)) :=
  let len := g_len g in
  let sw := if g_sw g =? 0 then len else g_sw g in
  if (size <? (g_addr g + N.min len sw) mod u64) && (0 <? size) then AssertFail
  else if negb (g_be_len g =? 0) || negb (sw =? 0) then
    rbind (native_loop g sw 0 (g_data g) m) (fun r => Ok (fst r, (snd r, St_OK)))
  else Ok (m, (g_data g, St_OK)).

(** :124-139 (get_direct_mem_ptr): start and end address *)
Definition native_dmi : N * N := (0, if 0 <? size then size - 1 else u64 - 1).
End Native.
