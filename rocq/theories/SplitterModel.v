(** Model of tlm-modules/tlm-splitter.h (class tlm_splitter) and
    tlm-modules/wire-splitter.h. *)
From Verif Require Import Base TlmModel TlmSpec.
Open Scope N_scope.

Fixpoint list_eqb (a b : list N) : bool :=
  match a, b with
  | [], [] => true
  | x :: a', y :: b' => (x =? y) && list_eqb a' b'
  | _, _ => false
  end.

Definition is_read (g : gp) : bool := match g_cmd g with C_READ => true | _ => false end.

(** Loop of tlm_splitter::b_transport, tlm-splitter.h l.70-89.  [ts] are the
    targets bound to the outputs, all acting on one shared world state; [st] is
    resp_status, [ref] the reference data (None before the first output).  The
    payload is passed by reference: the next output sees the buffer and status
    the previous one left.  SC_REPORT_ERROR throws with SystemC's default
    actions: [AssertFail]. *)
Fixpoint split_loop {S} (check : bool) (ts : list (target S)) (s : S) (g : gp)
    (ref : option (list N)) (st : status) : res (S * (list N * status)) :=
  match ts with
  | [] => Ok (s, (g_data g, st))
  | t :: ts' =>
    let '(s', (d, r)) := t s g in
    let g' := mkGp (g_cmd g) (g_addr g) d (g_be g) (g_sw g) r in
    let st' := match r with St_OK => st | _ => r end in
    if check && is_read g then
      match ref with
      | None => split_loop check ts' s' g' (Some d) st'
      | Some r0 => if list_eqb r0 d then split_loop check ts' s' g' ref st'
                   else AssertFail
      end
    else split_loop check ts' s' g' ref st'
  end.

(** tlm_splitter::b_transport, l.59-92 *)
Definition split_transport {S} (check : bool) (ts : list (target S)) (s : S) (g : gp) :=
  split_loop check ts s g None St_OK.

(** wire_splitter::work, wire-splitter.h l.29-37: the values written to the
    outputs. *)
Definition wire_split (v : bool) (outs : list bool) : list bool := map (fun _ => v) outs.
