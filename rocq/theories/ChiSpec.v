(** What CHI asks of an answer to a snoop (ARM IHI 0050, Resp and FwdState
    fields, cache state transitions), in terms of the line before and after. *)
From Verif Require Import Base.
Open Scope N_scope.

(** A line as the protocol sees it: not present, or with two attributes. *)
Record seen := mkSeen { v_shared : bool; v_dirty : bool }.
Definition view := option seen.

(** Resp[1:0]: Invalid 0, Shared Clean 1, Unique 2, Shared Dirty 3.  Resp[2]: Pass Dirty. *)
Definition state_code (v : view) : N :=
  match v with
  | None => 0
  | Some v => if v_shared v then if v_dirty v then 3 else 1 else 2
  end.
Definition dirty (v : view) : bool := match v with Some v => v_dirty v | None => false end.
Definition unique (v : view) : bool := match v with Some v => negb (v_shared v) | None => false end.
Definition resp_state (x : N) : N := x mod 4.
Definition resp_pd (x : N) : bool := 4 <=? x.

(** What a snoop is for. *)
Inductive purpose :=
| P_Look          (* leave the line alone *)
| P_Share         (* the requester gets a shared copy *)
| P_Clean         (* write dirty data to memory *)
| P_CleanInval    (* the same and invalidate *)
| P_Take          (* the requester becomes the only owner *)
| P_Drop.         (* invalidate, dirty data is not needed *)

(** An answer: Resp, the data sent to the home if any (all bytes or only the
    enabled ones), FwdState and the Resp field of the data sent to the requester. *)
Record answer := mkAns { a_resp : N; a_data : option bool (* Some true: the whole line *);
                         a_fwd : option (N * N) (* FwdState, Resp of CompData *) }.

(** The line afterwards is one the purpose allows. *)
Definition allowed_after (p : purpose) (b a : view) : Prop :=
  match p with
  | P_Look => a = b
  | P_Share => unique a = false
  | P_Clean => dirty a = false
  | P_CleanInval | P_Take | P_Drop => a = None
  end.
(** Dirty data is kept or handed on (to the home with data, or to the requester). *)
Definition dirty_kept (p : purpose) (b a : view) (x : answer) : Prop :=
  dirty b = true -> p = P_Drop \/ dirty a = true \/
    (resp_pd (a_resp x) = true /\ a_data x <> None) \/
    (exists fs c, a_fwd x = Some (fs, c) /\ resp_pd c = true).
Definition pd_only_dirty (b : view) (x : answer) : Prop :=
  (resp_pd (a_resp x) = true -> dirty b = true /\ a_data x <> None) /\
  (forall fs c, a_fwd x = Some (fs, c) -> resp_pd c = true -> dirty b = true).
(** The state told to the home is the state afterwards. *)
Definition state_told (a : view) (x : answer) : Prop := resp_state (a_resp x) = state_code a.
(** Passing the dirty data on ends the responsibility for it. *)
Definition dirty_once (a : view) (x : answer) : Prop :=
  resp_pd (a_resp x) = true -> dirty a = false.
(** FwdState repeats what the requester was told. *)
Definition fwd_told (x : answer) : Prop := forall fs c, a_fwd x = Some (fs, c) -> fs = c.
(** A requester that gets a unique copy is the only one left. *)
Definition fwd_compatible (a : view) (x : answer) : Prop :=
  forall fs c, a_fwd x = Some (fs, c) ->
    (resp_state c = 2 -> a = None) /\ (resp_state c <> 0 -> unique a = false).
