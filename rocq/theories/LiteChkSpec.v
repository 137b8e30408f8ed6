(** What the AXI4-Lite checker is meant to report, stated on the transfers of the
    bus. *)
From Verif Require Import Base AxiChkModel AxiChkSpec.
Open Scope N_scope.

(** The error responses taken in one cycle, in the order r, b. *)
Definition errors_of (c : cyc) : list (which * N) :=
  map (fun r => (CR, r_resp r)) (filter (fun r => negb (r_resp r =? 0)) (opt (taken (c_r c))))
  ++ map (fun b => (CB, b_resp b))
         (filter (fun b => negb (b_resp b =? 0)) (opt (taken (c_b c)))).

(** Transfers so far. *)
Definition n_ar (h : list cyc) : nat := length (reads h).
Definition n_r (h : list cyc) : nat := length (rbeats h).
Definition n_aw (h : list cyc) : nat := length (writes h).
Definition n_w (h : list cyc) : nat := length (wbeats h).
Definition n_b (h : list cyc) : nat := length (answers h).

(** What AXI4-Lite makes due: data for a read, an address for data, data for an
    address, an answer for a write whose address and data have been taken. *)
Definition owes_r (h : list cyc) : bool := Nat.ltb (n_r h) (n_ar h).
Definition owes_aw (h : list cyc) : bool := Nat.ltb (n_aw h) (n_w h).
Definition owes_w (h : list cyc) : bool := Nat.ltb (n_w h) (n_aw h).
Definition owes_b (h : list cyc) : bool := Nat.ltb (n_b h) (Nat.min (n_aw h) (n_w h)).

Definition lite_conform (max : N) (h : list cyc) : Prop :=
  behaves max c_ar (fun _ => false) h /\ behaves max c_r owes_r h /\
  behaves max c_aw owes_aw h /\ behaves max c_w owes_w h /\ behaves max c_b owes_b h.

(** What the checker takes to be due: it compares numbers of transfers only, and
    for an answer it does not look at the addresses. *)
Definition took_r (h : list cyc) : bool := negb (Nat.eqb (n_r h) (n_ar h)).
Definition took_b (h : list cyc) : bool := negb (Nat.eqb (n_b h) (n_w h)).
Definition lite_enforced (max : N) (h : list cyc) : Prop :=
  behaves max c_ar (fun _ => false) h /\ behaves max c_r took_r h /\
  behaves max c_aw owes_aw h /\ behaves max c_w owes_w h /\ behaves max c_b took_b h.

(** Responses come for requests only, and data is not taken before its address. *)
Definition in_order (h : list cyc) : Prop :=
  forall p q, h = p ++ q ->
    (n_r p <= n_ar p)%nat /\ (n_w p <= n_aw p)%nat /\ (n_b p <= n_w p)%nat.

(** ** Signals: what has to stay while valid waits for ready *)
Definition signals (ch : which) (c : cyc) : chan (list N) :=
  match ch with
  | CAr => mkCh (c_valid (c_ar c)) (c_ready (c_ar c))
             [ax_addr (c_pay (c_ar c)); ax_rest (c_pay (c_ar c))]
  | CAw => mkCh (c_valid (c_aw c)) (c_ready (c_aw c))
             [ax_addr (c_pay (c_aw c)); ax_rest (c_pay (c_aw c))]
  | CW => mkCh (c_valid (c_w c)) (c_ready (c_w c))
            [w_rest (c_pay (c_w c)); w_strb (c_pay (c_w c))]
  | CR => mkCh (c_valid (c_r c)) (c_ready (c_r c))
            [r_rest (c_pay (c_r c)); r_resp (c_pay (c_r c))]
  | CB => mkCh (c_valid (c_b c)) (c_ready (c_b c)) [b_resp (c_pay (c_b c))]
  end.

(** Every reset ends with all valids low. *)
Definition clean_resets (l : list edge) : Prop :=
  forall p cs c q, l = p ++ Fall :: map (Edge false) cs ++ Edge true c :: q -> all_low c.

(** A run no thread has a reason to report. *)
Definition lite_clean (max : N) (l : list edge) : Prop :=
  (forall ch, stable (signals ch) l) /\
  Forall (fun h => Forall (fun c => errors_of c = []) h) (periods true [] l) /\
  Forall (fun h => in_order h /\ lite_conform max h) (periods true [] l) /\
  clean_resets l.
