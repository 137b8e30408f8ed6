(** Theorems about the AXI4-Lite protocol checker: responses, handshakes, stable
    signals, resets (C95). *)
From Coq Require Import NArith ZArith List Bool Lia.
From Verif Require Import Base BaseFacts AxiChkModel AxiChkSpec AxiChkRead AxiChkHs AxiChkMon
  LiteChkModel LiteChkSpec LiteChkProofs.
Import ListNotations.
Local Open Scope N_scope.

(** * C95: AXI4-Lite *)

(** ** Responses *)

(** The reports are exactly the error responses taken outside of reset, in their
    order; the edge that ends a reset is not looked at. *)
Theorem C95_responses tr : exists s, lr_run tr =
  Ok (s, map (fun x => match fst x with CR => BadR (snd x) | _ => BadB (snd x) end)
             (flat_map (fun h => flat_map errors_of h) (periods true [] tr))).
Proof. exact (lr_exact tr). Qed.

Definition off {A} (x : A) : chan A := mkCh false false x.
Definition go {A} (x : A) : chan A := mkCh true true x.
Definition stall {A} (x : A) : chan A := mkCh true false x.
Definition ax0 : axp := mkAx 0 0 0 0 0 0 0.
Definition rest : cyc :=
  mkCyc (off ax0) (off (mkR 0 false 0 0)) (off ax0) (off (mkW 0 0 false 0)) (off (mkB 0 0 0)).
Definition onAr x c := mkCyc x (c_r c) (c_aw c) (c_w c) (c_b c).
Definition onR x c := mkCyc (c_ar c) x (c_aw c) (c_w c) (c_b c).
Definition onAw x c := mkCyc (c_ar c) (c_r c) x (c_w c) (c_b c).
Definition onW x c := mkCyc (c_ar c) (c_r c) (c_aw c) x (c_b c).
Definition onB x c := mkCyc (c_ar c) (c_r c) (c_aw c) (c_w c) x.
Definition awake (h : list cyc) : list edge := map (Edge true) h.
Definition ad (a : N) : axp := mkAx a 0 0 0 0 0 0.
Definition rd (resp data : N) : rp := mkR 0 false resp data.
Definition wd (data strb : N) : wp := mkW 0 strb false data.
Definition ok : bp := mkB 0 0 0.

(** SLVERR and DECERR in one cycle, a stalled error that is not taken, and one
    at the edge that ends a reset. *)
Example C95_responses_case :
  lr_run (awake [onR (go (rd 2 7)) (onB (go (mkB 0 3 0)) rest); onB (stall (mkB 0 2 0)) rest]
          ++ Fall :: map (Edge true) [onR (go (rd 3 0)) rest; onR (go (rd 1 0)) rest]) =
    Ok ((true, tt), [BadR 2; BadB 3; BadR 1]).
Proof. vm_compute. reflexivity. Qed.

(** ** Handshakes *)

(** What the checker enforces, exactly: valid is not withdrawn before ready, does
    not wait [max] cycles for it, and does not stay away [max] cycles from a
    channel while the numbers of transfers differ: of r and ar, of aw and w, of b
    and w. *)
Theorem C95_handshakes max tr : 0 < max < 2 ^ 32 ->
  Forall (fun h => (length h < 2 ^ 31)%nat) (periods true [] tr) ->
  (quiet (lh_run max tr) <-> Forall (lite_enforced max) (periods true [] tr)).
Proof. apply lh_exact. Qed.

(** For traffic whose responses follow their requests and whose data follows its
    address, this is what AXI4-Lite asks for.  Missing: all other traffic (below). *)
Theorem C95_conform_partial max tr : 0 < max < 2 ^ 32 ->
  Forall (fun h => (length h < 2 ^ 31)%nat) (periods true [] tr) ->
  Forall in_order (periods true [] tr) ->
  (quiet (lh_run max tr) <-> Forall (lite_conform max) (periods true [] tr)).
Proof.
  intros Hm Hl Ho. rewrite (lh_exact max tr Hm Hl). rewrite !Forall_forall in *.
  split; intros H h Hin; apply (order_conform max h (Ho h Hin)), H, Hin.
Qed.

Definition chat : list cyc :=
  [onAr (stall (ad 8)) rest; onAr (go (ad 8)) (onAw (go (ad 16)) rest); rest;
   onR (go (rd 0 5)) rest; onW (go (wd 9 15)) rest; rest; rest; onB (go ok) rest].
Example C95_handshakes_case :
  quiet (lh_run 3 (awake chat)) /\
  (exists s, lh_run 2 (awake chat) = Ok (s, [NoValid CW; NoValid CB])) /\
  (exists s, lh_run 9 (awake [onW (stall (wd 0 0)) rest; rest]) = Ok (s, [Toggled CW])) /\
  absent c_w owes_w (firstn 4 chat) = 2%nat /\ owes_b (firstn 5 chat) = true.
Proof. repeat split; try (eexists; vm_compute; reflexivity). Qed.

(** Refuted: data may come before its address, but the checker then expects the
    answer from the data on.  Address and answer come in time here, and the answer
    is reported as missing one cycle before it is even due. *)
Theorem C95_early_data_refuted : exists h,
  lite_conform 4 h /\ n_w h = 1%nat /\ n_aw h = 1%nat /\ n_b h = 1%nat /\
  exists s, lh_run 4 (awake h) = Ok (s, [NoValid CB]).
Proof.
  exists [onW (go (wd 1 15)) rest; rest; rest; rest; onAw (go (ad 0)) rest; onB (go ok) rest].
  split.
  { unfold lite_conform. do 4 (split; [apply behaves_check; vm_compute; reflexivity|]).
    apply behaves_check; vm_compute; reflexivity. }
  do 3 (split; [reflexivity|]). eexists. vm_compute. reflexivity.
Qed.

(** Refuted: an answer that comes before the address of its write is accepted by
    all checks. *)
Theorem C95_early_answer_refuted : exists h p q, h = p ++ q /\
  n_aw p = 0%nat /\ n_b p = 1%nat /\ lite_run (set_all lcfg0) (awake h) = Ok [].
Proof.
  exists [onW (go (wd 1 15)) rest; onB (go ok) rest; onAw (go (ad 0)) rest],
    [onW (go (wd 1 15)) rest; onB (go ok) rest], [onAw (go (ad 0)) rest].
  do 3 (split; [reflexivity|]). vm_compute. reflexivity.
Qed.

(** Refuted: read data nobody asked for is not reported, and pays for a later
    read that is never answered, however long that takes; the same for an answer
    without a write. *)
Theorem C95_unasked_refuted :
  (forall n, lite_run (set_all lcfg0)
     (awake (onR (go (rd 0 1)) rest :: onAr (go (ad 8)) rest :: repeat rest n)) = Ok []) /\
  (forall n, lite_run (set_all lcfg0)
     (awake (onB (go ok) rest :: onAw (go (ad 8)) rest :: onW (go (wd 1 15)) rest
             :: repeat rest n)) = Ok []).
Proof.
  split; intros [|n]; [vm_compute; reflexivity| |vm_compute; reflexivity|].
  - unfold awake. change (onR (go (rd 0 1)) rest :: onAr (go (ad 8)) rest :: repeat rest (S n))
      with ([onR (go (rd 0 1)) rest; onAr (go (ad 8)) rest; rest] ++ repeat rest n).
    rewrite map_app, map_again. eapply lite_rest; vm_compute; reflexivity.
  - unfold awake. change (onB (go ok) rest :: onAw (go (ad 8)) rest :: onW (go (wd 1 15)) rest
             :: repeat rest (S n))
      with ([onB (go ok) rest; onAw (go (ad 8)) rest; onW (go (wd 1 15)) rest; rest]
            ++ repeat rest n).
    rewrite map_app, map_again. eapply lite_rest; vm_compute; reflexivity.
Qed.

(** ** Stable signals *)

(** If nothing is reported, a transfer whose valid has just risen kept all its
    signals until it was taken.  Missing: transfers right behind another one. *)
Theorem C95_stable_partial ch p cs c q :
  (p = [] \/ exists p' c0, p = p' ++ [Edge true c0] /\ c_valid (signals ch c0) = false) ->
  Forall (fun x => c_valid (signals ch x) = true /\ c_ready (signals ch x) = false) cs ->
  c_valid (signals ch c) = true ->
  quiet (ls_run ch (p ++ map (Edge true) (cs ++ [c]) ++ q)) ->
  Forall (fun x => c_pay (signals ch x) = c_pay (signals ch c)) cs.
Proof.
  intros Hp Hcs Hc Hq.
  assert (H : Forall (fun x => c_pay (ls_pick ch x) = c_pay (ls_pick ch c)) cs).
  { apply (st_detects eq2 (ls_pick ch) eq2_ok p cs c q).
    - destruct Hp as [Hp|[p' [c0 [E V]]]]; [left; exact Hp|right].
      exists p', c0. rewrite <- signals_valid. split; assumption.
    - eapply Forall_impl; [|exact Hcs]. intros x [V R].
      rewrite <- signals_valid, <- signals_ready. split; assumption.
    - rewrite <- signals_valid. exact Hc.
    - exact Hq. }
  eapply Forall_impl; [|exact H]. intros x E. apply signals_pick, E.
Qed.

Example C95_stable_case :
  quiet (ls_run CW (awake [rest; onW (stall (wd 1 15)) rest; onW (go (wd 1 15)) rest])) /\
  (exists s, ls_run CW (awake [rest; onW (stall (wd 1 15)) rest; onW (stall (wd 1 7)) rest])
             = Ok (s, [tt])) /\
  (exists s, ls_run CAr (awake [rest; onAr (stall (ad 4)) rest; onAr (stall (ad 8)) rest])
             = Ok (s, [tt])).
Proof. split; [|split]; eexists; vm_compute; reflexivity. Qed.

(** ** The whole checker *)

(** Clean traffic gets no report, whatever checks are on. *)
Theorem C95_accepts f tr : 0 < l_max f < 2 ^ 32 ->
  Forall (fun h => (length h < 2 ^ 31)%nat) (periods true [] tr) ->
  lite_clean (l_max f) tr -> lite_run f tr = Ok [].
Proof.
  intros Hm Hl [Hs [Hr [Hh Hc]]].
  assert (Q : forall ch, quiet (ls_run ch tr)).
  { intros ch. destruct (st_accepts eq2 (ls_pick ch) eq2_ok tr (signals_stable ch tr (Hs ch)))
      as [s [E _]]. exists s. exact E. }
  unfold lite_run. rewrite !both_quiet, !thread_quiet.
  do 5 (split; [intros _; apply Q|]).
  split; [intros _; apply lr_quiet, Hr|].
  split; [|intros _; apply rs_clean, Hc].
  intros _. apply lh_exact; [exact Hm|exact Hl|].
  eapply Forall_impl; [|exact Hh]. intros h [Ho Hf]. apply order_conform; assumption.
Qed.

(** As constructed, the checker looks at the responses and at nothing else. *)
Theorem C95_default tr : lite_run lcfg0 tr = Ok [] <->
  Forall (fun h => Forall (fun c => errors_of c = []) h) (periods true [] tr).
Proof.
  unfold lite_run. rewrite !both_quiet, !thread_quiet. cbn [lcfg0 l_stable l_resp l_hs l_reset].
  rewrite lr_quiet. split.
  - intros [_ [_ [_ [_ [_ [H _]]]]]]. exact (H eq_refl).
  - intros H. do 5 (split; [discriminate|]). split; [intros _; exact H|]. split; discriminate.
Qed.

Example C95_accepts_case :
  lite_run (set_hs (set_all lcfg0) true 3)
    (awake chat ++ Fall :: map (Edge false) [rest; rest] ++ awake (rest :: chat)) = Ok [] /\
  lite_run (set_all lcfg0)
    (Fall :: map (Edge true) [onAr (stall (ad 4)) rest; onAr (stall (ad 4)) rest; rest;
                              onB (go (mkB 0 2 0)) rest]) =
    Ok [PResp (BadB 2); PHs (Toggled CAr); PHs (Toggled CAr); PReset CAr].
Proof. split; vm_compute; reflexivity. Qed.

(** Refuted: enable_all_checks does not turn the check of the responses on; where
    it has been turned off before, an error response goes unreported. *)
Theorem C95_enable_all_refuted : exists f tr h, periods true [] tr = [h] /\
  flat_map errors_of h = [(CR, 2)] /\ lite_run (set_all f) tr = Ok [].
Proof.
  exists (set_resp lcfg0 false), (awake [onAr (go (ad 0)) rest; onR (go (rd 2 0)) rest]),
    [onAr (go (ad 0)) rest; onR (go (rd 2 0)) rest].
  split; [reflexivity|]. split; [reflexivity|]. vm_compute. reflexivity.
Qed.

(** ** Switches *)

(** Every kind of report has its switch and no other: a run reports exactly those
    reports of the full checker whose kind is switched on. *)
Definition switch (f : lcfg) (r : lreport) : bool :=
  match r with PStable _ => l_stable f | PResp _ => l_resp f | PHs _ => l_hs f | PReset _ => l_reset f end.
Theorem C95_switches f tr all : lite_run (mkLcfg true true true true (l_max f)) tr = Ok all ->
  lite_run f tr = Ok (filter (switch f) all).
Proof.
  unfold lite_run. cbn [l_stable l_resp l_hs l_reset l_max thread].
  assert (FM : forall (R : Type) (b : bool) (tag : R -> lreport) (l : list R),
    (forall r, switch f (tag r) = b) -> filter (switch f) (map tag l) = if b then map tag l else []).
  { clear. intros R b tag l H. induction l as [|x l IH]; [destruct b; reflexivity|].
    cbn [map filter]. rewrite H, IH. destruct b; reflexivity. }
  destruct (ls_run CAw tr) as [y1| | |]; cbn [rmap rbind both]; try discriminate.
  destruct (ls_run CAr tr) as [y2| | |]; cbn [rmap rbind both]; try discriminate.
  destruct (ls_run CW tr) as [y3| | |]; cbn [rmap rbind both]; try discriminate.
  destruct (ls_run CB tr) as [y4| | |]; cbn [rmap rbind both]; try discriminate.
  destruct (ls_run CR tr) as [y5| | |]; cbn [rmap rbind both]; try discriminate.
  destruct (lr_run tr) as [y6| | |]; cbn [rmap rbind both]; try discriminate.
  destruct (lh_run (l_max f) tr) as [y7| | |]; cbn [rmap rbind both]; try discriminate.
  destruct (rs_run tr) as [y8| | |]; cbn [rmap rbind both]; try discriminate.
  intros H. apply Ok_inj in H. rewrite <- H.
  rewrite !filter_app.
  rewrite !(FM _ (l_stable f)) by reflexivity. rewrite (FM _ (l_resp f)) by reflexivity.
  rewrite (FM _ (l_hs f)) by reflexivity. rewrite (FM _ (l_reset f)) by reflexivity.
  destruct (l_stable f), (l_resp f), (l_hs f), (l_reset f); reflexivity.
Qed.
Example C95_switches_case :
  lite_run (mkLcfg false true false true 5) (awake [onR (go (rd 2 7)) rest]) =
  rmap (filter (switch (mkLcfg false true false true 5)))
    (lite_run (mkLcfg true true true true 5) (awake [onR (go (rd 2 7)) rest])).
Proof. vm_compute. reflexivity. Qed.

(** The setter of the handshake check also switches the response check on, even
    when it is called to switch the handshake check off. *)
Theorem C95_handshake_setter_refuted : exists f tr,
  l_resp f = false /\ lite_run f tr = Ok [] /\ lite_run (set_hs f false 200) tr = Ok [PResp (BadR 2)].
Proof.
  exists (set_resp lcfg0 false), (awake [onR (go (rd 2 7)) rest]).
  split; [reflexivity|]. split; vm_compute; reflexivity.
Qed.

Print Assumptions C95_responses.
Print Assumptions C95_handshakes.
Print Assumptions C95_conform_partial.
Print Assumptions C95_early_data_refuted.
Print Assumptions C95_early_answer_refuted.
Print Assumptions C95_unasked_refuted.
Print Assumptions C95_stable_partial.
Print Assumptions C95_accepts.
Print Assumptions C95_default.
Print Assumptions C95_enable_all_refuted.
Print Assumptions C95_switches.
Print Assumptions C95_handshake_setter_refuted.
