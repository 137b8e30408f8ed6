(** Model of the AXI4-Lite protocol checker: checkers/checker-axilite.h,
    checkers/pc-axilite.h, checkers/config-axilite.h, and the AXI4-Lite side of
    axi_handshakes_checker (checkers/checker-utils.h l.354-529).

    Runs, the reset loop, HandshakeMonitor, monitor_xchannel_stable and
    axi_reset_checker are those of AxiChkModel.v.  Of a cycle the AXI4-Lite
    checker has: ax_addr and ax_rest (the prot bits) on the address channels,
    w_rest (the data) and w_strb, r_rest (the data) and r_resp, b_resp.  The
    other fields have no signal here and are never looked at. *)
From Verif Require Import Base AxiChkModel.
Open Scope N_scope.

(** __AXILitePCConfig, config-axilite.h l.30-62 and the setters l.64-132. *)
Record lcfg := mkLcfg {
  l_stable : bool; l_resp : bool; l_hs : bool; l_reset : bool; l_max : N }.
Definition lcfg0 : lcfg := mkLcfg false true false false 200.
Definition set_stable (f : lcfg) (en : bool) : lcfg :=
  mkLcfg en (l_resp f) (l_hs f) (l_reset f) (l_max f).
Definition set_resp (f : lcfg) (en : bool) : lcfg :=
  mkLcfg (l_stable f) en (l_hs f) (l_reset f) (l_max f).
Definition set_hs (f : lcfg) (en : bool) (max : N) : lcfg :=
  mkLcfg (l_stable f) true en (l_reset f) max.
Definition set_reset (f : lcfg) (en : bool) : lcfg :=
  mkLcfg (l_stable f) (l_resp f) (l_hs f) en (l_max f).
Definition set_all (f : lcfg) : lcfg := mkLcfg true (l_resp f) true true (l_max f).

(** ** check_axilite_responses, checker-axilite.h l.220-269 *)
Inductive lresp := BadR (resp : N) | BadB (resp : N).

Definition lr_cycle (s : unit) (c : cyc) : res (unit * list lresp) :=
  Ok (s, (if c_valid (c_r c) && c_ready (c_r c)
          then if r_resp (c_pay (c_r c)) =? 0 then [] else [BadR (r_resp (c_pay (c_r c)))]
          else [])
         ++ (if c_valid (c_b c) && c_ready (c_b c)
             then if b_resp (c_pay (c_b c)) =? 0 then [] else [BadB (b_resp (c_pay (c_b c)))]
             else [])).
Definition lr_run (l : list edge) : res ((bool * unit) * list lresp) :=
  steps (clocked tt lr_cycle) (true, tt) l.

(** ** check_axilite_handshakes, l.184-218, with IAxLen l.195-209: every length is
    0, every data beat is a last one, use_ids is false.  The lines below are those
    of checker-utils.h. *)
Record lst := mkLst {
  j_ar : hm; j_r : hm; j_aw : hm; j_w : hm; j_b : hm;
  j_rt : N; j_wd : Z; j_nb : N }.
Definition lst0 : lst := mkLst hm0 hm0 hm0 hm0 hm0 0 0 0.

Definition lh_cycle (max : N) (s : lst) (c : cyc) : res (lst * list hreport) :=
  let inc_r := 0 <? j_rt s in
  let inc_aw := (j_wd s <? 0)%Z in
  let inc_w := (0 <? j_wd s)%Z in
  let inc_b := 0 <? j_nb s in
  let '(m_ar, p1, hit_ar) :=
    hm_run max CAr (j_ar s) false (c_valid (c_ar c)) (c_ready (c_ar c)) in
  let rt1 := if hit_ar then w32 (j_rt s + 1) else j_rt s in
  let '(m_r, p2, hit_r) :=
    hm_run max CR (j_r s) inc_r (c_valid (c_r c)) (c_ready (c_r c)) in
  let rt2 := if hit_r then w32 (rt1 + 2 ^ 32 - 1) else rt1 in
  let '(m_aw, p3, hit_aw) :=
    hm_run max CAw (j_aw s) inc_aw (c_valid (c_aw c)) (c_ready (c_aw c)) in
  rbind (if hit_aw
         then if (2 ^ 31 - 1 <=? j_wd s)%Z then UB else Ok (j_wd s + 1)%Z   (* l.464 *)
         else Ok (j_wd s)) (fun wd1 =>
  let '(m_w, p4, hit_w) :=
    hm_run max CW (j_w s) inc_w (c_valid (c_w c)) (c_ready (c_w c)) in
  rbind (if hit_w
         then if (wd1 <=? - 2 ^ 31)%Z then UB else Ok (wd1 - 1)%Z           (* l.468 *)
         else Ok wd1) (fun wd2 =>
  let nb1 := if hit_w then w32 (j_nb s + 1) else j_nb s in                  (* l.512 *)
  let '(m_b, p5, hit_b) :=
    hm_run max CB (j_b s) inc_b (c_valid (c_b c)) (c_ready (c_b c)) in
  let nb2 := if hit_b then w32 (nb1 + 2 ^ 32 - 1) else nb1 in               (* l.525 *)
  Ok (mkLst m_ar m_r m_aw m_w m_b rt2 wd2 nb2, p1 ++ p2 ++ p3 ++ p4 ++ p5))).

Definition lh_run (max : N) (l : list edge) : res ((bool * lst) * list hreport) :=
  steps (clocked lst0 (lh_cycle max)) (true, lst0) l.

(** ** checker_axilite_stable, checker-axilite.h l.41-182: what each channel samples and compares *)
Definition sample {A B} (f : A -> B) (c : chan A) : chan B :=
  mkCh (c_valid c) (c_ready c) (f (c_pay c)).
Definition eq2 (x y : N * N) : bool := (fst x =? fst y) && (snd x =? snd y).

Definition l_ax (a : axp) : N * N := (ax_addr a, ax_rest a).
Definition l_w (d : wp) : N * N := (w_rest d, w_strb d).
Definition l_r (r : rp) : N * N := (r_rest r, r_resp r).
Definition l_b (b : bp) : N * N := (b_resp b, 0).

(** The channel's monitor. *)
Definition ls_pick (ch : which) (c : cyc) : chan (N * N) :=
  match ch with
  | CAr => sample l_ax (c_ar c) | CAw => sample l_ax (c_aw c)
  | CR => sample l_r (c_r c) | CW => sample l_w (c_w c) | CB => sample l_b (c_b c)
  end.
Definition ls_run (ch : which) (l : list edge) : res ((spos (N * N) * bool) * list unit) :=
  st_run eq2 (ls_pick ch) l.

(** ** The checker module: the threads its constructors start. *)
Inductive lreport :=
| PStable (ch : which) | PResp (r : lresp) | PHs (r : hreport) | PReset (ch : which).

(** The reports of one thread on a whole run; a thread that is not started
    reports nothing. *)
Definition thread {S R} (on : bool) (tag : R -> lreport) (x : res (S * list R))
    : res (list lreport) :=
  if on then rmap (fun y => map tag (snd y)) x else Ok [].

Definition both (x y : res (list lreport)) : res (list lreport) :=
  rbind x (fun a => rmap (fun b => a ++ b) y).

(** All reports of a run, grouped by thread (not in the order of time). *)
Definition lite_run (f : lcfg) (l : list edge) : res (list lreport) :=
  both (thread (l_stable f) (fun _ => PStable CAw) (ls_run CAw l))
  (both (thread (l_stable f) (fun _ => PStable CAr) (ls_run CAr l))
  (both (thread (l_stable f) (fun _ => PStable CW) (ls_run CW l))
  (both (thread (l_stable f) (fun _ => PStable CB) (ls_run CB l))
  (both (thread (l_stable f) (fun _ => PStable CR) (ls_run CR l))
  (both (thread (l_resp f) PResp (lr_run l))
  (both (thread (l_hs f) PHs (lh_run (l_max f) l))
        (thread (l_reset f) PReset (rs_run l)))))))).
