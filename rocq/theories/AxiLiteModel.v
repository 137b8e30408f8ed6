(** Model of tlm-bridges/tlm2axilite-bridge.h and axilite2tlm-bridge.h joined
    by an AXI-Lite bus.

    tlm2axilite's b_transport holds a mutex until the transaction is done
    (l.261-275), so one transaction at a time is on the bus and the model is a
    function of one transaction.  The bus is a list of byte lanes, lane 0 first.
    Not modelled: the valid/ready handshakes (each phase waits for its partner),
    AxPROT, reset, delays. *)
From Verif Require Import Base TlmModel TlmSpec AlignerModel.
Open Scope N_scope.

(** [bw] is DATA_WIDTH / 8, [aw] is ADDR_WIDTH. *)
Record lcfg := mkLcfg { lc_bw : N; lc_aw : N }.

(** AXI responses *)
Inductive axi_resp := R_OKAY | R_SLVERR | R_DECERR.

(** Outcome of b_transport: returned, or never returns. *)
Inductive lite_out (S : Type) :=
| L_Done (s : S) (d : list N) (st : status)
| L_Hang (s : S) (d : list N).
Arguments L_Done {S}. Arguments L_Hang {S}.

(** ** tlm2axilite-bridge.h *)
(** prepare_wbeat, l.530-590: bytes sent, wdata and wstrb.  The strobes are built
    from lane 0 and rotated by the byte offset. *)
Definition lane_off (c : lcfg) (g : gp) : N := g_addr g mod lc_bw c.
Definition w_len (c : lcfg) (g : gp) : N :=
  N.min (g_len g) (N.min (lc_bw c - lane_off c g) (g_sw g)).
Definition rotate {A} (d : A) (k : nat) (l : list A) : list A :=
  map (fun i => nth ((i + (length l - k)) mod length l) l d) (seq 0 (length l)).
Definition w_strb (c : lcfg) (g : gp) : list bool :=
  rotate false (N.to_nat (lane_off c g))
    (map (fun i => (N.of_nat i <? w_len c g) && be_at (g_be g) (N.of_nat i))
         (seq 0 (N.to_nat (lc_bw c)))).
Definition w_data (c : lcfg) (g : gp) : list N :=
  overlay (N.to_nat (lane_off c g)) (firstn (N.to_nat (w_len c g)) (g_data g))
          (repeat 0 (N.to_nat (lc_bw c))).

(** read_resp_phase, l.383-427: the bytes copied from the lanes.  The loop is
    left when nothing is left to read; otherwise it waits for another response
    in rdResponses, which never comes. *)
Definition r_len (c : lcfg) (g : gp) : N := N.min (lc_bw c - lane_off c g) (g_len g).
Definition r_copy (c : lcfg) (g : gp) (rdata : list N) : list N :=
  map (fun i => if (N.of_nat i <? r_len c g) && be_at (g_be g) (N.of_nat i)
                then nth (N.to_nat (lane_off c g) + i) rdata 0
                else nth i (g_data g) 0)
      (seq 0 (length (g_data g))).

(** l.436-452, l.509-524 *)
Definition tlm_of_resp (r : axi_resp) : status :=
  match r with R_OKAY => St_OK | R_DECERR => St_ADDRESS | R_SLVERR => St_GENERIC end.

(** ** axilite2tlm-bridge.h *)
(** l.403-414, l.503-514 *)
Definition resp_of_tlm (s : status) : axi_resp :=
  match s with St_ADDRESS => R_DECERR | St_GENERIC => R_SLVERR | _ => R_OKAY end.

(** Transaction, l.134-173.  [junk] is the content of the new data buffer. *)
Definition lite_addr (c : lcfg) (a : N) : N :=
  a mod 2 ^ lc_aw c / lc_bw c * lc_bw c.
Definition read_payload (c : lcfg) (junk : list N) (a : N) : gp :=
  mkGp C_READ (lite_addr c a) (firstn (N.to_nat (lc_bw c)) junk) None (lc_bw c) St_INCOMPLETE.

(** FillData, l.201-224 *)
Definition fill_lane (wd : list N) (ws : list bool) (junk : list N) (i : nat) : N :=
  if nth i ws false then nth i wd 0 else nth i junk 0.
Definition fill_be (ws : list bool) (i : nat) : N := if nth i ws false then BE_ON else BE_OFF.
(** TryDropBE, l.248-268 *)
Definition drop_be (be : list N) : option (list N) :=
  if forallb (fun b => b =? BE_ON) be then None else Some be.
Definition write_payload (c : lcfg) (junk : list N) (a : N) (wd : list N) (ws : list bool) : gp :=
  let n := N.to_nat (lc_bw c) in
  mkGp C_WRITE (lite_addr c a) (map (fill_lane wd ws junk) (seq 0 n))
       (drop_be (map (fill_be ws) (seq 0 n))) (lc_bw c) St_INCOMPLETE.

(** ** b_transport, tlm2axilite-bridge.h:250-276, with Validate l.224-243 *)
Definition lite_transport {S} (c : lcfg) (junk : list N) (t : target S) (s : S) (g : gp)
  : res (lite_out S) :=
  if (g_len g =? 0) || (lc_bw c <? g_len g) then Ok (L_Done s (g_data g) St_GENERIC)
  else match g_cmd g with
  | C_READ =>
    let '(s', (rd, st)) := t s (read_payload c junk (g_addr g)) in
    if g_sw g =? 0 then UB                                  (* pos % streaming_width *)
    else if r_len c g <? g_len g then Ok (L_Hang s' (r_copy c g rd))
    else Ok (L_Done s' (r_copy c g rd) (tlm_of_resp (resp_of_tlm st)))
  | _ =>
    if g_sw g =? 0 then AssertFail                           (* l.546 *)
    else
      let '(s', (_, st)) := t s (write_payload c junk (g_addr g) (w_data c g) (w_strb c g)) in
      Ok (L_Done s' (g_data g) (tlm_of_resp (resp_of_tlm st)))
  end.

(** ** The aligner in front, tlm2axilite-bridge.h:121-139 *)
(** validate, l.194-211 *)
Definition lite_validate (c : lcfg) (addr len sw : N) : bool :=
  negb (lc_bw c <? len) && negb (sw <? len).
Definition lite_acfg (c : lcfg) : acfg :=
  mkAcfg (8 * lc_bw c) (lc_bw c) 4096 true (Some (lite_validate c)).

(** The bridge as the aligner's target.  Calls that do not return (or crash)
    leave [stuck] set; the aligner then sees an error. *)
Definition lite_target {S} (c : lcfg) (junk : list N) (t : target S) : target (S * bool) :=
  fun sb g =>
    match lite_transport c junk t (fst sb) g with
    | Ok (L_Done s' d st) => ((s', snd sb), (d, st))
    | Ok (L_Hang s' d) => ((s', true), (d, St_INCOMPLETE))
    | _ => ((fst sb, true), (g_data g, St_INCOMPLETE))
    end.
Definition lite_aligned {S} (c : lcfg) (junk : list N) (t : target S) (s : S) (g : gp)
  : res (S * bool * (list N * status)) :=
  align_transport (lite_acfg c) (lite_target c junk t) (s, false) g.
