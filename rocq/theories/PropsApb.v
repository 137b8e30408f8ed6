(** C59, C60: the APB bridge. *)
From Verif Require Import Base BaseFacts LeFacts TlmModel TlmSpec ApbModel.
Open Scope N_scope.

(** ** APB transfers as seen by a slave *)
(** The slave acts at a rising edge with psel, penable and pready high.  A setup
    cycle (psel without penable) comes right before the access cycles, and the
    signals do not change until the transfer is done (AMBA APB, 2.1, 3.1). *)
Definition setup_wires (aw : N) (g : gp) : apb :=
  mkApb true false (is_write g) (g_addr g mod 2 ^ aw) (if is_write g then le_dec (g_data g) else 0).
Definition access_wires (aw : N) (g : gp) : apb :=
  mkApb true true (is_write g) (g_addr g mod 2 ^ aw) (if is_write g then le_dec (g_data g) else 0).
Definition good_call (g : gp) : Prop := g_be g = None /\ g_len g = 4 /\ 4 <= g_sw g.

(** One call with its cycles: [d] cycles of delay and the setup cycle, at which
    the slave may drive anything, [k] cycles in which the slave is not ready, and
    the one in which it is. *)
Record call := mkCall { c_gp : gp; c_setup : list (bool * N); c_wait : list N; c_rdata : N }.
Definition quiet_cycle (rv : bool * N) : acycle := mkCyc [] (fst rv) (snd rv).
Definition call_cycles (c : call) : list acycle :=
  match c_setup c with
  | [] => []
  | (r, v) :: l => mkCyc [(c_gp c, length l)] r v :: map quiet_cycle l
  end ++ map (fun v => quiet_cycle (false, v)) (c_wait c) ++ [quiet_cycle (true, c_rdata c)].
Definition call_trace (aw : N) (c : call) : list apb :=
  repeat (setup_wires aw (c_gp c)) (length (c_setup c)) ++
  repeat (access_wires aw (c_gp c)) (S (length (c_wait c))).
Definition call_data (c : call) : list N :=
  match g_cmd (c_gp c) with C_READ => le_enc 4 (c_rdata c) | _ => g_data (c_gp c) end.

Section Proofs.
Context (aw : N).
Definition idle_thread (t : athread) : Prop := exists st d, a_pc t = A_Done st d.

Lemma pos_idle w ts r v : Forall idle_thread ts -> each (fun w t => pos_edge w t r v) w ts = (w, ts).
Proof.
  intro H. revert w. induction H as [|t ts (st & d & P) _ IH]; intro w; [reflexivity|]. cbn [each].
  unfold pos_edge at 1. rewrite P. rewrite IH. reflexivity.
Qed.
Lemma neg_idle w ts : Forall idle_thread ts -> each neg_edge w ts = (w, ts).
Proof.
  intro H. revert w. induction H as [|t ts (st & d & P) _ IH]; intro w; [reflexivity|]. cbn [each].
  unfold neg_edge at 1. rewrite P. rewrite IH. reflexivity.
Qed.
Lemma each_app f w l1 l2 : each f w (l1 ++ l2) =
  let '(w1, r1) := each f w l1 in let '(w2, r2) := each f w1 l2 in (w2, r1 ++ r2).
Proof.
  revert w. induction l1 as [|t l1 IH]; intro w; cbn [each app].
  - now destruct (each f w l2).
  - destruct (f w t) as [w1 t1]. rewrite IH. destruct (each f w1 l1) as [w2 r2]. destruct (each f w2 l2). reflexivity.
Qed.
Lemma quiet_step ts w t r v : Forall idle_thread ts ->
  apb_cycle aw (w, ts ++ [t]) (quiet_cycle (r, v)) =
  let '(w1, t1) := pos_edge w t r v in let '(w2, t2) := neg_edge w1 t1 in (w2, ts ++ [t2], w).
Proof.
  intro H. unfold apb_cycle, quiet_cycle. cbn [y_calls enter_all fst snd y_ready y_rdata]. rewrite app_nil_r, each_app.
  rewrite (pos_idle _ _ _ _ H). cbn [each]. destruct (pos_edge w t r v) as [w1 t1]. rewrite each_app, (neg_idle _ _ H). cbn [each].
  destruct (neg_edge w1 t1) as [w2 t2]. reflexivity.
Qed.

Lemma cycles_app s l1 l2 : apb_cycles aw s (l1 ++ l2) =
  let '(s1, o1) := apb_cycles aw s l1 in let '(s2, o2) := apb_cycles aw s1 l2 in (s2, o1 ++ o2).
Proof.
  revert s. induction l1 as [|y l1 IH]; intro s; cbn [apb_cycles app].
  - now destruct (apb_cycles aw s l2).
  - destruct (apb_cycle aw s y) as [s1 o]. rewrite IH. destruct (apb_cycles aw s1 l1) as [s2 o2].
    destruct (apb_cycles aw s2 l2). reflexivity.
Qed.

(** the delay and the setup cycle *)
Lemma setup_cycles ts g w : Forall idle_thread ts -> p_sel w = true ->
  forall l, l <> [] ->
  apb_cycles aw (w, ts ++ [mkAth g (match length l with 1%nat => A_Setup | n => A_Delay (pred n) end) (g_data g)]) (map quiet_cycle l) =
  ((mkApb true true (p_write w) (p_addr w) (p_wdata w), ts ++ [mkAth g A_Access (g_data g)]), repeat w (length l)).
Proof.
  intros H S. induction l as [|[r v] l IH]; intro NE; [easy|]. cbn [map apb_cycles]. rewrite quiet_step by exact H.
  destruct l as [|rv l].
  - cbn. now rewrite S.
  - specialize (IH ltac:(discriminate)). cbn [length pred] in *. unfold pos_edge. cbn [a_pc a_gp a_data].
    destruct l as [|rv2 l]; cbn [length] in *; cbn [neg_edge a_pc]; rewrite IH; reflexivity.
Qed.
(** waiting for pready *)
Lemma access_cycles ts g w ws v d0 : Forall idle_thread ts -> p_sel w = true -> p_enable w = true ->
  let data d := match g_cmd g with C_READ => le_enc 4 v | _ => d end in
  apb_cycles aw (w, ts ++ [mkAth g A_Access d0]) (map (fun v => quiet_cycle (false, v)) ws ++ [quiet_cycle (true, v)]) =
  ((mkApb false false (p_write w) (p_addr w) (p_wdata w), ts ++ [mkAth g (A_Done St_OK (data d0)) (data d0)]),
   repeat w (S (length ws))).
Proof.
  intros H S1 S2 data. revert d0. induction ws as [|x ws IH]; intro d0; cbn [map app apb_cycles].
  - rewrite quiet_step by exact H. cbn. reflexivity.
  - rewrite quiet_step by exact H. cbn [pos_edge a_pc a_gp a_data negb neg_edge].
    replace (mkApb true true (p_write w) (p_addr w) (p_wdata w)) with w by (destruct w; cbn in *; congruence).
    rewrite IH. cbn [length repeat]. unfold data. destruct (g_cmd g); reflexivity.
Qed.

Lemma one_call ts w c : Forall idle_thread ts -> good_call (c_gp c) -> c_setup c <> [] -> p_enable w = false ->
  exists w' t, apb_cycles aw (w, ts) (call_cycles c) = ((w', ts ++ [t]), call_trace aw c) /\
    p_enable w' = false /\ p_sel w' = false /\ a_gp t = c_gp c /\ a_pc t = A_Done St_OK (call_data c).
Proof.
  intros H (B & L & S) NE E. destruct c as [g su ws v]. cbn [c_gp c_setup c_wait c_rdata] in *.
  unfold call_cycles, call_trace, call_data. cbn [c_gp c_setup c_wait c_rdata].
  destruct su as [|[r x] su]; [easy|].
  pose proof (setup_cycles ts g (setup_wires aw g) H eq_refl ((r, x) :: su) ltac:(discriminate)) as SC.
  pose proof (access_cycles ts g (access_wires aw g) ws v (g_data g) H eq_refl eq_refl) as AC. cbn zeta in AC.
  assert (EN : enter aw w g (length su) =
     (setup_wires aw g, mkAth g (match length ((r, x) :: su) with 1%nat => A_Setup | n => A_Delay (pred n) end) (g_data g))).
  { unfold enter. rewrite B, L. change (4 =? 4) with true. destruct (N.ltb_spec (g_sw g) 4); [lia|]. cbn [negb orb].
    unfold setup_wires. rewrite E. f_equal. f_equal. destruct su; reflexivity. }
  rewrite cycles_app.
  assert (FS : apb_cycles aw (w, ts) (mkCyc [(g, length su)] r x :: map quiet_cycle su) =
               apb_cycles aw (setup_wires aw g, ts ++ [mkAth g (match length ((r, x) :: su) with 1%nat => A_Setup | n => A_Delay (pred n) end) (g_data g)])
                 (map quiet_cycle ((r, x) :: su))).
  { cbn [map apb_cycles]. f_equal. unfold apb_cycle, quiet_cycle. cbn [y_calls enter_all fst snd y_ready y_rdata]. rewrite EN, app_nil_r. reflexivity. }
  rewrite FS, SC. cbn [p_write p_addr p_wdata setup_wires].
  change (mkApb true true (is_write g) _ _) with (access_wires aw g). rewrite AC.
  eexists _, _. split; [reflexivity|]. cbn. auto.
Qed.
Lemma all_calls cs : Forall (fun c => good_call (c_gp c) /\ c_setup c <> []) cs ->
  forall ts w, Forall idle_thread ts -> p_enable w = false ->
  exists w' ts', apb_cycles aw (w, ts) (flat_map call_cycles cs) = ((w', ts ++ ts'), flat_map (call_trace aw) cs) /\
    map (fun t => (a_gp t, a_pc t)) ts' = map (fun c => (c_gp c, A_Done St_OK (call_data c))) cs.
Proof.
  induction 1 as [|c cs (G & NE) _ IH]; intros ts w H E.
  - exists w, []. cbn. now rewrite app_nil_r.
  - destruct (one_call ts w c H G NE E) as (w1 & t & C1 & E1 & _ & T1 & T2).
    destruct (IH (ts ++ [t]) w1) as (w2 & ts2 & C2 & T3); [|exact E1|].
    { apply Forall_app. split; [exact H|]. constructor; [|constructor]. unfold idle_thread. eauto. }
    exists w2, (t :: ts2). cbn [flat_map map]. rewrite cycles_app, C1, C2, <- app_assoc, T1, T2, T3. auto.
Qed.
End Proofs.

(** ** C59 *)
(** Calls made one after the other: the slave sees for each call the setup
    cycles, then the access cycles up to the one in which it is ready; the call
    returns OK, with what the slave drove in that cycle if it is a read. *)
Theorem C59_apb_transfers aw cs :
  Forall (fun c => good_call (c_gp c) /\ c_setup c <> []) cs ->
  let '(s, trace) := apb_cycles aw (apb_idle, []) (flat_map call_cycles cs) in
  trace = flat_map (call_trace aw) cs /\
  map (fun t => (a_gp t, a_pc t)) (snd s) = map (fun c => (c_gp c, A_Done St_OK (call_data c))) cs.
Proof.
  intros H. destruct (all_calls aw cs H [] apb_idle (Forall_nil _) eq_refl) as (w & ts & C & T).
  rewrite C. auto.
Qed.
(** Anything else is refused at once and leaves the wires alone. *)
Theorem C59_apb_refused aw w g delay :
  (g_be g <> None -> enter aw w g delay = (w, mkAth g (A_Done St_BYTE_ENABLE (g_data g)) (g_data g))) /\
  (g_be g = None -> g_len g <> 4 \/ g_sw g < g_len g ->
   enter aw w g delay = (w, mkAth g (A_Done St_BURST (g_data g)) (g_data g))).
Proof.
  unfold enter. split.
  - destruct (g_be g); [reflexivity|easy].
  - intros -> H. destruct (N.eqb_spec (g_len g) 4); cbn [negb orb]; [|reflexivity].
    destruct (N.ltb_spec (g_sw g) (g_len g)); [reflexivity|]. lia.
Qed.

Example C59_case :
  let w := mkCall (mkGp C_WRITE 16 [1; 2; 3; 4] None 4 St_INCOMPLETE) [(true, 9)] [7] 0 in
  let r := mkCall (mkGp C_READ 20 [0; 0; 0; 0] None 4 St_INCOMPLETE) [(false, 9)] [] 67305985 in
  snd (apb_cycles 12 (apb_idle, []) (flat_map call_cycles [w; r])) =
    [mkApb true false true 16 67305985; mkApb true true true 16 67305985; mkApb true true true 16 67305985;
     mkApb true false false 20 0; mkApb true true false 20 0] /\
  map a_pc (snd (fst (apb_cycles 12 (apb_idle, []) (flat_map call_cycles [w; r])))) =
    [A_Done St_OK [1; 2; 3; 4]; A_Done St_OK [1; 2; 3; 4]].
Proof. vm_compute. split; reflexivity. Qed.

(** ** C60 *)
(** A call that comes with a delay holds psel high without penable for more than
    the one setup cycle that APB allows. *)
Theorem C60_apb_delay_refuted aw g r1 v1 r2 v2 w0 v :
  good_call g -> exists s, apb_cycles aw (apb_idle, []) (call_cycles (mkCall g [(r1, v1); (r2, v2)] w0 v)) =
  (s, setup_wires aw g :: setup_wires aw g :: repeat (access_wires aw g) (S (length w0))).
Proof.
  intro G. destruct (one_call aw [] apb_idle (mkCall g [(r1, v1); (r2, v2)] w0 v) (Forall_nil _) G ltac:(discriminate) eq_refl) as (w & t & C & _).
  eexists. rewrite C. reflexivity.
Qed.
(** Two calls at the same time: the first write never reaches the slave, and
    both return OK. *)
Theorem C60_apb_concurrent_refuted :
  let g1 := mkGp C_WRITE 16 [1; 0; 0; 0] None 4 St_INCOMPLETE in
  let g2 := mkGp C_WRITE 20 [2; 0; 0; 0] None 4 St_INCOMPLETE in
  let r := apb_cycles 12 (apb_idle, []) [mkCyc [(g1, O); (g2, O)] true 0; mkCyc [] true 0; mkCyc [] true 0] in
  snd r = [mkApb true false true 20 2; mkApb true true true 20 2; mkApb false false true 20 2] /\
  map a_pc (snd (fst r)) = [A_Done St_OK [1; 0; 0; 0]; A_Done St_OK [2; 0; 0; 0]].
Proof. vm_compute. split; reflexivity. Qed.
(** A payload with the IGNORE command causes a read transfer. *)
Theorem C60_apb_ignore_refuted :
  let g := mkGp C_IGNORE 16 [1; 0; 0; 0] None 4 St_INCOMPLETE in
  snd (apb_cycles 12 (apb_idle, []) (call_cycles (mkCall g [(true, 0)] [] 5))) =
  [mkApb true false false 16 0; mkApb true true false 16 0].
Proof. vm_compute. reflexivity. Qed.

Print Assumptions C59_apb_transfers.
Print Assumptions C59_apb_refused.
Print Assumptions C60_apb_delay_refuted.
Print Assumptions C60_apb_concurrent_refuted.
Print Assumptions C60_apb_ignore_refuted.
