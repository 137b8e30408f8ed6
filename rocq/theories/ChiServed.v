(** Every request is answered with exactly the pieces carried out for it, and
    some step is possible while a request is outstanding. *)
From Coq Require Import ZifyBool ZifyNat.
From Verif Require Import Base BaseFacts TlmModel TlmSpec AceSpec CachelineModel ChiModel ChiFacts ChiCoh ChiCohStep ChiCohHome.
Open Scope N_scope.

Section Run.
Context (f : cfg).
Notation index := (index f).
Notation Inv := (Inv f).
Notation hd := (hd f).
Notation Ln := (Ln f).

(** ** Coherence over whole executions *)
Fixpoint all_allowed (s : state) (ls : list label) : Prop :=
  match ls with
  | [] => True
  | lb :: ls' => allowed f s lb /\ forall s' e, step f s lb = Ok (s', e) -> all_allowed s' ls'
  end.

Lemma step_good s G lb : cfg_ok f -> Inv s G -> allowed f s lb -> good f (step f s lb) G.
Proof.
  intros Hc I Ha. destruct lb as [i o|i c|i|j junk|]; cbn [step].
  - destruct (s_t s i) eqn:Ht; try exact Logic.I. destruct (i <? f_n f)%nat eqn:Hi; [|exact Logic.I].
    cbn [good]. apply Nat.ltb_lt in Hi. apply inv_goto; auto; try (rewrite Ht; intros; discriminate).
    + cbn [thr_ok]. split; [|discriminate]. split; [exact Ha|]. cbn [r_pos r_op]. split; [clear; lia|auto].
    + left. rewrite Ht. discriminate.
  - destruct (s_t s i) eqn:Ht; try exact Logic.I.
    + eapply thread_good; eauto.
    + pose proof (iv_thr _ _ _ I i) as X. rewrite Ht in X. destruct X as (X1 & X2 & X3).
      apply inval2_good; auto.
  - destruct (s_h s) eqn:Hh; [exact Logic.I|]. destruct (s_t s i) as [| | |r q n] eqn:Ht; try exact Logic.I.
    cbn [good]. eapply start_good; eauto. cbn in Ha. now rewrite Ht in Ha.
  - destruct (s_h s) as [w|] eqn:Hh; [|exact Logic.I]. destruct (existsb (Nat.eqb j) (w_todo w)) eqn:Hin; [|exact Logic.I].
    apply existsb_exists in Hin as (x & Hx & E). apply Nat.eqb_eq in E as <-. eapply snoop_good; eauto.
  - destruct (s_h s) as [w|] eqn:Hh; [|exact Logic.I]. destruct (w_todo w) eqn:Htd; [|exact Logic.I].
    now apply finish_good.
Qed.

Lemma exec_good ls : forall s G (w : world),
  cfg_ok f -> Inv s G -> w false = G -> all_allowed s ls ->
  match exec f s ls with
  | Ok (s', tr) => reads_latest w tr /\ exists G', Inv s' G'
  | AssertFail | UB => False
  | Unmodelled => True
  end.
Proof.
  induction ls as [|lb ls IH]; intros s G w Hc I HG Ha.
  - cbn. split; [exact Logic.I|now exists G].
  - destruct Ha as [Ha Hn]. cbn [exec]. pose proof (step_good s G lb Hc I Ha) as X.
    destruct (step f s lb) as [[s' es]| | |] eqn:St; cbn [rbind fst snd]; try exact X.
    specialize (Hn s' es eq_refl). cbn [good] in X.
    destruct es as [|e [|]]; [| |destruct X].
    + specialize (IH s' G w Hc X HG Hn). destruct (exec f s' ls) as [[s2 tr]| | |]; cbn [rbind fst snd app]; exact IH.
    + destruct X as (Xs & Xo & Xi).
      assert (Hw : latest w e false = G_ev G e).
      { destruct e as [m sec l|m sec l|]; cbn; auto. cbn in Xs. subst sec. unfold world_upd. cbn. now rewrite HG. }
      specialize (IH s' (G_ev G e) (latest w e) Hc Xi Hw Hn).
      destruct (exec f s' ls) as [[s2 tr]| | |]; cbn [rbind fst snd app]; try exact IH.
      destruct IH as [R1 R2]. split; [|exact R2]. cbn [reads_latest]. split; [|exact R1].
      destruct e as [m sec l|m sec l|]; auto. cbn in Xs, Xo. subst sec. now rewrite HG.
Qed.

(** ** Answers *)
Definition pr (a : access) : N * bool := (a_addr a, a_en a).
Definition acc_ok (r : run) : Prop :=
  match o_kind (r_op r) with
  | O_Load => map pr (r_acc r) = map pr (op_bytes (r_op r) 0 (r_pos r))
  | O_Store => r_acc r = op_bytes (r_op r) 0 (r_pos r)
  | _ => True
  end.
Definition run_of (p : pc) : option run :=
  match p with Idle => None | Run r _ | Inval r _ | Wait r _ _ => Some r end.
Definition data_of (w : work) : N -> N := match w_comp w with Some (_, d, _) => d | None => w_data w end.
(** A read that does not allocate takes effect before its process continues. *)
Definition pend (h : option work) (m : nat) (r : run) : list access :=
  match h with
  | Some w => if Nat.eqb (w_i w) m && w_ev w then read_piece (data_of w) r else []
  | None => []
  end.
Definition cur_of (s : state) (m : nat) : list access :=
  match run_of (s_t s m) with Some r => r_acc r ++ pend (s_h s) m r | None => [] end.
Definition SInv (s : state) : Prop := forall m r, run_of (s_t s m) = Some r -> acc_ok r.

Lemma seq_app_map {A} (g : nat -> A) a b : map g (seq 0 (a + b)) = map g (seq 0 a) ++ map (fun i => g (a + i)%nat) (seq 0 b).
Proof.
  rewrite seq_app, map_app. f_equal. cbn. rewrite <- (Nat.add_0_r a) at 1.
  generalize 0%nat. induction b as [|b IH]; intro k; cbn; [reflexivity|]. f_equal.
  rewrite <- IH. now rewrite Nat.add_succ_r.
Qed.
Lemma op_bytes_app o p n : op_bytes o 0 (p + n) = op_bytes o 0 p ++ op_bytes o p n.
Proof.
  unfold op_bytes. rewrite N2Nat.inj_add, seq_app_map. f_equal. apply map_ext. intro i. f_equal. lia.
Qed.
Lemma read_piece_pr d r : map pr (read_piece d r) = map pr (op_bytes (r_op r) (r_pos r) (seg_len r)).
Proof.
  unfold read_piece, op_bytes. rewrite !map_map. apply map_ext. intro i. unfold pr, op_byte, cur_addr. cbn. f_equal. lia.
Qed.
Lemma read_piece_same d d' r : (forall k, k < 64 -> d k = d' k) -> read_piece d r = read_piece d' r.
Proof.
  intro H. unfold read_piece. apply map_ext_in. intros i Hi. apply in_seq in Hi. cbv zeta. f_equal. apply H.
  pose proof (seg_len_line r). lia.
Qed.
Lemma acc_read d r : o_kind (r_op r) = O_Load -> acc_ok r -> acc_ok (advance r (seg_len r) (read_piece d r)).
Proof.
  unfold acc_ok, advance. cbn [r_op r_pos r_acc]. intros -> H.
  now rewrite op_bytes_app, !map_app, H, read_piece_pr.
Qed.
Lemma acc_write r : o_kind (r_op r) = O_Store -> acc_ok r -> acc_ok (advance r (seg_len r) (write_piece r)).
Proof. unfold acc_ok, advance. cbn [r_op r_pos r_acc]. intros -> H. now rewrite op_bytes_app, H. Qed.

(** Only the pieces of [m] change. *)
Inductive shape (m : nat) (s s' : state) : list event -> Prop :=
| Sh_quiet : cur_of s' m = cur_of s m -> shape m s s' []
| Sh_read l : cur_of s' m = cur_of s m ++ l -> shape m s s' [Ev_Read m false l]
| Sh_write l : cur_of s' m = cur_of s m ++ l -> shape m s s' [Ev_Write m false l]
| Sh_done o l ex : l = cur_of s m -> cur_of s' m = [] -> (o_excl o = false -> answered o l) ->
    shape m s s' [Ev_Done m o l ex].
Definition sound (m : nat) (s s' : state) (es : list event) : Prop :=
  (forall j, j <> m -> cur_of s' j = cur_of s j /\ run_of (s_t s' j) = run_of (s_t s j)) /\
  shape m s s' es /\ (forall r, run_of (s_t s' m) = Some r -> acc_ok r).

Lemma sound_step m s s' es cur :
  sound m s s' es -> (forall j, cur j = cur_of s j) -> SInv s ->
  served cur es /\ (forall j, fold_left (piece j) es (cur j) = cur_of s' j) /\ SInv s'.
Proof.
  intros (Mv & Sh & Ac) C S.
  assert (S' : SInv s').
  { intros j r Hr. destruct (Nat.eq_dec j m) as [->|N]; [now apply Ac|]. rewrite (proj2 (Mv j N)) in Hr. now apply (S j). }
  assert (Hm : forall j, j <> m -> cur j = cur_of s' j) by (intros j N; rewrite C; symmetry; now apply Mv).
  destruct Sh as [E|l E|l E|o l ex E E2 Ha]; cbn [served fold_left].
  - split; [exact Logic.I|]. split; [|exact S']. intro j. destruct (Nat.eq_dec j m) as [->|N]; [now rewrite E, C|auto].
  - split; [auto|]. split; [|exact S']. intro j. cbn. destruct (Nat.eqb_spec m j) as [<-|N]; [now rewrite E, C|auto].
  - split; [auto|]. split; [|exact S']. intro j. cbn. destruct (Nat.eqb_spec m j) as [<-|N]; [now rewrite E, C|auto].
  - split; [split; [|exact Logic.I]; split; [now rewrite E, C|exact Ha]|]. split; [|exact S']. intro j. cbn.
    destruct (Nat.eqb_spec m j) as [<-|N]; [now rewrite E2|auto].
Qed.

(** The process whose request the home works on is waiting. *)
Lemma pend_none s G m r : Inv s G -> (forall r q n, s_t s m <> Wait r q n) -> pend (s_h s) m r = [].
Proof.
  intros I Hn. unfold pend. destruct (s_h s) as [w|] eqn:Hh; [|reflexivity].
  destruct (Nat.eqb_spec (w_i w) m) as [E|]; [|reflexivity].
  destruct (wk_thr _ _ _ _ _ (iv_work _ _ _ I w Hh)) as (r0 & n & X). rewrite E in X. now apply Hn in X.
Qed.

(** A step of process [m] that keeps the home as it is. *)
Lemma own_step s G m s' es r :
  Inv s G -> (forall r q n, s_t s m <> Wait r q n) ->
  run_of (s_t s m) = Some r -> acc_ok r ->
  s_h s' = s_h s -> (forall j, j <> m -> s_t s' j = s_t s j) ->
  ((es = [] /\ run_of (s_t s' m) = Some r) \/
   (exists d, es = [Ev_Read m false (read_piece d r)] /\ o_kind (r_op r) = O_Load /\
      run_of (s_t s' m) = Some (advance r (seg_len r) (read_piece d r))) \/
   (es = [Ev_Write m false (write_piece r)] /\ o_kind (r_op r) = O_Store /\
      run_of (s_t s' m) = Some (advance r (seg_len r) (write_piece r))) \/
   (es = [Ev_Done m (r_op r) (r_acc r) false] /\ s_t s' m = Idle /\ answered (r_op r) (r_acc r))) ->
  sound m s s' es.
Proof.
  intros I Hn Hr Ha Hh Ho Hc. pose proof (pend_none s G m) as P.
  assert (E0 : cur_of s m = r_acc r) by (unfold cur_of; rewrite Hr, (P r I Hn); apply app_nil_r).
  split; [|split].
  - intros j Hj. unfold cur_of. rewrite Hh, Ho by exact Hj. auto.
  - destruct Hc as [(-> & E)|[(d & -> & K & E)|[(-> & K & E)|(-> & E & A)]]].
    + apply Sh_quiet. rewrite E0. unfold cur_of. rewrite E, Hh, (P r I Hn). apply app_nil_r.
    + apply Sh_read. rewrite E0. unfold cur_of. rewrite E, Hh, (P _ I Hn). apply app_nil_r.
    + apply Sh_write. rewrite E0. unfold cur_of. rewrite E, Hh, (P _ I Hn). apply app_nil_r.
    + apply Sh_done; auto. unfold cur_of. now rewrite E.
  - intros r0 Er. destruct Hc as [(-> & E)|[(d & -> & K & E)|[(-> & K & E)|(-> & E & A)]]]; rewrite E in Er; try discriminate; injection Er as <-.
    + exact Ha.
    + now apply acc_read.
    + now apply acc_write.
Qed.

Lemma at_goto s i p : s_t (goto s i p) i = p.
Proof. cbn. apply updn_same. Qed.
Lemma off_goto s i p j : j <> i -> s_t (goto s i p) j = s_t s j.
Proof. intro. cbn. now apply updn_other. Qed.

Lemma inval2_moves s i r m c s' :
  inval2 f s i r m c = Ok s' -> s_h s' = s_h s /\ (forall j, j <> i -> s_t s' j = s_t s j) /\ run_of (s_t s' i) = Some r.
Proof.
  unfold inval2. cbv zeta. intro E.
  assert (X : forall s1 p, s_h s1 = s_h s -> s_t s1 = s_t s -> run_of p = Some r -> goto s1 i p = s' ->
     s_h s' = s_h s /\ (forall j, j <> i -> s_t s' j = s_t s j) /\ run_of (s_t s' i) = Some r).
  { intros s1 p A B D <-. split; [exact A|]. split; [|now rewrite at_goto]. intros j Hj. rewrite off_goto by exact Hj. now rewrite B. }
  destruct (l_valid _).
  - destruct (grade_of _), (l_dirty _); try discriminate;
      try (destruct (rbool f (c_evict c))); injection E as E; (eapply X; [| | |exact E]); reflexivity.
  - injection E as E; (eapply X; [| | |exact E]); reflexivity.
Qed.
Lemma issue_moves s i r m c s' :
  issue f s i r m c = Ok s' -> s_h s' = s_h s /\ (forall j, j <> i -> s_t s' j = s_t s j) /\ run_of (s_t s' i) = Some r.
Proof.
  unfold issue. cbv zeta.
  assert (X : forall p, run_of p = Some r -> Ok (goto s i p) = Ok s' ->
     s_h s' = s_h s /\ (forall j, j <> i -> s_t s' j = s_t s j) /\ run_of (s_t s' i) = Some r).
  { intros p D E. injection E as <-. split; [reflexivity|]. split; [|now rewrite at_goto]. intros j Hj. now apply off_goto. }
  destruct (l_valid _); [|now apply X]. destruct (_ && rbool f (c_clean c)); [now apply X|]. apply inval2_moves.
Qed.

Lemma thread_sound s G i r h c s' es :
  Inv s G -> s_t s i = Run r h -> acc_ok r -> thread f s i r c = Ok (s', es) -> sound i s s' es.
Proof.
  intros I Ht Ha E. pose proof (iv_thr _ _ _ I i) as Hth. rewrite Ht in Hth. destruct Hth as [Hr _].
  destruct Hr as ((Hk & _) & Hp & _).
  assert (Hn : forall r q n, s_t s i <> Wait r q n) by (intros; rewrite Ht; discriminate).
  assert (Hq : forall m, quiet (issue f s i r m c) = Ok (s', es) -> sound i s s' es).
  { intros m Q. unfold quiet, rmap in Q. destruct (issue f s i r m c) as [s1| | |] eqn:Is; try discriminate Q.
    injection Q as <- <-. destruct (issue_moves _ _ _ _ _ _ Is) as (X1 & X2 & X3).
    eapply own_step with (r := r); eauto. now rewrite Ht. }
  unfold thread in E. cbv zeta in E.
  destruct (o_len (r_op r) <=? r_pos r) eqn:Hl.
  - injection E as <- <-. apply N.leb_le in Hl. assert (El : r_pos r = o_len (r_op r)) by (clear - Hl Hp; lia).
    eapply own_step with (r := r); eauto; [now rewrite Ht|intros; now apply off_goto|].
    right; right; right. split; [reflexivity|]. split; [apply at_goto|].
    unfold answered. unfold acc_ok in Ha. rewrite El in Ha. destruct Hk as [Hk|Hk]; rewrite Hk in *; exact Ha.
  - destruct (o_kind (r_op r)) eqn:K; try discriminate E.
    + destruct (in_cache _ _ && is_full _); [|now apply Hq in E].
      injection E as <- <-. eapply own_step with (r := r); eauto; [now rewrite Ht|intros; now apply off_goto|].
      right; left. eexists. split; [reflexivity|]. split; [exact K|]. now rewrite at_goto.
    + destruct (in_cache _ _).
      * destruct (negb (l_shared _)); injection E as <- <-; (eapply own_step with (r := r); eauto; [now rewrite Ht|intros; now rewrite off_goto|]).
        -- right; right; left. split; [reflexivity|]. split; [exact K|]. now rewrite at_goto.
        -- left. split; [reflexivity|]. now rewrite at_goto.
      * destruct (rbool f (c_store c)); [|now apply Hq in E].
        injection E as <- <-. eapply own_step with (r := r); eauto; [now rewrite Ht|intros; now apply off_goto|].
        left. split; [reflexivity|]. now rewrite at_goto.
Qed.

(** What a snooped cache answers. *)
Lemma snoop_case s G w j junk sq :
  Inv s G -> s_h s = Some w -> In j (w_todo w) -> allowed f s (L_Snoop j junk) ->
  snp_of (q_op (w_q w)) (w_fwd w) = Some sq ->
  let a := q_addr (w_q w) in let l := slot f s j a in
  exists l' p,
    (if in_cache l a then handle_snp sq true l else Ok (l, resp S_INV)) = Ok (l', p) /\
    ((in_cache l a = false /\ ~ hd (s_c s) j a /\ l' = l /\ p = resp S_INV) \/
     (in_cache l a = true /\ hd (s_c s) j a /\ full l /\ same (l_data l) G a /\ snooped (q_op (w_q w)) (w_fwd w) l l' p)).
Proof.
  intros I Hw Hin Hal Sq. cbn in Hal. rewrite Hw in Hal. destruct Hal as [Hhot Hdirty]. cbv zeta.
  pose proof (iv_work _ _ _ I w Hw) as K.
  destruct (wk_thr _ _ _ _ _ K) as (r & n & Hwt).
  set (q := w_q w) in *. set (a := q_addr q) in *.
  pose proof (iv_thr _ _ _ I (w_i w)) as Hth. rewrite Hwt in Hth.
  assert (Al : align a = a) by (eapply wait_align; exact Hth).
  set (l := Ln (s_c s) j a).
  assert (Esl : slot f s j a = l) by (unfold slot, l, ChiCoh.Ln; now rewrite Al).
  rewrite Esl in *.
  destruct (in_cache l a) eqn:C.
  - assert (Hd : hd (s_c s) j a) by (apply hd_slot; [exact Al|now rewrite Esl]).
    destruct (li_copy _ _ _ _ _ _ _ _ (iv_line _ _ _ I a Al) j Hd) as [[X Y]|(r0 & X & Y & _)].
    + destruct (handle_snp_spec (q_op q) (w_fwd w) sq l Sq X) as (l' & p & E & S).
      * apply Hd.
      * intros Ef Ed. destruct (snp_of (q_op q) false) as [sq0|] eqn:S0.
        -- assert (Dec : sq0 = sq \/ sq0 <> sq) by (destruct sq0, sq; auto; right; discriminate).
           destruct Dec as [->|Dn]; [now right|left]. apply Hdirty; auto. rewrite Ef in Sq. rewrite Sq. congruence.
        -- exfalso. destruct (q_op q); cbn in S0; try discriminate; cbn in Sq; discriminate.
      * exists l', p. split; [exact E|]. right. auto.
    + exfalso. apply Hhot. now exists r0.
  - exists l, (resp S_INV). split; [reflexivity|]. left. repeat split; auto.
    intro Hd. apply hd_slot in Hd; [|exact Al]. rewrite Esl in Hd. congruence.
Qed.

Lemma snoop_sound s G w j junk s' es :
  Inv s G -> SInv s -> s_h s = Some w -> In j (w_todo w) -> allowed f s (L_Snoop j junk) ->
  snoop f s w j junk = Ok (s', es) -> sound (w_i w) s s' es.
Proof.
  intros I SI Hw Hin Hal E. pose proof (iv_work _ _ _ I w Hw) as K.
  destruct (wk_thr _ _ _ _ _ K) as (r & n & Hwt).
  unfold snoop in E. destruct (snp_of (q_op (w_q w)) (w_fwd w)) as [sq|] eqn:Sq; [|discriminate E].
  destruct (snoop_case s G w j junk sq I Hw Hin Hal Sq) as (l' & p & E1 & Hcase). cbv zeta in E1, Hcase, E.
  rewrite E1 in E. cbn [rbind] in E. clear E1.
  assert (Hcomp : w_comp w = None).
  { destruct (w_comp w) as [[[rs d] be]|] eqn:X; [|reflexivity].
    destruct (wk_comp _ _ _ _ _ K _ _ _ X) as (_ & Y & _). rewrite Y in Hin. destruct Hin. }
  rewrite Hwt in E. injection E as <- Es.
  set (l := slot f s j (q_addr (w_q w))) in *.
  match goal with |- sound _ _ ?x _ => set (s2 := x) end.
  assert (T2 : s_t s2 = s_t s).
  { unfold s2. cbn [st_h s_t]. destruct ((r_resp p =? 0) || (r_resp p =? 4)), (in_cache l (q_addr (w_q w))); reflexivity. }
  assert (H2 : exists w', s_h s2 = Some w' /\ w_i w' = w_i w /\
     w_ev w' = w_ev w || (non_coherent (q_op (w_q w)) && negb (w_ev w) && (is_fwded (r_rop p) || (has_data (r_rop p) && negb match r_rop p with R_DataPtl => true | _ => false end))) /\
     data_of w' = match r_comp p with
                  | Some c => if is_fwded (r_rop p) then l_data l else if has_data (r_rop p) then fun k => if l_be l k then l_data l k else 0 else w_data w
                  | None => if has_data (r_rop p) then fun k => if l_be l k then l_data l k else 0 else w_data w end).
  { eexists. split; [reflexivity|]. cbn. split; [reflexivity|]. split; [reflexivity|]. unfold data_of. cbn. rewrite Hcomp.
    destruct (r_comp p); [destruct (is_fwded _)|]; reflexivity. }
  clearbody s2. destruct H2 as (w' & H2 & Wi & Wev & Wd).
  split; [|split].
  - intros m Hm. unfold cur_of. rewrite T2. split; [|reflexivity]. destruct (run_of (s_t s m)); [|reflexivity].
    f_equal. unfold pend. rewrite H2, Hw, Wi. apply Nat.eqb_neq in Hm. rewrite Nat.eqb_sym in Hm. now rewrite Hm.
  - assert (Cs : cur_of s (w_i w) = r_acc r ++ if w_ev w then read_piece (w_data w) r else []).
    { unfold cur_of, pend, data_of. rewrite Hwt, Hw, Nat.eqb_refl, Hcomp. reflexivity. }
    assert (Cs2 : cur_of s2 (w_i w) = r_acc r ++ if w_ev w' then read_piece (data_of w') r else []).
    { unfold cur_of, pend. rewrite T2, Hwt, H2, Wi, Nat.eqb_refl. reflexivity. }
    destruct (w_ev w) eqn:Ev.
    + (* the data has already been read: it does not change *)
      rewrite Bool.andb_false_r in Es. cbn [andb] in Es. subst es. apply Sh_quiet. rewrite Cs, Cs2, Wev. cbn [orb]. f_equal.
      pose proof (wk_ev _ _ _ _ _ K) as We. rewrite Ev, Hcomp, Bool.orb_false_r in We. symmetry in We. apply andb_prop in We as [Wn Wg].
      destruct Hcase as [(_ & _ & _ & ->)|(C & Hd & Hf & Hs & Sn)]; [rewrite Wd; reflexivity|].
      assert (Hnf : r_comp p = None).
      { destruct (r_comp p) eqn:X; [|reflexivity]. destruct (sn_comp_val _ _ _ _ _ Sn _ X) as (Y & _).
        destruct (wk_fwd _ _ _ _ _ K Y) as [_ Z]. destruct (w_todo w); [destruct Hin|]. cbn in Z.
        destruct (w_resp w) eqn:R; [|cbn in Z; lia]. now rewrite (wk_resp _ _ _ _ _ K R) in Wg. }
      rewrite Hnf in Wd. rewrite Wd. destruct (has_data (r_rop p)); [|reflexivity].
      destruct (wk_got _ _ _ _ _ K Wg) as [_ [[X _]|[_ X]]]; [|exfalso; now apply (X j)].
      apply read_piece_same. intros k Hk. rewrite (Hf k Hk), (Hs k Hk). symmetry. now apply X.
    + cbn [negb orb] in *. rewrite Bool.andb_true_r in *. rewrite <- Wev in Es. destruct (w_ev w') eqn:Ev'.
      * subst es. apply Sh_read. rewrite Cs, Cs2, Wd, app_nil_r. f_equal.
        destruct Hcase as [(_ & _ & _ & ->)|(C & Hd & Hf & Hs & Sn)].
        -- cbn in Wev. rewrite Bool.andb_false_r in Wev. discriminate.
        -- pose proof (sn_comp _ _ _ _ _ Sn) as X. destruct (r_comp p); cbn in X; rewrite <- X in *; [reflexivity|].
           cbn [orb] in Wev. symmetry in Wev. apply andb_prop in Wev as [_ Y]. apply andb_prop in Y as [-> _]. reflexivity.
      * subst es. apply Sh_quiet. now rewrite Cs, Cs2.
  - intros r0 Er. rewrite T2 in Er. now apply (SI (w_i w)).
Qed.

(** ** The end of a request *)
(** What the process may continue with: [d] is the data of a read already
    recorded when [ev] is set. *)
Definition ended (m : nat) (r : run) (d : option (N -> N)) (s s' : state) (es : list event) : Prop :=
  s_h s' = None /\ (forall j, j <> m -> s_t s' j = s_t s j) /\
  ((d = None /\ es = [] /\ run_of (s_t s' m) = Some r) \/
   (exists d', d = None /\ es = [Ev_Read m false (read_piece d' r)] /\ o_kind (r_op r) = O_Load /\
      run_of (s_t s' m) = Some (advance r (seg_len r) (read_piece d' r))) \/
   (exists d', d = Some d' /\ es = [] /\ o_kind (r_op r) = O_Load /\
      run_of (s_t s' m) = Some (advance r (seg_len r) (read_piece d' r))) \/
   (d = None /\ es = [Ev_Write m false (write_piece r)] /\ o_kind (r_op r) = O_Store /\
      run_of (s_t s' m) = Some (advance r (seg_len r) (write_piece r)))).

Lemma ended_sound s w r q n s' es :
  s_h s = Some w -> s_t s (w_i w) = Wait r q n -> acc_ok r ->
  ended (w_i w) r (if w_ev w then Some (data_of w) else None) s s' es -> sound (w_i w) s s' es.
Proof.
  intros Hw Ht Ha (E1 & E2 & Hc).
  assert (Cs : cur_of s (w_i w) = r_acc r ++ if w_ev w then read_piece (data_of w) r else []).
  { unfold cur_of, pend. rewrite Ht, Hw, Nat.eqb_refl. reflexivity. }
  assert (Cs2 : forall r', run_of (s_t s' (w_i w)) = Some r' -> cur_of s' (w_i w) = r_acc r').
  { intros r' X. unfold cur_of. rewrite X, E1. apply app_nil_r. }
  split; [|split].
  - intros j Hj. unfold cur_of. rewrite E2 by exact Hj. split; [|reflexivity]. destruct (run_of (s_t s j)); [|reflexivity].
    f_equal. rewrite E1, Hw. unfold pend. apply Nat.eqb_neq in Hj. rewrite Nat.eqb_sym in Hj. now rewrite Hj.
  - destruct (w_ev w).
    + destruct Hc as [(X & _)|[(d' & X & _)|[(d' & X & -> & _ & Er)|(X & _)]]]; try discriminate X. injection X as <-.
      apply Sh_quiet. now rewrite (Cs2 _ Er), Cs.
    + rewrite app_nil_r in Cs. destruct Hc as [(_ & -> & Er)|[(d' & _ & -> & _ & Er)|[(d' & X & _)|(_ & -> & _ & Er)]]]; [| |discriminate X|].
      * apply Sh_quiet. now rewrite (Cs2 _ Er), Cs.
      * apply Sh_read. now rewrite (Cs2 _ Er), Cs.
      * apply Sh_write. now rewrite (Cs2 _ Er), Cs.
  - intros r0 Er. destruct Hc as [(_ & _ & X)|[(d' & _ & _ & K & X)|[(d' & _ & _ & K & X)|(_ & _ & K & X)]]]; rewrite X in Er; injection Er as <-.
    + exact Ha.
    + now apply acc_read.
    + now apply acc_read.
    + now apply acc_write.
Qed.

Lemma filter_t s i q : s_t (upd_filter s i q) = s_t s /\ s_h (upd_filter s i q) = s_h s.
Proof. unfold upd_filter. destruct (filter_req (q_op q)); auto. Qed.

Lemma comp_ended s G w r n M' rs d be sn s' es :
  at_end f s G w r n M' ->
  (w_ev w = true -> d = data_of w) -> (non_coherent (q_op (w_q w)) = false -> w_ev w = false) ->
  comp_data f (base s M') (w_i w) r (w_q w) rs d be sn (w_ev w) = Ok (s', es) ->
  ended (w_i w) r (if w_ev w then Some (data_of w) else None) s s' es.
Proof.
  intros A Hd Hn E. unfold comp_data in E. cbv zeta in E.
  destruct (filter_t (base s M') (w_i w) (w_q w)) as [F1 F2]. set (s1 := upd_filter _ _ _) in *. clearbody s1.
  destruct (non_coherent (q_op (w_q w))) eqn:Nc.
  - destruct (sn && negb (f_flits f)); [discriminate E|]. injection E as <- <-.
    destruct (non_coherent_addr f s G (w_i w) r (w_q w) n (ae_inv _ _ _ _ _ _ _ A) (ae_t _ _ _ _ _ _ _ A) Nc) as (_ & Hk & _).
    split; [exact F2|]. split; [intros j Hj; rewrite off_goto by exact Hj; now rewrite F1|]. rewrite at_goto.
    destruct (w_ev w).
    + rewrite <- Hd by reflexivity. right; right; left. now exists d.
    + right; left. now exists d.
  - rewrite Hn by reflexivity. injection E as <- <-.
    split; [exact F2|]. split; [intros j Hj; rewrite off_goto by exact Hj; cbn [put_slot s_t]; now rewrite F1|]. rewrite at_goto.
    left. auto.
Qed.

Lemma process_ended s G w r n M' rs s' es :
  at_end f s G w r n M' -> w_ev w = false ->
  process_req f (base s M') (w_i w) r (w_q w) n rs (w_ev w) = Ok (s', es) ->
  ended (w_i w) r None s s' es.
Proof.
  intros A Hev E.
  assert (Hr : forall rs d be sn, comp_data f (base s M') (w_i w) r (w_q w) rs d be sn (w_ev w) = Ok (s', es) -> ended (w_i w) r None s s' es).
  { intros rs0 d be sn E0. pose proof (comp_ended s G w r n M' rs0 d be sn s' es A) as X. rewrite Hev in *. apply X; auto. discriminate. }
  assert (Hw : q_op (w_q w) = WriteUniqueFull \/ q_op (w_q w) = WriteUniquePtl -> ended (w_i w) r None s s' es).
  { intro Ho. rewrite (write_unique_eq f s G w r n M' A rs (w_ev w) Ho) in E. injection E as <- <-.
    destruct (write_unique_len f s G w r n M' A Ho) as ((_ & Hk & _) & _).
    split; [reflexivity|]. split; [intros j Hj; now rewrite off_goto|]. rewrite at_goto. right; right; right. auto. }
  assert (Hq : forall s1 p, s_h s1 = None -> s_t s1 = s_t s -> run_of p = Some r -> goto s1 (w_i w) p = s' -> es = [] -> ended (w_i w) r None s s' es).
  { intros s1 p X1 X2 X3 <- ->. split; [exact X1|]. split; [intros j Hj; rewrite off_goto by exact Hj; now rewrite X2|].
    rewrite at_goto. left. auto. }
  destruct (filter_t (base s M') (w_i w) (w_q w)) as [F1 F2].
  assert (Hco : run_of (continue r n) = Some r) by (destruct n; reflexivity).
  unfold process_req in E. cbv zeta in E. destruct (q_op (w_q w)) eqn:Ho; try (now apply Hr in E); try (apply Hw; auto; fail);
    injection E as E1 E2; symmetry in E2;
    (eapply Hq; [| | |exact E1|exact E2]); try exact Hco; try reflexivity; cbn [put_slot s_h s_t]; auto;
    destruct (wb_pd _); cbn [st_mem s_h s_t]; auto.
Qed.

Lemma finish_sound s G w s' es :
  Inv s G -> SInv s -> s_h s = Some w -> w_todo w = [] ->
  finish f s w = Ok (s', es) -> sound (w_i w) s s' es.
Proof.
  intros I SI Hw Htd E. pose proof (iv_work _ _ _ I w Hw) as K.
  destruct (wk_thr _ _ _ _ _ K) as (r & n & Ht).
  assert (Ha : acc_ok r) by (apply (SI (w_i w)); now rewrite Ht).
  eapply ended_sound; eauto.
  assert (A0 : at_end f s G w r n (s_mem s)) by (constructor; auto).
  pose proof (wk_ev _ _ _ _ _ K) as We.
  assert (Hnc : non_coherent (q_op (w_q w)) = false -> w_ev w = false) by (intro X; rewrite We, X; reflexivity).
  unfold finish in E. cbv zeta in E. change (s_t (st_h s None) (w_i w)) with (s_t s (w_i w)) in E. rewrite Ht in E.
  destruct (w_comp w) as [[[rs d] be]|] eqn:Hc.
  - change (st_h s None) with (base s (s_mem s)) in E. eapply comp_ended; [exact A0| |exact Hnc|exact E]. intros _. unfold data_of. now rewrite Hc.
  - rewrite Bool.orb_false_r in We.
    assert (Hd : data_of w = w_data w) by (unfold data_of; now rewrite Hc).
    destruct (w_resp w) as [|x xs] eqn:Er.
    + assert (Hev : w_ev w = false) by (rewrite We, (wk_resp _ _ _ _ _ K Er); apply Bool.andb_false_r).
      change (st_h s None) with (base s (s_mem s)) in E. pose proof (process_ended s G w r n (s_mem s) 0 s' es A0 Hev E) as X.
      now rewrite Hev.
    + set (wr := w_got w && ((parse (x :: xs) =? 6) || (parse (x :: xs) =? 7)) && negb (allows_pd (q_op (w_q w)) (w_ptl w))) in E.
      set (M' := if wr then put_mem (s_mem s) (q_addr (w_q w)) (w_data w) (w_be w) else s_mem s).
      assert (A : at_end f s G w r n M').
      { constructor; auto. intros t k Hta Hne Hk. unfold M'. destruct wr; [|reflexivity]. apply put_mem_other; auto. eapply (ae_al f); exact A0. }
      assert (Eb : (if wr then st_mem (st_h s None) (put_mem (s_mem (st_h s None)) (q_addr (w_q w)) (w_data w) (w_be w)) else st_h s None) = base s M').
      { unfold M', base. destruct wr; reflexivity. }
      rewrite Eb in E.
      destruct (w_got w && is_read (q_op (w_q w)) && negb (w_ptl w)) eqn:B.
      * refine (comp_ended _ _ _ _ _ _ _ _ _ _ _ _ A _ Hnc E). auto.
      * assert (Hev : w_ev w = false).
        { rewrite We. rewrite (wk_ptl _ _ _ _ _ K), Bool.andb_true_r in B. destruct (w_got w); [|apply Bool.andb_false_r].
          cbn [andb] in B. destruct (q_op (w_q w)); try reflexivity; discriminate B. }
        pose proof (process_ended s G w r n M' _ s' es A Hev E) as X. now rewrite Hev.
Qed.

Lemma step_sound s G lb s' es :
  Inv s G -> SInv s -> allowed f s lb -> step f s lb = Ok (s', es) -> exists m, sound m s s' es.
Proof.
  intros I SI Ha E. destruct lb as [i o|i c|i|j junk|]; cbn [step] in E.
  - destruct (s_t s i) eqn:Ht; try discriminate E. destruct (i <? f_n f)%nat; [|discriminate E]. injection E as <- <-.
    exists i. split; [|split].
    + intros j Hj. unfold cur_of. now rewrite off_goto.
    + apply Sh_quiet. unfold cur_of. rewrite at_goto, Ht. cbn [run_of r_acc app].
      rewrite (pend_none s G i) by (auto; rewrite Ht; discriminate). reflexivity.
    + rewrite at_goto. intros r Er. injection Er as <-. unfold acc_ok. cbn. destruct (o_kind o); auto.
  - destruct (s_t s i) as [|r h|r m|] eqn:Ht; try discriminate E.
    + exists i. eapply thread_sound; eauto. apply (SI i). now rewrite Ht.
    + exists i. unfold quiet, rmap in E. destruct (inval2 f s i r m c) as [s1| | |] eqn:X; try discriminate E. injection E as <- <-.
      destruct (inval2_moves _ _ _ _ _ _ X) as (X1 & X2 & X3).
      eapply own_step with (r := r); eauto.
      * rewrite Ht. discriminate.
      * now rewrite Ht.
      * apply (SI i). now rewrite Ht.
  - destruct (s_h s) eqn:Hh; [discriminate E|]. destruct (s_t s i) as [| | |r q n] eqn:Ht; try discriminate E. injection E as <- <-.
    exists i. assert (X : forall j, cur_of (start f s i q) j = cur_of s j).
    { intro j. unfold cur_of, pend. rewrite Hh. cbn. destruct (run_of (s_t s j)); [|reflexivity]. now rewrite Bool.andb_false_r. }
    split; [|split].
    + intros j _. auto.
    + apply Sh_quiet. apply X.
    + intros r0 Er. now apply (SI i).
  - destruct (s_h s) as [w|] eqn:Hh; [|discriminate E]. destruct (existsb (Nat.eqb j) (w_todo w)) eqn:Hin; [|discriminate E].
    apply existsb_exists in Hin as (x & Hx & X). apply Nat.eqb_eq in X as <-. exists (w_i w). eapply snoop_sound; eauto.
  - destruct (s_h s) as [w|] eqn:Hh; [|discriminate E]. destruct (w_todo w) eqn:Htd; [|discriminate E].
    exists (w_i w). eapply finish_sound; eauto.
Qed.

Lemma served_app tr1 tr2 : forall cur,
  served cur (tr1 ++ tr2) <-> served cur tr1 /\ served (fun m => fold_left (piece m) tr1 (cur m)) tr2.
Proof.
  induction tr1 as [|e tr1 IH]; intro cur; cbn [app served fold_left]; [tauto|]. rewrite IH. tauto.
Qed.
Lemma served_ext tr : forall c1 c2, (forall m, c1 m = c2 m) -> served c1 tr -> served c2 tr.
Proof.
  induction tr as [|e tr IH]; intros c1 c2 H; cbn; [auto|]. intros [A B]. split.
  - destruct e; auto. now rewrite <- H.
  - eapply IH; [|exact B]. intro m. cbv beta; now rewrite (H m).
Qed.

Lemma exec_served ls : forall s G,
  cfg_ok f -> Inv s G -> SInv s -> all_allowed s ls ->
  forall s' tr, exec f s ls = Ok (s', tr) -> served (cur_of s) tr.
Proof.
  induction ls as [|lb ls IH]; intros s G Hc I SI Ha s' tr E.
  - cbn in E. injection E as <- <-. exact Logic.I.
  - destruct Ha as [Ha Hn]. cbn [exec] in E. pose proof (step_good s G lb Hc I Ha) as X.
    destruct (step f s lb) as [[s1 es]| | |] eqn:St; cbn [rbind fst snd] in E; try discriminate E.
    destruct (exec f s1 ls) as [[s2 tr2]| | |] eqn:Ex; cbn [rbind fst snd] in E; try discriminate E. injection E as <- <-.
    destruct (step_sound s G lb s1 es I SI Ha St) as (m & Sd).
    destruct (sound_step m s s1 es (cur_of s) Sd (fun _ => eq_refl) SI) as (Q1 & Q2 & Q3).
    assert (I1 : exists G1, Inv s1 G1).
    { cbn [good] in X. destruct es as [|e [|]]; [eauto| |destruct X]. destruct X as (_ & _ & X). eauto. }
    destruct I1 as (G1 & I1).
    apply served_app. split; [exact Q1|].
    eapply served_ext; [|eapply IH; eauto]. intro j. symmetry. apply Q2.
Qed.

(** ** Progress *)
Lemma step_possible s G i :
  cfg_ok f -> Inv s G -> s_t s i <> Idle -> exists lb s' es, step f s lb = Ok (s', es).
Proof.
  intros Hc I Hne.
  assert (HT : forall j, (exists r h, s_t s j = Run r h) \/ (exists r m, s_t s j = Inval r m) -> exists lb s' es, step f s lb = Ok (s', es)).
  { intros j Hj. pose proof (step_good s G (L_Thread j (mkChoice 0 false false false)) Hc I Logic.I) as X.
    destruct (step f s (L_Thread j (mkChoice 0 false false false))) as [[s' es]| | |] eqn:E; [eauto| | |]; try (destruct X; fail).
    exfalso. cbn [step] in E. pose proof (iv_thr _ _ _ I j) as Hth. destruct Hj as [(r & h & Ht)|(r & m & Ht)]; rewrite Ht in *.
    - destruct Hth as (((Hk & _) & _) & _). unfold thread in E. cbv zeta in E.
      assert (Hq : forall m c, quiet (issue f s j r m c) <> Unmodelled).
      { intros m c. unfold quiet, rmap, issue, inval2. cbv zeta.
        destruct (l_valid _); [destruct (_ && rbool f (c_clean c)); [discriminate|]|discriminate].
        destruct (grade_of _), (l_dirty _); try discriminate; destruct (rbool f (c_evict c)); discriminate. }
      destruct (o_len (r_op r) <=? r_pos r); [discriminate E|].
      destruct Hk as [Hk|Hk]; rewrite Hk in E.
      + destruct (in_cache _ _ && _); [discriminate E|now apply Hq in E].
      + destruct (in_cache _ _); [destruct (negb _); discriminate E|]. destruct (rbool f _); [discriminate E|now apply Hq in E].
    - unfold quiet, rmap, inval2 in E. cbv zeta in E. destruct (l_valid _); [|discriminate E].
      destruct (grade_of _), (l_dirty _); try discriminate E; destruct (rbool f _); discriminate E. }
  destruct (s_t s i) as [|r h|r m|r q n] eqn:Ht; [congruence| | |]; try (apply (HT i); rewrite Ht; eauto; fail).
  destruct (s_h s) as [w|] eqn:Hh.
  2: { exists (L_Home i), (start f s i q), (@nil event). cbn [step]. now rewrite Hh, Ht. }
  pose proof (iv_work _ _ _ I w Hh) as K.
  destruct (wk_thr _ _ _ _ _ K) as (r1 & n1 & Hwt).
  destruct (w_todo w) as [|j td] eqn:Htd.
  - pose proof (step_good s G L_Finish Hc I Logic.I) as X.
    destruct (step f s L_Finish) as [[s' es]| | |] eqn:E; [eauto| | |]; try (destruct X; fail).
    exfalso. cbn [step] in E. rewrite Hh, Htd in E. unfold finish in E. cbv zeta in E.
    change (s_t (st_h s None) (w_i w)) with (s_t s (w_i w)) in E. rewrite Hwt in E.
    assert (Hcd : forall s0 i0 r0 q0 rs d be sn ev, comp_data f s0 i0 r0 q0 rs d be sn ev <> Unmodelled).
    { intros s0 i0 r0 q0 rs d be sn ev. unfold comp_data. cbv zeta. destruct (non_coherent (q_op q0)); [destruct (sn && negb (f_flits f)); discriminate|discriminate]. }
    assert (Hpr : forall s0 i0 r0 q0 n0 rs ev, process_req f s0 i0 r0 q0 n0 rs ev <> Unmodelled).
    { intros s0 i0 r0 q0 n0 rs ev. unfold process_req. cbv zeta. destruct (q_op q0); try apply Hcd; discriminate. }
    destruct (w_comp w) as [[[rs d] be]|]; [now apply Hcd in E|].
    destruct (w_resp w); [now apply Hpr in E|]. destruct (_ && negb (w_ptl w)); [now apply Hcd in E|now apply Hpr in E].
  - (* a snoop, unless the snooped process is about to store *)
    assert (Hin : In j (w_todo w)) by (rewrite Htd; now left).
    set (a := q_addr (w_q w)).
    assert (Al : align a = a).
    { pose proof (iv_thr _ _ _ I (w_i w)) as Hth. rewrite Hwt in Hth. eapply wait_align. exact Hth. }
    assert (Hstep : forall lr, (if in_cache (slot f s j a) a then handle_snp
         (match snp_of (q_op (w_q w)) (w_fwd w) with Some q => q | None => SnpOnce end) true (slot f s j a) else Ok (slot f s j a, resp S_INV)) = Ok lr ->
       exists lb s' es, step f s lb = Ok (s', es)).
    { intros [l' p] El. exists (L_Snoop j (fun _ => false)). cbn [step]. rewrite Hh.
      replace (existsb (Nat.eqb j) (w_todo w)) with true
        by (symmetry; apply existsb_exists; exists j; split; [exact Hin|apply Nat.eqb_refl]).
      unfold snoop. assert (Hs : snp_of (q_op (w_q w)) (w_fwd w) <> None).
      { intro X. assert (Kc : cls_of (q_op (w_q w)) = K_None) by (destruct (q_op (w_q w)); cbn in X; try discriminate; reflexivity).
        destruct (wk_none _ _ _ _ _ K Kc) as (Y & _). rewrite Y in Hin. destruct Hin. }
      destruct (snp_of (q_op (w_q w)) (w_fwd w)); [|congruence]. cbv zeta. fold a. rewrite El. cbn [rbind]. eauto. }
    destruct (in_cache (slot f s j a) a) eqn:C; [|eapply Hstep; reflexivity].
    assert (Hd : hd (s_c s) j a) by (apply hd_slot; auto).
    destruct (li_copy _ _ _ _ _ _ _ _ (iv_line _ _ _ I a Al) j Hd) as [[Hf _]|(r0 & X & _)]; [|apply (HT j); eauto].
    assert (Esl : slot f s j a = Ln (s_c s) j a) by (unfold slot, ChiCoh.Ln; now rewrite Al).
    rewrite Esl in *. destruct Hd as [V _].
    unfold handle_snp in Hstep. rewrite (full_status _ Hf V) in Hstep. cbn [rbind] in Hstep.
    destruct (match snp_of (q_op (w_q w)) (w_fwd w) with Some q0 => q0 | None => SnpOnce end); (eapply Hstep; reflexivity).
Qed.

End Run.
