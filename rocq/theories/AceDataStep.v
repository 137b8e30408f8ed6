(** Every step keeps the data invariant and reads return the latest value. *)
From Verif Require Import Base TlmModel TlmSpec AceSpec AceModel AceFacts AceOrder AceCoherence AceCohStep AceData.
Open Scope N_scope.

Section DataStep.
Context (f : cfg).
Notation cl := (cl f).
Notation index := (index f).
Notation tl := (tl f).

(** The configurations covered: at most one write-through cache beside any
    number of write-back caches, or only write-through caches. *)
Definition wt_ok : Prop :=
  (forall j, (j < f_nm f)%nat -> f_wt f j = true) \/
  (forall i j, f_wt f i = true -> f_wt f j = true -> i = j).

(** The requests covered: see the comments of C26. *)
Definition tame (m : nat) (o : op) : Prop :=
  op_ok f o /\ o_excl o = false /\ o_sec o = false /\
  (o_kind o = O_Load \/ o_kind o = O_Store \/ o_kind o = O_CleanShared) /\
  (o_kind o = O_Store ->
     if f_wt f m then line_off f (o_addr o) + o_len o <= cl
     else forall pos, align f (o_addr o + pos) = o_addr o + pos -> pos + cl <= o_len o ->
            forallb a_en (op_bytes o pos cl) = true).
Definition tame_run (m : nat) (r : run) : Prop :=
  tame m (r_op r) /\
  (f_wt f m = true -> o_kind (r_op r) = O_Store -> r_pos r = 0 \/ o_len (r_op r) <= r_pos r).

Lemma tame_adv m r l : tame_run m r -> tame_run m (advance f r l).
Proof.
  intros [T H]. split; [exact T|]. intros W K. cbn in *. destruct (H W K) as [E|E].
  - right. destruct T as (_ & _ & _ & _ & T). specialize (T K). rewrite W in T.
    unfold seg_len, cur_addr. rewrite E, N.add_0_r. lia.
  - right. unfold seg_len. lia.
Qed.
Lemma tame_ex m r b : tame_run m r -> tame_run m (mkRun (r_op r) (r_pos r) (r_acc r) b).
Proof. intros H. exact H. Qed.
Lemma tame_start m o : tame m o -> tame_run m (mkRun o 0 [] false).
Proof. intro T. split; [exact T|]. now left. Qed.
Lemma tame_plain m o : tame m o -> plain f m o.
Proof. intros (H1 & H2 & _). now split. Qed.

Definition DInv (s : state) (w : mem) : Prop :=
  InvD f (lines (s_cache s)) (views s) (s_mem s false) w.

Lemma data_by s' L V M w :
  InvD f L V M w -> (forall j i, lines (s_cache s') j i = L j i) -> (forall j, views s' j = V j) ->
  (forall a, s_mem s' false a = M a) -> DInv s' w.
Proof. intros I EL EV EM. now apply (InvD_ext f L _ V _ M _ w). Qed.

Definition inert (v : view) : bool :=
  match v with V_none | V_pend _ _ | V_wb _ _ false => true | _ => false end.

Lemma D_inert L V M w m v :
  InvD f L V M w -> inert (V m) = true -> inert v = true -> InvD f L (updn V m v) M w.
Proof.
  intros I Hm Hv. apply D_view; auto.
  - intros t _ _. left. destruct (V m) as [| | |r k []]; cbn in *; auto; discriminate.
  - intros t _. destruct v as [| | |r k []], (V m) as [| | |r' k' []]; cbn in *; try discriminate; reflexivity.
  - destruct v as [| | |r k []]; cbn in *; try discriminate; exact Logic.I.
Qed.

Lemma data_goto s m p w :
  DInv s w -> inert (vw (s_pc s m)) = true -> inert (vw p) = true -> DInv (goto s m p) w.
Proof.
  intros I H1 H2. apply (data_by _ _ _ _ _ (D_inert _ _ _ _ m (vw p) I H1 H2)); [reflexivity| |reflexivity].
  apply views_goto.
Qed.
Lemma data_issue s m r k w :
  DInv s w -> inert (vw (s_pc s m)) = true -> DInv (issue f s m r k) w.
Proof.
  intros I H1. apply (data_by _ _ _ _ _ (D_inert _ _ _ _ m (V_pend r k) I H1 eq_refl)).
  - now rewrite issue_cache.
  - apply views_issue.
  - now rewrite issue_mem.
Qed.
Lemma data_issue_wb s m r c k w :
  DInv s w -> inert (vw (s_pc s m)) = true -> DInv (issue_wb s m r c k) w.
Proof.
  intros I H1. apply (data_by _ _ _ _ _ (D_inert _ _ _ _ m (V_wb r k false) I H1 eq_refl)); [reflexivity| |reflexivity].
  unfold issue_wb. intro i. rewrite views_goto. reflexivity.
Qed.
Lemma data_same_lines s m c' w :
  c_line c' = c_line (s_cache s m) -> DInv s w -> DInv (cache_to s m c') w.
Proof. intros E I. apply (data_by _ _ _ _ _ I); [now apply lines_same|reflexivity|reflexivity]. Qed.

Lemma data_drop s m a w :
  CohInv f s -> l_dirty (get_line f (s_cache s m) a) = false -> DInv s w ->
  DInv (cache_to s m (put_line f (s_cache s m) a (set_valid (get_line f (s_cache s m) a) false))) w.
Proof.
  intros C Hd I.
  eapply data_by; [|apply lines_put|reflexivity|reflexivity].
  apply (D_lines f (lines (s_cache s))); [exact I| |].
  - intros j i. destruct (Nat.eq_dec j m) as [->|N]; [destruct (N.eq_dec i (slot f a)) as [->|Ni]|].
    + rewrite upd2_eq. repeat split; cbn; discriminate.
    + rewrite upd2_ne by auto. apply line_led_refl.
    + rewrite upd2_ne by auto. apply line_led_refl.
  - intros t j At H D. left.
    assert (Q : j <> m \/ index t <> slot f a).
    { destruct (Nat.eq_dec j m) as [->|N]; [right|now left]. intro E. rewrite E in D.
      unfold lines, get_line in *. congruence. }
    unfold holds. rewrite upd2_ne by exact Q. now split.
Qed.

Lemma data_fill s m r k w :
  CohInv f s -> inert (vw (s_pc s m)) = true -> DInv s w -> DInv (fill f s m r k) w.
Proof.
  intros C H I. unfold fill. destruct (l_valid _) eqn:Lv; [destruct (l_dirty _) eqn:Ld|].
  - apply data_issue_wb; [now apply data_same_lines|exact H].
  - apply data_issue; [now apply data_drop|exact H].
  - now apply data_issue.
Qed.

(** ** The bytes of a load hit *)
Lemma read_piece_latest (l : line) r (w : mem) :
  same_on f (tl r) (l_data l) w ->
  forall a, In a (read_piece f l r) -> a_en a = true -> a_byte a = w (a_addr a).
Proof.
  intros H a Ha En. unfold read_piece in Ha. apply in_map_iff in Ha as (i & <- & Hi). apply in_seq in Hi.
  cbn in *. rewrite En. pose proof (align_off f (cur_addr r)) as E. pose proof (seg_len_line f r) as S.
  rewrite H by lia. f_equal. unfold AceCoherence.tl. unfold cur_addr in E at 1. lia.
Qed.

Lemma wb_valid s : CohInv f s ->
  forall j r k b, views s j = V_wb r k b -> l_valid (lines (s_cache s) j (index (tl r))) = true.
Proof. intros [_ H] j r k b E. specialize (H j). rewrite E in H. apply H. Qed.

(** a store into a line that [m] has to itself *)
Lemma data_store L V M w m r l :
  base f L -> (forall j r' k todo x fin, V j = V_tx r' k todo x fin -> j <> m -> tl r' = tl r ->
                 x_data x = None /\ x_ds x = None) ->
  InvD f L V M w ->
  (forall j r k, V j = V_wb r k true -> l_valid (L j (index (tl r))) = true) ->
  f_wt f m = false ->
  (l_valid (L m (index (tl r))) = true -> l_tag (L m (index (tl r))) = tl r) ->
  (forall j, j <> m -> ~ holds f L j false (tl r)) ->
  (V m = V_none \/ exists r' k todo x fin, V m = V_tx r' k todo x fin /\ tl r' = tl r /\ writes k = false) ->
  l_valid l = true -> l_tag l = tl r -> l_sec l = false ->
  (same_on f (tl r) (l_data l) w \/ seg_len f r = cl /\ no_sparse f r = true) ->
  InvD f (upd2 L m (index (tl r)) (write_line f l r true)) (updn V m V_none) M
       (fold_left put (write_piece f r) w).
Proof.
  intros B Htx I Hwb Wm Hs Hno Hm Lv Lt Ls Hd.
  eapply D_write; eauto.
  - apply align_align.
  - intros o Ho. cbn. destruct Hd as [Hd|[Hf Hn]].
    + now apply piece_line.
    + rewrite (piece_full f r (l_data l) (fun i => w (tl r + i)) Hf Hn o Ho).
      now apply piece_line.
  - intros t' At Nt o Ho. now apply piece_other.
Qed.

Context (HW : wt_ok).

(** write data waiting to go downstream belongs to the only transaction on the line *)
Lemma ds_alone s w m m' r k todo x fin r' k' todo' x' fin' :
  InvO f s -> DInv s w -> m <> m' ->
  views s m = V_tx r k todo x fin -> views s m' = V_tx r' k' todo' x' fin' -> tl r = tl r' ->
  x_data x = None /\ x_ds x = None.
Proof.
  intros O D N V V' E. destruct (same_line f _ _ _ _ _ _ _ _ _ _ _ _ _ O N V V' E) as [-> ->].
  pose proof (d_view f _ _ _ _ D m) as Dv. rewrite V in Dv. destruct Dv as (_ & _ & D3 & D4 & _).
  split.
  - destruct (x_data x); [|reflexivity]. specialize (D3 ltac:(discriminate)). discriminate.
  - destruct HW as [All|One]; [auto|]. exfalso. apply N. apply One.
    + destruct (view_tx_ok f _ _ _ _ _ _ _ O V) as [_ K]. unfold kind_ok in K.
      destruct (o_kind (r_op r)); try discriminate.
      * destruct K as [_ K]. destruct (f_wt f m); [reflexivity|destruct K; discriminate].
      * destruct K as [_ K]. destruct (f_wt f m); [reflexivity|]. destruct K as [K|[K|[K _]]]; discriminate.
    + destruct (view_tx_ok f _ _ _ _ _ _ _ O V') as [_ K]. unfold kind_ok in K.
      destruct (o_kind (r_op r')); try discriminate.
      * destruct K as [_ K]. destruct (f_wt f m'); [reflexivity|destruct K; discriminate].
      * destruct K as [_ K]. destruct (f_wt f m'); [reflexivity|]. destruct K as [K|[K|[K _]]]; discriminate.
Qed.

Lemma kind_wt m r k : kind_ok f m r k -> writes k = true -> f_wt f m = true /\ o_kind (r_op r) = O_Store /\ r_pos r < o_len (r_op r).
Proof.
  intros K Wk. unfold kind_ok in K. destruct (o_kind (r_op r)).
  - destruct K as [_ K]. destruct (f_wt f m); [subst; discriminate|destruct K; subst; discriminate].
  - destruct K as [P K]. destruct (f_wt f m); [auto|]. destruct K as [->|[->|[-> _]]]; discriminate.
  - subst; discriminate.
  - subst; discriminate.
  - subst; discriminate.
Qed.

Lemma view_sec s j r k todo x fin :
  runs_ok tame_run s -> views s j = V_tx r k todo x fin -> sc r = false.
Proof.
  intros R V. assert (T : tame_run j r).
  { apply (R j r). unfold views in V. destruct (s_pc s j); cbn in *; congruence. }
  apply T.
Qed.

Lemma local_data s m r w :
  s_pc s m = Head r -> runs_ok tame_run s -> InvO f s -> CohInv f s -> DInv s (w false) ->
  let es := snd (local f s m r) in
  reads_latest w es /\ DInv (fst (local f s m r)) (fold_left latest es w false).
Proof.
  intros E R O C I. cbv zeta.
  assert (T : tame_run m r) by (apply (R m r); now rewrite E).
  assert (Hi : inert (vw (s_pc s m)) = true) by now rewrite E.
  assert (Vm : views s m = V_none) by (unfold views; now rewrite E).
  destruct T as [(T1 & T2 & T3 & T4 & T5) T6].
  unfold local. rewrite T2, T3. cbn [andb].
  destruct (o_kind (r_op r)) eqn:K.
  - destruct (_ <=? _); [split; [exact (conj Logic.I Logic.I)|now apply data_goto]|].
    destruct (in_cache f (s_cache s m) (cur_addr r) false) eqn:Ic.
    + cbn [fst snd fold_left latest reads_latest]. split; [split; [|exact Logic.I]|now apply data_goto].
      apply read_piece_latest. change (get_line f (s_cache s m) (cur_addr r)) with (lines (s_cache s) m (index (tl r))).
      pose proof (d_line f _ _ _ _ I m (tl r)) as D. rewrite Vm in D. apply D. exact Ic.
    + destruct (f_wt f m); cbn [fst snd fold_left reads_latest]; (split; [exact Logic.I|]).
      * now apply data_fill.
      * apply data_fill; auto; [now apply coh_same_lines|now apply data_same_lines].
  - destruct (_ <=? _); [split; [exact (conj Logic.I Logic.I)|now apply data_goto]|].
    destruct (f_wt f m) eqn:W; cbn [fst snd fold_left reads_latest].
    { split; [exact Logic.I|]. now apply data_issue. }
    destruct (in_cache f (s_cache s m) (cur_addr r) false) eqn:Ic.
    + destruct (l_shared _) eqn:Sh; cbn [negb fst snd fold_left reads_latest].
      { split; [exact Logic.I|]. now apply data_issue. }
      unfold store_here. rewrite T2, T3. cbn [fst snd fold_left latest reads_latest].
      split; [exact (conj Logic.I Logic.I)|].
      set (l := get_line f (s_cache s m) (cur_addr r)) in *.
      assert (El : lines (s_cache s) m (index (tl r)) = l) by reflexivity.
      pose proof (in_cache_line f _ _ _ Ic) as (Lv & Lt & Ls). fold l in Lv, Lt, Ls. fold (tl r) in Lt.
      assert (Hown : holds f (lines (s_cache s)) m false (tl r)) by exact Ic.
      destruct C as [B Cv].
      assert (Hno : forall j, j <> m -> ~ holds f (lines (s_cache s)) j false (tl r)).
      { intros j N Hj. destruct (b_sw f _ B m j false (tl r) (not_eq_sym N) Hown Hj) as [X _].
        rewrite El in X. congruence. }
      unfold world_upd. cbn [Bool.eqb].
      apply (data_by _ (upd2 (lines (s_cache s)) m (index (tl r)) (write_line f l r true))
                       (updn (views s) m V_none) (s_mem s false)).
      * apply data_store; auto.
        -- intros j r' k todo x fin Vj N Et. pose proof (Cv j) as Hv. rewrite Vj in Hv. destruct Hv as [_ Ht].
           assert (X : ~ (x_data x <> None \/ x_ds x <> None)).
           { intro X. pose proof (t_data f _ _ _ _ _ _ Ht X m (not_eq_sym N)) as Y. rewrite Et in Y.
             assert (Esc : sc r' = false) by (eapply view_sec; eauto).
             rewrite Esc, El in Y. rewrite Y in Sh by exact Hown. discriminate. }
           destruct (x_data x), (x_ds x); auto; exfalso; apply X; auto; [left|left|right]; discriminate.
        -- intros j r' k Vj. eapply wb_valid; [split; eauto|exact Vj].
        -- left. pose proof (d_line f _ _ _ _ I m (tl r) Hown) as D. rewrite Vm, El in D. exact D.
      * apply lines_put.
      * intro i. rewrite views_goto. reflexivity.
      * reflexivity.
    + split; [exact Logic.I|]. now apply data_fill.
  - destruct (_ && _); cbn [fst snd fold_left reads_latest]; (split; [exact Logic.I|]).
    + now apply data_issue_wb.
    + now apply data_issue.
  - exfalso. destruct T4 as [T4|[T4|T4]]; discriminate.
  - exfalso. destruct T4 as [T4|[T4|T4]]; discriminate.
Qed.

(** ** Snoops *)
Lemma snoop_led q c a sec :
  forall i, line_led (c_line (fst (handle_snoop f q c a sec)) i) (c_line c i).
Proof.
  intro i. unfold handle_snoop. destruct (in_cache f c a sec); [|apply line_led_refl].
  assert (G : forall l, line_led l (get_line f c a) -> line_led (c_line (put_line f c a l) i) (c_line c i)).
  { intros l Hl. unfold put_line, set_line, get_line in *. cbn. unfold updN.
    destruct (N.eqb_spec i (slot f a)); [now subst|apply line_led_refl]. }
  destruct q; cbn [fst]; try (apply G); try (change (c_line (mon_reset ?c0 a)) with (c_line c0); apply G);
    repeat split; cbn; auto; discriminate.
Qed.
Lemma snoop_lost k c a sec :
  in_cache f c a sec = true -> l_dirty (get_line f c a) = true ->
  let l' := c_line (fst (handle_snoop f (snoop_of k) c a sec)) (slot f a) in
  let p := snd (handle_snoop f (snoop_of k) c a sec) in
  (l_valid l' = true /\ l_dirty l' = true) \/ (p_dirty p = true /\ p_data p <> None) \/ dropping k false = true.
Proof.
  intros H D. unfold handle_snoop. rewrite H.
  unfold in_cache, line_is in H. apply andb_prop in H as [H _]. apply andb_prop in H as [H _].
  unfold put_line, set_line, get_line in *.
  destruct k; cbn; rewrite !updN_eq; cbn; rewrite ?D, ?H; auto;
    right; left; (split; [reflexivity|discriminate]).
Qed.
Lemma snoop_other q c a sec i :
  i <> slot f a -> c_line (fst (handle_snoop f q c a sec)) i = c_line c i.
Proof.
  intro N. unfold handle_snoop. destruct (in_cache f c a sec); [|reflexivity].
  destruct q; cbn; now rewrite updN_ne by auto.
Qed.

Lemma snoop_data s w m r k todo x j c' p :
  InvO f s -> CohInv f s -> runs_ok tame_run s -> DInv s w ->
  views s m = V_tx r k todo x false -> j <> m ->
  handle_snoop f (snoop_of k) (s_cache s j) (tl r) false = (c', p) ->
  InvD f (updn (lines (s_cache s)) j (c_line c'))
         (updn (views s) m (V_tx r k (filter (fun i => negb (Nat.eqb i j)) todo) (port_done k x p) false))
         (s_mem s false) w.
Proof.
  intros O [B Cv] R I Vm Nj Hs.
  set (L := lines (s_cache s)) in *. set (c := s_cache s j) in *.
  set (v' := V_tx r k (filter (fun i => negb (Nat.eqb i j)) todo) (port_done k x p) false).
  assert (Lj : L j = c_line c) by reflexivity.
  assert (Hin : in_cache f c (tl r) false = true <-> holds f L j false (tl r)).
  { unfold in_cache, holds, get_line. rewrite Lj, slot_tl. unfold AceCoherence.tl at 2 4.
    rewrite align_align. fold (tl r). tauto. }
  pose proof (d_view f _ _ _ _ I m) as Dv. rewrite Vm in Dv. destruct Dv as (D1 & D2 & D3 & D4 & D5).
  assert (Pd : p_data p <> None -> in_cache f c (tl r) false = true /\
               p_data p = Some (l_data (L j (index (tl r))))).
  { intro X. destruct (in_cache f c (tl r) false) eqn:Ic.
    - split; [reflexivity|]. pose proof (snoop_case f k c (tl r) false (index (tl r)) Ic) as S.
      rewrite Hs in S. cbn [fst snd] in S. cbv zeta in S. destruct S as (_ & _ & _ & S4 & _).
      rewrite (S4 X). unfold get_line. rewrite slot_tl. reflexivity.
    - unfold handle_snoop in Hs. rewrite Ic in Hs. injection Hs as <- <-. cbn in X. congruence. }
  assert (Pp : p_dirty p = true -> l_dirty (L j (index (tl r))) = true /\ holds f L j false (tl r)).
  { intro X. destruct (in_cache f c (tl r) false) eqn:Ic.
    - pose proof (snoop_case f k c (tl r) false (index (tl r)) Ic) as S.
      rewrite Hs in S. cbn [fst snd] in S. cbv zeta in S. destruct S as (_ & _ & _ & _ & S5).
      destruct (S5 X) as (S6 & _). unfold get_line in S6. rewrite slot_tl in S6. split; [exact S6|now apply Hin].
    - unfold handle_snoop in Hs. rewrite Ic in Hs. injection Hs as <- <-. cbn in X. congruence. }
  assert (Own : (reads k = true \/ l_dirty (L j (index (tl r))) = true) -> holds f L j false (tl r) ->
     same_on f (tl r) (l_data (L j (index (tl r)))) w).
  { intros Q H. pose proof (d_line f _ _ _ _ I j (tl r) H) as D.
    destruct (views s j) as [| |r' k' td x' []|] eqn:Vj; cbn in D; auto. fold L in D.
    destruct (N.eqb_spec (tl r') (tl r)) as [Et|]; [|now rewrite andb_false_r in D].
    destruct (writes k') eqn:Wk; [|exact D]. exfalso.
    destruct (same_line f s m j _ _ _ _ _ _ _ _ _ _ O (not_eq_sym Nj) Vm Vj (eq_sym Et)) as [-> ->].
    destruct Q as [Q|Q]; [discriminate|].
    destruct (view_tx_ok f _ _ _ _ _ _ _ O Vj) as [_ K]. destruct (kind_wt _ _ _ K Wk) as [W _].
    apply holds_iff in H as (Hv & _). pose proof (d_wt f _ _ _ _ I j _ W Hv) as X. unfold L in Q. congruence. }
  assert (I1 : InvD f L (updn (views s) m v') (s_mem s false) w).
  { apply D_view; auto.
    - intros t _ C. left. rewrite Vm. cbn in *. intro Et. destruct (C Et) as (C1 & C2 & C3).
      apply orb_false_elim in C1 as [C1 _]. split; [exact C1|]. split; [|exact C3].
      match type of C2 with (if ?b then _ else _) = None => destruct b eqn:G end; [|exact C2].
      rewrite C2 in G. discriminate.
    - intros t _. rewrite Vm. reflexivity.
    - cbn. split; [|split; [|split; [|split]]].
      + intros d Hd. destruct (_ && is_read_snoop _) eqn:G; [|now apply D1].
        apply andb_prop in G as [G1 G2].
        assert (X : p_data p <> None) by (destruct (p_data p); [discriminate|congruence]).
        destruct (Pd X) as [Ic Ed]. rewrite Ed in Hd. injection Hd as <-. apply Own; [now left|now apply Hin].
      + intros d Hd. destruct (_ && p_dirty p) eqn:G; [|now apply D2].
        apply andb_prop in G as [G1 G2]. apply andb_prop in G1 as [G1 _].
        assert (X : p_data p <> None) by (destruct (p_data p); [discriminate|congruence]).
        destruct (Pd X) as [Ic Ed]. rewrite Ed in Hd. injection Hd as <-. apply Own; [right; now apply Pp|now apply Hin].
      + intro X. destruct (_ && is_read_snoop _) eqn:G; [|now apply D3].
        apply andb_prop in G as [_ G]. exact G.
      + intro All. destruct (_ && p_dirty p) eqn:G; [|now apply D4].
        apply andb_prop in G as [_ G]. exfalso. destruct (Pp G) as [Q H].
        pose proof (proj1 (holds_iff f L j false (tl r)) H) as (Hv & _).
        assert (Hj : (j < f_nm f)%nat).
        { destruct (Nat.ltb_spec j (f_nm f)); [assumption|]. rewrite (b_nm f _ B) in Hv; [discriminate|assumption]. }
        pose proof (d_wt f _ _ _ _ I j _ (All j Hj) Hv) as X. unfold L in Q. congruence.
      + intro Wk. rewrite (D5 Wk). destruct k; try discriminate; reflexivity. }
  apply (D_lines f L); [exact I1| |].
  - intros a i. pose proof (snoop_led (snoop_of k) c (tl r) false i) as Q. rewrite Hs in Q. cbn [fst] in Q.
    destruct (Nat.eq_dec a j) as [->|N]; [now rewrite updn_eq|rewrite updn_ne by auto; apply line_led_refl].
  - intros t a At H D. destruct (Nat.eq_dec a j) as [->|N]; [|left; unfold holds; now rewrite updn_ne by auto].
    destruct (in_cache f c (tl r) false) eqn:Ic.
    + destruct (N.eq_dec (index t) (index (tl r))) as [Ei|Ni].
      * assert (t = tl r).
        { apply holds_iff in H as (_ & H & _). pose proof (proj1 Hin eq_refl) as H'.
          apply holds_iff in H' as (_ & H' & _). rewrite Ei in H. congruence. }
        subst t. assert (D' : l_dirty (get_line f c (tl r)) = true) by (unfold get_line; rewrite slot_tl; exact D).
        pose proof (snoop_lost k c (tl r) false Ic D') as S. rewrite Hs in S. cbn [fst snd] in S.
        cbv zeta in S. rewrite slot_tl in S.
        destruct S as [[S1 S2]|[[S1 S2]|S1]].
        -- left. rewrite updn_eq. split; [|exact S2]. apply holds_iff. rewrite updn_eq.
           pose proof (snoop_led (snoop_of k) c (tl r) false (index (tl r))) as Q. rewrite Hs in Q. cbn [fst] in Q.
           destruct Q as (Q1 & Q2 & _). rewrite Q1, Q2. apply holds_iff in H as (_ & H1 & H2). auto.
        -- right. left. exists m. rewrite updn_eq. cbn. intro X. destruct (X eq_refl) as (X1 & X2 & _).
           destruct (p_data p); [|congruence]. rewrite S1 in X1, X2. cbn in X1, X2.
           destruct (pass_dirty k); cbn in *; [rewrite orb_true_r in X1|]; discriminate.
        -- right. left. exists m. rewrite updn_eq. cbn. intro X. destruct (X eq_refl) as (_ & _ & X3). congruence.
      * left. unfold holds. rewrite updn_eq.
        pose proof (snoop_other (snoop_of k) c (tl r) false (index t)) as Q. rewrite Hs, slot_tl in Q. cbn [fst] in Q.
        rewrite Q by exact Ni. now split.
    + unfold handle_snoop in Hs. rewrite Ic in Hs. injection Hs as <- <-.
      left. unfold holds. rewrite updn_eq. now split.
Qed.

Lemma tame_no_invalid m r k :
  tame m (r_op r) -> kind_ok f m r k -> k <> K_CleanInvalid /\ k <> K_MakeInvalid.
Proof.
  intros (_ & _ & _ & T4 & _) K. unfold kind_ok in K.
  destruct T4 as [T4|[T4|T4]]; rewrite T4 in K.
  - destruct K as [_ K]. destruct (f_wt f m); [subst|destruct K; subst]; split; discriminate.
  - destruct K as [_ K]. destruct (f_wt f m); [destruct K as [->|[-> _]]|destruct K as [->|[->|[-> _]]]]; split; discriminate.
  - subst. split; discriminate.
Qed.
Lemma tame_make m r : tame m (r_op r) -> kind_ok f m r K_MakeUnique ->
  f_wt f m = false /\ seg_len f r = cl /\ no_sparse f r = true.
Proof.
  intros (_ & _ & _ & T4 & T5) K. unfold kind_ok in K.
  destruct T4 as [T4|[T4|T4]]; rewrite T4 in K.
  - destruct K as [_ K]. destruct (f_wt f m); [discriminate|destruct K; discriminate].
  - specialize (T5 T4). destruct K as [P K]. destruct (f_wt f m); [destruct K as [K|[K _]]; discriminate|].
    destruct K as [K|[K|[_ K]]]; try discriminate. split; [reflexivity|]. split; [exact K|].
    unfold no_sparse. apply T5.
    + pose proof (align_off f (cur_addr r)) as E. rewrite (seg_full f r K), N.add_0_r in E.
      unfold cur_addr in *. now symmetry.
    + unfold seg_len in K. lia.
  - discriminate.
Qed.

Lemma fin_clean L m r k x :
  tx_ok f L m r k [] x -> pass_dirty k = false -> x_ds x = None -> dropping k true = false ->
  forall t, clean f (V_tx r k [] x true) t.
Proof.
  intros T P D Q t. cbn. intros _. split; [|auto].
  destruct (x_dirty x) eqn:X; [|reflexivity]. destruct (t_dirty f _ _ _ _ _ _ T X) as (_ & Y & _). congruence.
Qed.

Lemma step_data s lb s' es w :
  label_ok tame lb -> step f s lb = Some (s', es) ->
  InvO f s -> runs_ok tame_run s -> todo_ok f s -> CohInv f s -> DInv s (w false) ->
  reads_latest w es /\ DInv s' (fold_left latest es w false).
Proof.
  intros HL H O R T C I. destruct lb as [m o|m|m|m j|m|m|m|]; cbn [label_ok] in HL; cbn [step] in H.
  - destruct (s_pc s m) eqn:E; try discriminate. destruct (m <? f_nm f)%nat; [|discriminate].
    injection H as <- <-. split; [exact Logic.I|]. apply data_goto; auto. now rewrite E.
  - destruct (s_pc s m) eqn:E; try discriminate. injection H as H.
    pose proof (local_data s m r w E R O C I) as D. cbv zeta in D. rewrite H in D. exact D.
  - destruct (s_pc s m) eqn:E; try discriminate. injection H as H1 H2. subst es. split; [exact Logic.I|].
    assert (s' = engine f s m r k) as -> by congruence. clear H1.
    assert (X : o_excl (r_op r) = false) by (apply (R m r); now rewrite E).
    assert (Vm : views s m = V_pend r k) by (unfold views; now rewrite E).
    unfold engine. rewrite X. cbn [fold_left].
    apply (data_by _ (lines (s_cache s)) (updn (views s) m (V_tx r k (others f m) (tx0 false) false)) (s_mem s false));
      [|reflexivity|apply views_goto|reflexivity].
    apply D_view; auto.
    + intros t _ _. left. now rewrite Vm.
    + intros t _. now rewrite Vm.
    + cbn. repeat split; try discriminate. congruence.
  - destruct (s_pc s m) eqn:E; try discriminate.
    destruct (_ && _) eqn:C0; [|discriminate].
    apply andb_prop in C0 as [C1 C2]. apply existsb_nat in C1. apply negb_true_iff in C2.
    pose proof (o_ok _ _ O m) as K. rewrite E in K. destruct K as [Hr Hk].
    rewrite (snoop_addr_tl f m r k Hr Hk) in H.
    assert (Es : o_sec (r_op r) = false) by (apply (R m r); now rewrite E).
    rewrite Es in H. destruct (handle_snoop _ _ _ _ _) as [c' p] eqn:Hs. injection H as <- <-.
    split; [exact Logic.I|].
    assert (Nj : j <> m) by (pose proof (T m r k todo x E j C1) as Q; apply in_others in Q; tauto).
    assert (Vm : views s m = V_tx r k todo x false) by (unfold views; now rewrite E).
    apply (data_by _ _ _ _ _ (snoop_data s (w false) m r k todo x j c' p O C R I Vm Nj Hs)).
    + intros a i. cbn. unfold lines.
      destruct (Nat.eq_dec a j) as [->|N]; [now rewrite !updn_eq|now rewrite !updn_ne by auto].
    + intro i. now rewrite views_goto.
    + reflexivity.
  - destruct (s_pc s m) eqn:E; try discriminate. destruct todo; [|discriminate].
    injection H as <- <-. split; [exact Logic.I|].
    apply (data_by _ _ _ _ _ I); [reflexivity| |reflexivity].
    intro i. rewrite views_goto. apply updn_self. unfold views. rewrite E. now destruct (x_ds x).
  - unfold downstream in H. pose proof (o_ok _ _ O m) as K.
    pose proof (coh_view f s m C) as Hv.
    assert (Al : forall j r k, views s j = V_wb r k true ->
       align f (l_tag (lines (s_cache s) j (index (tl r)))) = l_tag (lines (s_cache s) j (index (tl r)))).
    { intros j r k Vj. destruct C as [B Cv]. apply (b_tag f _ B). eapply wb_valid; [split; eauto|exact Vj]. }
    pose proof (d_view f _ _ _ _ I m) as Dv. unfold views at 1 in Dv.
    destruct (s_pc s m) eqn:E; try discriminate.
    + destruct (x_ds x) as [d|] eqn:Ex; [|discriminate]. destruct K as (Hr & Hk & _).
      rewrite (snoop_addr_tl f m r k Hr Hk) in H. injection H as <- <-. split; [exact Logic.I|]. cbn [fold_left].
      destruct Dv as (D1 & D2 & D3 & D4 & D5). pose proof (D2 d Ex) as Sd.
      assert (Vm : views s m = V_tx r k [] x false) by (unfold views; now rewrite E).
      set (x' := mkTx (x_shared x) (x_dirty x) (x_data x) None (x_ok x) (x_ex x)).
      apply (data_by _ (lines (s_cache s)) (updn (views s) m (V_tx r k [] x' false))
               (put_mem_line f (s_mem s false) (tl r) d)); [|reflexivity|intro i; now rewrite views_goto|reflexivity].
      apply D_view.
      * apply D_memline; auto. apply align_align.
      * intros t At Ct. destruct (N.eq_dec t (tl r)) as [->|Nt].
        -- right. left. now apply put_line_on.
        -- left. rewrite Vm. cbn. intro. congruence.
      * intros t _. now rewrite Vm.
      * cbn. repeat split; auto; discriminate.
    + assert (Vm : views s m = V_tx r k [] x false) by (unfold views; now rewrite E).
      destruct K as (Hr & Hk & Hds). destruct Hv as [Hp Ht]. destruct Dv as (D1 & D2 & D3 & D4 & D5).
      assert (Esec : sc r = false) by (eapply view_sec; eauto).
      destruct C as [B Cv].
      assert (G : (writes k = true -> x_ok x = true) -> (writes k = true -> False) -> DInv (goto s m (Finished r k x)) (w false)).
      { intros _ Wk. apply (data_by _ (lines (s_cache s)) (updn (views s) m (V_tx r k [] x true)) (s_mem s false));
          [|reflexivity|intro i; now rewrite views_goto|reflexivity].
        apply D_view; auto.
        - intros t _ Ct. left. rewrite Vm. cbn in *. intro Et. destruct (Ct Et) as (Q1 & Q2 & Q3).
          split; [exact Q1|]. split; [exact Q2|]. destruct k; try exact Q3. exfalso. now apply Wk.
        - intros t _. rewrite Vm. cbn. destruct (writes k); [exfalso; now apply Wk|reflexivity].
        - cbn. auto. }
      assert (Nok : writes k = true -> x_ok x = false).
      { exact D5. }
      destruct (x_ok x) eqn:Ok.
      { injection H as <- <-. split; [exact Logic.I|]. apply G; [auto|]. intro Wk. specialize (Nok Wk). discriminate. }
      assert (Gr : reads k = true -> DInv (goto s m (Finished r k (mkTx (x_shared x) (x_dirty x)
             (Some (line_of (s_mem s (o_sec (r_op r))) (align f (cur_addr r)))) (x_ds x) true (x_ex x)))) (w false)).
      { intro Rk. unfold sc in Esec. rewrite Esec. fold (tl r).
        assert (Nd : x_data x = None).
        { destruct (x_data x) eqn:Q; [|reflexivity]. pose proof (proj2 (t_ok f _ _ _ _ _ _ Ht Rk)) as Y.
          rewrite Q, Ok in Y. exfalso. assert (false = true) by (apply Y; discriminate). discriminate. }
        assert (Xd : x_dirty x = false).
        { destruct (x_dirty x) eqn:Q; [|reflexivity]. destruct (t_dirty f _ _ _ _ _ _ Ht Q) as (Y & _). congruence. }
        assert (Mw : mem_on f (tl r) (s_mem s false) (w false)).
        { apply (d_mem f _ _ _ _ I); [apply align_align| |].
          - intros j Hj. exfalso. destruct (Nat.eq_dec j m) as [->|N].
            + apply holds_iff in Hj as (Hj & _). destruct Hp as [Hp _].
              rewrite Hp in Hj; [discriminate|]. destruct k; try discriminate; reflexivity.
            + apply (t_none f _ _ _ _ _ _ Ht Rk Nd j N (fun x => x)). unfold sc. now rewrite Esec.
          - intro j. destruct (Nat.eq_dec j m) as [->|N].
            + rewrite Vm. cbn. intros _. split; [exact Xd|]. split; [exact Hds|]. destruct k; try discriminate; reflexivity.
            + destruct (views s j) as [| |r' k' td x' fin|] eqn:Vj; try exact Logic.I. cbn. intro Et.
              exfalso. destruct (same_line f s m j _ _ _ _ _ _ _ _ _ _ O (not_eq_sym N) Vm Vj (eq_sym Et)) as [-> _].
              discriminate. }
        apply (data_by _ (lines (s_cache s)) (updn (views s) m (V_tx r k [] (mkTx (x_shared x) (x_dirty x)
             (Some (line_of (s_mem s false) (tl r))) (x_ds x) true (x_ex x)) true)) (s_mem s false));
          [|reflexivity|intro i; now rewrite views_goto|reflexivity].
        assert (Wk : writes k = false) by (destruct k; try discriminate; reflexivity).
        apply D_view; auto.
        - intros t _ Ct. left. rewrite Vm. cbn in *. intro Et. destruct (Ct Et) as (Q1 & Q2 & Q3).
          split; [exact Q1|]. split; [exact Q2|]. destruct k; try exact Q3. discriminate.
        - intros t _. rewrite Vm. cbn. now rewrite Wk.
        - cbn. split; [intros d Hd; injection Hd as <-; exact Mw|].
          split; [exact D2|]. split; [auto|]. split; [exact D4|congruence]. }
      assert (Gw : writes k = true ->
         DInv (goto (st_mem s (world_upd (s_mem s) (o_sec (r_op r)) (fold_left put (write_piece f r) (s_mem s (o_sec (r_op r)))))) m (Finished r k x))
              (fold_left latest [Ev_Write m (o_sec (r_op r)) (write_piece f r)] w false)).
      { intro Wk. unfold sc in Esec. rewrite Esec. cbn [fold_left latest]. unfold world_upd at 2. cbn [Bool.eqb].
        apply (data_by _ (lines (s_cache s)) (updn (views s) m (V_tx r k [] x true))
                 (fold_left put (write_piece f r) (s_mem s false)));
          [|reflexivity|intro i; now rewrite views_goto|reflexivity].
        apply D_through; auto.
        - intros ->. unfold kind_ok in Hk. destruct (kind_wt _ _ _ (proj2 (view_tx_ok f _ _ _ _ _ _ _ O Vm)) Wk) as (W & Ks & _).
          rewrite Ks, W in Hk. destruct Hk as [_ [Hk|[_ Hk]]]; [discriminate|exact Hk].
        - destruct (x_dirty x) eqn:Q; [|reflexivity]. destruct (t_dirty f _ _ _ _ _ _ Ht Q) as (_ & Y & _).
          destruct k; discriminate.
        - intros j N Hj. assert (Sk : sharing k = false) by (destruct k; try discriminate; reflexivity).
          apply (no_holders f _ _ _ _ _ Ht Sk j N). unfold sc. now rewrite Esec.
        - intros j r' k' td x' fin N Vj Et. exact (ds_alone s (w false) j m _ _ _ _ _ _ _ _ _ _ O I N Vj Vm Et).
        - intros j r' k' Vj. eapply wb_valid; [split; eauto|exact Vj]. }
      destruct k; injection H as <- <-;
        solve [ split; [exact Logic.I|]; apply Gr; reflexivity
              | split; [exact (conj Logic.I Logic.I)|]; apply Gw; reflexivity
              | split; [exact Logic.I|]; apply G; intros; discriminate ].
    + injection H as <- <-. split; [exact Logic.I|]. cbn [fold_left].
      set (l := get_line f (s_cache s m) (cur_addr r)).
      assert (El : lines (s_cache s) m (index (tl r)) = l) by reflexivity.
      assert (Vm : views s m = V_wb r next false) by (unfold views; now rewrite E).
      destruct Hv as (Lv & Ld & _). rewrite El in Lv, Ld.
      destruct C as [B Cv].
      assert (Ls : l_sec l = false) by (rewrite <- El; apply (d_sec f _ _ _ _ I); now rewrite El).
      destruct (b_tag f _ B m (index (tl r))) as [Ei Ea]; [now rewrite El|]. rewrite El in Ei, Ea.
      assert (Hh : holds f (lines (s_cache s)) m false (l_tag l)).
      { apply holds_iff. rewrite Ei, El. auto. }
      pose proof (d_line f _ _ _ _ I m _ Hh) as Sd. rewrite Vm, Ei, El in Sd. cbn [own_data] in Sd.
      rewrite Ls.
      apply (data_by _ (lines (s_cache s)) (updn (views s) m (V_wb r next true))
               (put_mem_line f (s_mem s false) (l_tag l) (l_data l))); [|reflexivity|intro i; now rewrite views_goto|reflexivity].
      apply D_view.
      * apply D_memline; auto.
      * intros t _ _. left. now rewrite Vm.
      * intros t _. now rewrite Vm.
      * cbn. rewrite El. now apply put_line_on.
  - unfold complete in H. pose proof (coh_view f s m C) as Hv. pose proof (o_ok _ _ O m) as K.
    pose proof (leave_cache f s m) as Ec. pose proof (leave_mem f s m) as Em.
    pose proof (d_view f _ _ _ _ I m) as Dv. unfold views at 1 in Dv.
    destruct (s_pc s m) eqn:E; try discriminate.
    + pose proof (views_leave f s m r) as Ev. specialize (Ec r). specialize (Em r).
      set (t := tx_leave f s m r) in *. destruct K as (Hr & Hk & Hds & Hok). destruct Hv as [Hp Ht].
      destruct Dv as (D1 & D2 & D3 & D4 & D5).
      assert (Vm : views s m = V_tx r k [] x true) by (unfold views; now rewrite E).
      assert (Tm : tame_run m r) by (apply (R m r); now rewrite E).
      assert (X : o_excl (r_op r) = false) by apply Tm.
      assert (Es : sc r = false) by apply Tm. 
      destruct C as [B Cv].
      set (L := lines (s_cache s)) in *.
      assert (Put : forall l m1 r1, (forall j i, lines (s_cache (goto (cache_to t m (put_line f (s_cache t m) (cur_addr r) l)) m1 r1)) j i
                  = upd2 L m (index (tl r)) l j i)).
      { intros l m1 r1 j i. cbn. rewrite lines_put. unfold L. now rewrite Ec. }
      assert (Vh : forall c r1 j, views (goto (cache_to t m c) m (Head r1)) j = updn (views s) m V_none j).
      { intros c r1 j. rewrite views_goto. cbn [vw]. change (views (cache_to t m c)) with (views t).
        destruct (Nat.eq_dec j m) as [->|N]; [now rewrite !updn_eq|].
        rewrite !updn_ne by auto. now rewrite Ev, updn_ne by auto. }
      assert (Rd : reads k = true ->
         DInv (goto (cache_to t m (put_line f (s_cache t m) (cur_addr r)
             (fill_line f (get_line f (s_cache t m) (cur_addr r)) r k x))) m (Head r)) (w false)).
      { intro Rk. assert (Fk : fills k = true) by (destruct k; try discriminate; reflexivity).
        assert (Wk : writes k = false) by (destruct k; try discriminate; reflexivity).
        set (l := fill_line f (get_line f (s_cache t m) (cur_addr r)) r k x).
        assert (Ed : exists d, x_data x = Some d).
        { destruct (x_data x) as [d|] eqn:Q; [eauto|]. pose proof (proj1 (t_ok f _ _ _ _ _ _ Ht Rk) (Hok Rk)). congruence. }
        destruct Ed as [d Ed].
        assert (Df : InvD f (upd2 L m (index (tl r)) l) (views s) (s_mem s false) (w false)).
        { apply D_fill; auto.
          - now apply Hp.
          - intro W. unfold l, fill_line. cbn. destruct k; try reflexivity; unfold kind_ok in Hk;
              destruct (o_kind (r_op r)); try discriminate; rewrite W in Hk; destruct Hk as [_ Hk];
              try discriminate; destruct Hk as [Hk|[Hk _]]; discriminate.
          - unfold l, fill_line. cbn. rewrite Ed. now apply D1.
          - intro l'. rewrite Vm. cbn. now rewrite Wk.
          - intros r' k' Q. congruence. }
        apply (data_by _ (upd2 L m (index (tl r)) l) (updn (views s) m V_none) (s_mem s false)).
        - apply D_view; auto.
          + intros t' At _. destruct (N.eq_dec t' (tl r)) as [->|Nt].
            * destruct (x_dirty x) eqn:Xd.
              -- right. right. exists m. rewrite upd2_eq. split.
                 ++ apply holds_iff. rewrite upd2_eq. unfold l, fill_line. cbn. auto.
                 ++ unfold l, fill_line. cbn. destruct (t_dirty f _ _ _ _ _ _ Ht Xd) as (_ & Pk & _).
                    destruct k; try discriminate; exact Xd.
              -- left. rewrite Vm. cbn. intros _. split; [exact Xd|]. split; [exact Hds|].
                 destruct k; try discriminate; reflexivity.
            * left. rewrite Vm. cbn. intro. congruence.
          + intros t' _. rewrite Vm. cbn. now rewrite Wk.
        - apply Put.
        - apply Vh.
        - cbn. now rewrite Em. }
      assert (Wr : writes k = true ->
         DInv (goto (cache_to t m (if match k with K_WriteUnique => r_pos r <? seg_len f r | _ => true end
                 && in_cache f (s_cache t m) (cur_addr r) (o_sec (r_op r))
               then put_line f (s_cache t m) (cur_addr r)
                      (set_shared (write_line f (get_line f (s_cache t m) (cur_addr r)) r false) true)
               else s_cache t m)) m (Head (advance f r (write_piece f r)))) (w false)).
      { intro Wk. destruct (kind_wt _ _ _ Hk Wk) as (Wm & Ks & Lt).
        assert (Cl : forall t', clean f (V_tx r k [] x true) t').
        { apply (fin_clean L m); auto; destruct k; try discriminate; reflexivity. }
        assert (P0 : r_pos r = 0) by (destruct (proj2 Tm Wm Ks); [assumption|lia]).
        assert (Up : match k with K_WriteUnique => r_pos r <? seg_len f r | _ => true end = true).
        { destruct k; try reflexivity. rewrite P0. apply N.ltb_lt. apply seg_len_pos. exact Lt. }
        rewrite Up. cbn [andb]. unfold sc in Es. rewrite Es.
        assert (Eg : get_line f (s_cache t m) (cur_addr r) = L m (index (tl r))) by (rewrite Ec; reflexivity).
        destruct (in_cache f (s_cache t m) (cur_addr r) false) eqn:Ic.
        - pose proof (in_cache_line f _ _ _ Ic) as (Lv & Ltg & Ls).
          rewrite Eg in *.
          assert (Hh : holds f L m false (tl r)) by (apply holds_iff; auto).
          apply (data_by _ (upd2 L m (index (tl r)) (set_shared (write_line f (L m (index (tl r))) r false) true))
                   (updn (views s) m V_none) (s_mem s false)).
          + apply (D_own f L _ _ _ m r k [] x); auto; try (now apply (d_wt f _ _ _ _ I)).
            rewrite Vm. apply Cl.
          + apply Put.
          + apply Vh.
          + cbn. now rewrite Em.
        - apply (data_by _ L (updn (views s) m V_none) (s_mem s false)).
          + apply D_view; auto.
            * intros t' _ _. left. rewrite Vm. apply Cl.
            * intros t' Ht'. rewrite Vm. cbn. destruct (N.eqb_spec (tl r) t') as [<-|]; [|now rewrite andb_false_r].
              exfalso. unfold in_cache in Ic. rewrite Eg in Ic. unfold holds in Ht'.
              change (align f (cur_addr r)) with (tl r) in Ic. congruence.
          + intros j i. cbn. rewrite lines_same by reflexivity. unfold L. now rewrite Ec.
          + apply Vh.
          + cbn. now rewrite Em. }
      rewrite X in H. cbn [andb] in H.
      destruct k.
      1-4: assert (s' = goto (cache_to t m (put_line f (s_cache t m) (cur_addr r)
             (fill_line f (get_line f (s_cache t m) (cur_addr r)) r _ x))) m (Head r) /\ es = []) as [-> ->]
             by (destruct (o_kind (r_op r)); injection H as <- <-; split; reflexivity);
           split; [exact Logic.I|]; apply Rd; reflexivity.
      * (* CleanUnique *)
        injection H as <- <-. split; [exact Logic.I|]. cbn [fold_left].
        pose proof (fin_clean _ _ _ _ _ Ht eq_refl Hds eq_refl) as Cl.
        assert (Dv : forall L', InvD f L' (views s) (s_mem s false) (w false) -> InvD f L' (updn (views s) m V_none) (s_mem s false) (w false)).
        { intros L' D. apply D_view; auto.
          - intros t' _ _. left. rewrite Vm. apply Cl.
          - intros t' _. now rewrite Vm. }
        set (l := get_line f (s_cache t m) (cur_addr r)).
        assert (El : l = L m (index (tl r))) by (unfold l; rewrite Ec; reflexivity).
        destruct (l_valid l) eqn:Lv.
        -- apply (data_by _ (upd2 L m (index (tl r)) (set_shared l false)) (updn (views s) m V_none) (s_mem s false)).
           ++ apply Dv. apply (D_lines f L); [exact I| |].
              ** intros j i. destruct (Nat.eq_dec j m) as [->|N]; [destruct (N.eq_dec i (index (tl r))) as [->|Ni]|].
                 --- rewrite upd2_eq, <- El. repeat split; auto.
                 --- rewrite upd2_ne by auto. apply line_led_refl.
                 --- rewrite upd2_ne by auto. apply line_led_refl.
              ** intros t' j At Hj Dj. left.
                 destruct (Nat.eq_dec j m) as [->|N]; [destruct (N.eq_dec (index t') (index (tl r))) as [Ei|Ni]|].
                 --- rewrite Ei in *. rewrite upd2_eq. rewrite holds_iff in *. rewrite Ei, upd2_eq in *.
                     rewrite <- El in *. cbn. auto.
                 --- unfold holds. rewrite upd2_ne by auto. now split.
                 --- unfold holds. rewrite upd2_ne by auto. now split.
           ++ apply Put.
           ++ apply Vh.
           ++ cbn. now rewrite Em.
        -- apply (data_by _ L (updn (views s) m V_none) (s_mem s false)).
           ++ now apply Dv.
           ++ intros j i. cbn. rewrite lines_same by reflexivity. unfold L. now rewrite Ec.
           ++ apply Vh.
           ++ cbn. now rewrite Em.
      * (* MakeUnique *)
        injection H as <- <-. destruct Tm as [Tm _]. pose proof (tame_make m r Tm Hk) as (Wm & Sf & Sn).
        split; [exact (conj Logic.I Logic.I)|]. cbn [fold_left latest].
        unfold sc in Es. rewrite Es, X. unfold world_upd. cbn [Bool.eqb].
        match goal with |- DInv (goto (cache_to (cache_to t m (put_line f _ _ ?l)) m (put_line f ?c2 _ _)) m (Head ?r1)) _ =>
          set (l' := l); set (rn := r1) end.
        rewrite updn_eq.
        assert (Eg : get_line f (put_line f (s_cache t m) (cur_addr r) l') (cur_addr r) = l').
        { unfold get_line. cbn. now rewrite updN_eq. }
        rewrite Eg.
        apply (data_by _ (upd2 L m (index (tl r)) (write_line f l' r true)) (updn (views s) m V_none) (s_mem s false)).
        -- apply data_store; auto.
           ++ intros j r' k' td x' fin Vj N Et. exact (ds_alone s (w false) j m _ _ _ _ _ _ _ _ _ _ O I N Vj Vm Et).
           ++ intros j r' k' Vj. eapply wb_valid; [split; eauto|exact Vj].
           ++ intro Q. destruct Hp as [Hp _]. fold L in Hp. rewrite Hp in Q; [discriminate|reflexivity].
           ++ intros j N Hj. apply (no_holders f _ _ _ _ _ Ht eq_refl j N). unfold sc. now rewrite Es.
           ++ right. do 5 eexists. split; [exact Vm|]. split; reflexivity.
        -- intros j i. cbn. unfold lines, upd2. cbn.
           destruct (Nat.eq_dec j m) as [->|N].
           ++ rewrite !updn_eq. cbn. rewrite index_tl. unfold updN. destruct (N.eqb i (index (tl r))); [reflexivity|].
              unfold L, lines. now rewrite Ec.
           ++ rewrite !updn_ne by auto. unfold L, lines. now rewrite Ec.
        -- intro j. rewrite views_goto. cbn [vw]. 
           destruct (Nat.eq_dec j m) as [->|N]; [now rewrite !updn_eq|].
           rewrite !updn_ne by auto. change (views t j = views s j). now rewrite Ev, updn_ne by auto.
        -- cbn. now rewrite Em.
      * (* WriteUnique *)
        injection H as <- <-. split; [exact Logic.I|]. cbn [fold_left].
        apply Wr; reflexivity.
      * injection H as <- <-. split; [exact Logic.I|]. cbn [fold_left].
        apply Wr; reflexivity.
      * injection H as <- <-. split; [exact (conj Logic.I Logic.I)|]. cbn [fold_left latest].
        pose proof (fin_clean _ _ _ _ _ Ht eq_refl Hds eq_refl) as Cl.
        apply (data_by _ L (updn (views s) m V_none) (s_mem s false)).
        -- apply D_view; auto.
           ++ intros t' _ _. left. rewrite Vm. apply Cl.
           ++ intros t' _. now rewrite Vm.
        -- intros j i. cbn. unfold L. now rewrite Ec.
        -- intro j. rewrite views_goto. cbn [vw].
           destruct (Nat.eq_dec j m) as [->|N]; [now rewrite !updn_eq|].
           rewrite !updn_ne by auto. now rewrite Ev, updn_ne by auto.
        -- cbn. now rewrite Em.
      * exfalso. destruct Tm as [Tm _]. destruct (tame_no_invalid m r _ Tm Hk). congruence.
      * exfalso. destruct Tm as [Tm _]. destruct (tame_no_invalid m r _ Tm Hk). congruence.
    + injection H as <- <-. split; [exact Logic.I|]. cbn [fold_left].
      pose proof (views_leave f s m r) as Ev. specialize (Ec r). specialize (Em r).
      set (t := tx_leave f s m r) in *. destruct Hv as (Lv & Ld & Hn).
      set (L := lines (s_cache s)) in *. cbn in Dv.
      assert (Vm : views s m = V_wb r next true) by (unfold views; now rewrite E).
      set (l := get_line f (s_cache t m) (cur_addr r)).
      assert (El : l = L m (index (tl r))) by (unfold l; rewrite Ec; reflexivity).
      match goal with |- DInv (issue f (cache_to t m (put_line f _ _ ?l1)) _ _ _) _ => set (l' := l1) end.
      apply (data_by _ (upd2 L m (index (tl r)) l') (updn (views s) m (V_pend r next)) (s_mem s false)).
      * apply D_view.
        -- apply (D_lines f L); [exact I| |].
           ++ intros j i. destruct (Nat.eq_dec j m) as [->|N]; [destruct (N.eq_dec i (index (tl r))) as [->|Ni]|].
              ** rewrite upd2_eq, <- El. unfold l'. 
                 destruct next; try match goal with |- context [if ?b then _ else _] => destruct b end;
                   repeat split; cbn; auto; discriminate.
              ** rewrite upd2_ne by auto. apply line_led_refl.
              ** rewrite upd2_ne by auto. apply line_led_refl.
           ++ intros t' j At Hj Dj.
              destruct (Nat.eq_dec j m) as [->|N]; [destruct (N.eq_dec (index t') (index (tl r))) as [Ei|Ni]|].
              ** right. right. apply holds_iff in Hj as (_ & Hj & _). rewrite Ei in Hj. fold L in Hj.
                 fold L in Dv. now rewrite Hj in Dv.
              ** left. unfold holds. rewrite upd2_ne by auto. now split.
              ** left. unfold holds. rewrite upd2_ne by auto. now split.
        -- intros t' _ _. left. now rewrite Vm.
        -- intros t' _. now rewrite Vm.
        -- exact Logic.I.
      * intros j i. rewrite issue_cache. cbn. rewrite lines_put. unfold L. now rewrite Ec.
      * intro j. rewrite views_issue. change (views (cache_to t m (put_line f (s_cache t m) (cur_addr r) l'))) with (views t).
        destruct (Nat.eq_dec j m) as [->|N]; [now rewrite !updn_eq|].
        rewrite !updn_ne by auto. now rewrite Ev, updn_ne by auto.
      * rewrite issue_mem. cbn. now rewrite Em.
  - injection H as <- <-. split; [exact Logic.I|]. exact I.
Qed.


Lemma tame_ok lb : label_ok tame lb -> label_ok (fun _ => op_ok f) lb.
Proof. destruct lb; cbn; auto. now intros [H _]. Qed.
Lemma tame_plain_l lb : label_ok tame lb -> label_ok (plain f) lb.
Proof. destruct lb; cbn; auto. apply tame_plain. Qed.
Lemma tame_start_l lb : label_ok tame lb -> label_ok (fun m o => tame_run m (mkRun o 0 [] false)) lb.
Proof. destruct lb; cbn; auto. apply tame_start. Qed.
Lemma tame_runs_plain s : runs_ok tame_run s -> ops_ok (plain f) s.
Proof. intros R m r E. apply tame_plain. now apply (R m r). Qed.

Lemma reads_latest_app w l1 l2 :
  reads_latest w l1 -> reads_latest (fold_left latest l1 w) l2 -> reads_latest w (l1 ++ l2).
Proof. revert w. induction l1 as [|e l1 IH]; intros w; cbn; auto. intros [H1 H2] H3. split; auto. Qed.

Lemma exec_data ls s s' es w :
  Forall (label_ok tame) ls -> exec f s ls = Some (s', es) ->
  InvO f s -> InvB f s -> runs_ok tame_run s -> todo_ok f s -> CohInv f s -> DInv s (w false) ->
  reads_latest w es /\ DInv s' (fold_left latest es w false).
Proof.
  revert s es w. induction ls as [|lb ls IH]; intros s es w HL H O B P T C I; cbn [exec] in H.
  - injection H as <- <-. split; [exact Logic.I|exact I].
  - inversion HL as [|? ? L1 L2]; subst. destruct (step f s lb) as [[s1 e1]|] eqn:E; [|discriminate].
    destruct (exec f s1 ls) as [[s2 e2]|] eqn:E2; [|discriminate]. injection H as <- <-.
    destruct (step_OB f s lb s1 e1 (tame_ok _ L1) E O B) as [O1 B1].
    destruct (step_data s lb s1 e1 w L1 E O P T C I) as [R1 D1].
    destruct (IH s1 e2 (fold_left latest e1 w)) as [R2 D2]; auto.
    + apply (step_ops f tame_run tame_adv tame_ex s lb s1 e1); auto. now apply tame_start_l.
    + eapply todo_step; eauto.
    + eapply step_coh; eauto; [now apply tame_plain_l|now apply tame_runs_plain].
    + split; [now apply reads_latest_app|]. now rewrite fold_left_app.
Qed.

Lemma init_data w d : DInv (init w d) (w false).
Proof.
  constructor.
  - discriminate.
  - discriminate.
  - intros j t H. apply holds_iff in H as (H & _). discriminate.
  - intros t _ _ _ o _. reflexivity.
  - intros m. exact Logic.I.
Qed.

End DataStep.
