(** The data invariant: every valid copy of a line, every answer a transaction
    has collected and, unless someone owns newer data, the memory hold the latest
    value of every byte. *)
From Verif Require Import Base TlmModel TlmSpec AceSpec AceModel AceFacts AceOrder AceCoherence AceCohStep.
Open Scope N_scope.

Definition writes (k : kind) : bool :=
  match k with K_WriteUnique | K_WriteLineUnique => true | _ => false end.
(** transactions that let the caches drop dirty data *)
Definition dropping (k : kind) (fin : bool) : bool :=
  match k with K_MakeUnique | K_MakeInvalid => true | K_WriteLineUnique => negb fin | _ => false end.

Section Data.
Context (f : cfg).
Notation cl := (cl f).
Notation index := (index f).
Notation tl := (tl f).

Implicit Types L : nat -> N -> line.
Implicit Types V : nat -> view.
Implicit Types M w : mem.

(** what a cache would answer for line [t] once its finished write has been
    copied into it *)
Definition own_data (v : view) (t : N) (l : line) : N -> N :=
  match v with
  | V_tx r k _ _ true => if writes k && (tl r =? t) then write_data f (l_data l) r else l_data l
  | _ => l_data l
  end.
(** no newer data in flight *)
Definition clean (v : view) (t : N) : Prop :=
  match v with
  | V_tx r k _ x fin => tl r = t -> x_dirty x = false /\ x_ds x = None /\ dropping k fin = false
  | _ => True
  end.
Definition same_on (t : N) (d : N -> N) w : Prop := forall o, o < cl -> d o = w (t + o).
Definition mem_on (t : N) M w : Prop := forall o, o < cl -> M (t + o) = w (t + o).

Definition dview L M w (m : nat) (v : view) : Prop :=
  match v with
  | V_tx r k _ x _ =>
    (forall d, x_data x = Some d -> same_on (tl r) d w) /\
    (forall d, x_ds x = Some d -> same_on (tl r) d w) /\
    (x_data x <> None -> reads k = true) /\
    ((forall j, (j < f_nm f)%nat -> f_wt f j = true) -> x_ds x = None) /\
    (writes k = true -> x_ok x = false)
  | V_wb r _ true => mem_on (l_tag (L m (index (tl r)))) M w
  | _ => True
  end.

Record InvD L V M w : Prop := {
  d_sec : forall j i, l_valid (L j i) = true -> l_sec (L j i) = false;
  d_wt : forall j i, f_wt f j = true -> l_valid (L j i) = true -> l_dirty (L j i) = false;
  d_line : forall j t, holds f L j false t -> same_on t (own_data (V j) t (L j (index t))) w;
  d_mem : forall t, align f t = t ->
            (forall j, holds f L j false t -> l_dirty (L j (index t)) = false) ->
            (forall m, clean (V m) t) -> mem_on t M w;
  d_view : forall m, dview L M w m (V m) }.

Lemma mem_on_dec t M w : (forall o, o < cl -> M (t + o) <> w (t + o) -> False) -> mem_on t M w.
Proof.
  intros H o Ho. destruct (N.eq_dec (M (t + o)) (w (t + o))) as [E|E]; [exact E|]. destruct (H o Ho E).
Qed.

Lemma dview_lines L L' M w m v :
  (forall i, l_tag (L' m i) = l_tag (L m i)) -> dview L M w m v -> dview L' M w m v.
Proof. intros E. destruct v as [| | |r k []]; cbn; auto. now rewrite E. Qed.

(** ** Views change *)
Lemma D_view L V M w m v :
  InvD L V M w ->
  (forall t, align f t = t -> clean v t -> clean (V m) t \/ mem_on t M w \/
     exists j, holds f L j false t /\ l_dirty (L j (index t)) = true) ->
  (forall t, holds f L m false t -> own_data v t (L m (index t)) = own_data (V m) t (L m (index t))) ->
  dview L M w m v ->
  InvD L (updn V m v) M w.
Proof.
  intros I Hc Ho Hv. constructor.
  - apply (d_sec _ _ _ _ I).
  - apply (d_wt _ _ _ _ I).
  - intros j t H. destruct (Nat.eq_dec j m) as [->|N].
    + rewrite updn_eq, Ho by exact H. now apply (d_line _ _ _ _ I).
    + rewrite updn_ne by auto. now apply (d_line _ _ _ _ I).
  - intros t At Hd Hcl. pose proof (Hcl m) as C. rewrite updn_eq in C.
    destruct (Hc t At C) as [C'|[C'|(j & H1 & H2)]].
    + apply (d_mem _ _ _ _ I t At Hd). intro i. destruct (Nat.eq_dec i m) as [->|N]; [exact C'|].
      pose proof (Hcl i) as X. now rewrite updn_ne in X by auto.
    + exact C'.
    + rewrite Hd in H2 by exact H1. discriminate.
  - intro i. destruct (Nat.eq_dec i m) as [->|N]; [now rewrite updn_eq|].
    rewrite updn_ne by auto. apply (d_view _ _ _ _ I).
Qed.

(** ** Lines get weaker *)
Definition line_led (l' l : line) : Prop :=
  l_tag l' = l_tag l /\ l_sec l' = l_sec l /\
  (l_valid l' = true -> l_valid l = true /\ (l_dirty l' = true -> l_dirty l = true) /\ l_data l' = l_data l).
Lemma line_led_refl l : line_led l l.
Proof. repeat split; auto. Qed.

Lemma own_data_eq v t l l' : l_data l' = l_data l -> own_data v t l' = own_data v t l.
Proof. intro E. destruct v as [| |r k td x []|]; cbn; rewrite ?E; reflexivity. Qed.

Lemma D_lines L L' V M w :
  InvD L V M w ->
  (forall j i, line_led (L' j i) (L j i)) ->
  (forall t j, align f t = t -> holds f L j false t -> l_dirty (L j (index t)) = true ->
     (holds f L' j false t /\ l_dirty (L' j (index t)) = true) \/
     (exists m, ~ clean (V m) t) \/ mem_on t M w) ->
  InvD L' V M w.
Proof.
  intros I E Hl.
  assert (Hh : forall j t, holds f L' j false t -> holds f L j false t).
  { intros j t. rewrite !holds_iff. destruct (E j (index t)) as (E1 & E2 & E3). rewrite E1, E2.
    intros (X1 & X2 & X3). split; [now apply E3|auto]. }
  constructor.
  - intros j i Hv. destruct (E j i) as (E1 & E2 & E3). rewrite E2. apply (d_sec _ _ _ _ I). now apply E3.
  - intros j i W Hv. destruct (E j i) as (E1 & E2 & E3). destruct (E3 Hv) as (V1 & V3 & _).
    destruct (l_dirty (L' j i)) eqn:D; [|reflexivity].
    pose proof (d_wt _ _ _ _ I j i W V1) as X. rewrite (V3 eq_refl) in X. discriminate.
  - intros j t H. destruct (E j (index t)) as (_ & _ & E4).
    assert (Hv : l_valid (L' j (index t)) = true) by (apply holds_iff in H; tauto).
    rewrite (own_data_eq _ t (L j (index t))) by (now apply E4). apply (d_line _ _ _ _ I). auto.
  - intros t At Hd Hc. apply mem_on_dec. intros o Ho Ne. apply Ne.
    apply (d_mem _ _ _ _ I t At); auto. intros j H.
    destruct (l_dirty (L j (index t))) eqn:D; [|reflexivity]. exfalso.
    destruct (Hl t j At H D) as [[H1 H2]|[(m & Hm)|Hm]].
    + rewrite Hd in H2 by exact H1. discriminate.
    + now apply Hm.
    + apply Ne. now apply Hm.
  - intro m. apply (dview_lines L); [|apply (d_view _ _ _ _ I)]. intro i. now destruct (E m i) as (E1 & _).
Qed.

(** ** A line is written to memory *)
Lemma put_line_on M t d w : same_on t d w -> mem_on t (put_mem_line f M t d) w.
Proof.
  intros H o Ho. unfold put_mem_line.
  replace ((t <=? t + o) && (t + o <? t + cl)) with true by (symmetry; apply andb_true_intro; lia).
  replace (t + o - t) with o by lia. now apply H.
Qed.
Lemma put_line_off M t d t' o :
  align f t = t -> align f t' = t' -> t <> t' -> o < cl -> put_mem_line f M t d (t' + o) = M (t' + o).
Proof.
  intros A A' N Ho. unfold put_mem_line. destruct (andb _ _) eqn:C; [|reflexivity]. exfalso.
  apply andb_prop in C as [C1 C2]. apply N.leb_le in C1. apply N.ltb_lt in C2.
  apply (lines_disjoint f t t' (t' + o)); auto; lia.
Qed.
Lemma put_mem_on M t d t' w :
  align f t = t -> align f t' = t' -> same_on t d w -> mem_on t' M w -> mem_on t' (put_mem_line f M t d) w.
Proof.
  intros A A' Hd H. destruct (N.eq_dec t t') as [<-|N]; [now apply put_line_on|].
  intros o Ho. rewrite put_line_off by auto. now apply H.
Qed.

Lemma D_memline L V M w t d :
  InvD L V M w -> align f t = t -> same_on t d w ->
  (forall m r k, V m = V_wb r k true -> align f (l_tag (L m (index (tl r)))) = l_tag (L m (index (tl r)))) ->
  InvD L V (put_mem_line f M t d) w.
Proof.
  intros I At Hd Hw. constructor.
  - apply (d_sec _ _ _ _ I).
  - apply (d_wt _ _ _ _ I).
  - apply (d_line _ _ _ _ I).
  - intros t' At' H1 H2. destruct (N.eq_dec t t') as [<-|N]; [now apply put_line_on|].
    intros o Ho. rewrite put_line_off by auto. now apply (d_mem _ _ _ _ I).
  - intro m. pose proof (d_view _ _ _ _ I m) as Hv. pose proof (Hw m) as Hw'.
    destruct (V m) as [| | |r k []]; cbn in *; auto.
    apply put_mem_on; auto. eauto.
Qed.

(** ** A new value is written into one cache line *)
Lemma D_write L V M w w' m t l :
  base f L -> InvD L V M w -> align f t = t ->
  f_wt f m = false ->
  l_valid l = true -> l_tag l = t -> l_sec l = false -> l_dirty l = true -> same_on t (l_data l) w' ->
  (l_valid (L m (index t)) = true -> l_tag (L m (index t)) = t) ->
  (forall j, j <> m -> ~ holds f L j false t) ->
  (forall j r k todo x fin, j <> m -> V j = V_tx r k todo x fin -> tl r = t -> x_data x = None /\ x_ds x = None) ->
  (V m = V_none \/ exists r k todo x fin, V m = V_tx r k todo x fin /\ tl r = t /\ writes k = false) ->
  (forall j r k, V j = V_wb r k true -> l_valid (L j (index (tl r))) = true) ->
  (forall t', align f t' = t' -> t' <> t -> forall o, o < cl -> w' (t' + o) = w (t' + o)) ->
  InvD (upd2 L m (index t) l) (updn V m V_none) M w'.
Proof.
  intros B I At Wm Lv Lt Ls Ld Ldat Hslot Hno Htx Hm Hwb Hoff.
  assert (Al : forall j t', holds f L j false t' -> align f t' = t').
  { intros j t' H. apply holds_iff in H as (H1 & H2 & _). destruct (b_tag _ _ B j _ H1) as [_ X].
    now rewrite H2 in X. }
  assert (Hh : forall j t', t' <> t -> holds f (upd2 L m (index t) l) j false t' ->
     holds f L j false t' /\ upd2 L m (index t) l j (index t') = L j (index t')).
  { intros j t' N H. apply holds_upd in H as [(-> & _ & _ & E & _)|(Q & H)]; [congruence|].
    split; [exact H|now apply upd2_ne]. }
  assert (Hh' : forall j t', t' <> t -> holds f L j false t' ->
     holds f (upd2 L m (index t) l) j false t' /\ upd2 L m (index t) l j (index t') = L j (index t')).
  { intros j t' N H. assert (Q : j <> m \/ index t' <> index t).
    { destruct (Nat.eq_dec j m) as [->|Nj]; [right|now left]. intro Ei.
      apply holds_iff in H as (H1 & H2 & _). rewrite Ei in H1, H2. rewrite (Hslot H1) in H2. congruence. }
    split; [|now apply upd2_ne]. unfold holds. now rewrite upd2_ne. }
  assert (Ht : holds f (upd2 L m (index t) l) m false t).
  { apply holds_iff. rewrite upd2_eq. auto. }
  constructor.
  - intros j i H. destruct (Nat.eq_dec j m) as [->|N]; [destruct (N.eq_dec i (index t)) as [->|Ni]|].
    + now rewrite upd2_eq.
    + rewrite upd2_ne in * by auto. now apply (d_sec _ _ _ _ I).
    + rewrite upd2_ne in * by auto. now apply (d_sec _ _ _ _ I).
  - intros j i W H. destruct (Nat.eq_dec j m) as [->|N]; [congruence|].
    rewrite upd2_ne in * by auto. now apply (d_wt _ _ _ _ I).
  - intros j t' H. destruct (N.eq_dec t' t) as [->|Nt].
    + destruct (Nat.eq_dec j m) as [->|N].
      * rewrite upd2_eq, updn_eq. exact Ldat.
      * exfalso. apply holds_upd in H as [(-> & _)|(_ & H)]; [congruence|]. now apply (Hno j).
    + destruct (Hh j t' Nt H) as [H' E]. rewrite E.
      assert (Eo : own_data (updn V m V_none j) t' (L j (index t')) = own_data (V j) t' (L j (index t'))).
      { destruct (Nat.eq_dec j m) as [->|N]; [|now rewrite updn_ne by auto].
        rewrite updn_eq. destruct Hm as [->|(r & k & td & x & fin & -> & _ & Wk)]; [reflexivity|].
        cbn. destruct fin; [|reflexivity]. now rewrite Wk. }
      rewrite Eo. intros o Ho. rewrite Hoff by eauto. now apply (d_line _ _ _ _ I).
  - intros t' At' Hd Hc. destruct (N.eq_dec t' t) as [->|Nt].
    + exfalso. pose proof (Hd m Ht) as X. rewrite upd2_eq in X. congruence.
    + intros o Ho. rewrite Hoff by auto. apply (d_mem _ _ _ _ I); auto.
      * intros j H. destruct (Hh' j t' Nt H) as [H' E]. rewrite <- E. now apply Hd.
      * intro j. destruct (Nat.eq_dec j m) as [->|N].
        -- destruct Hm as [->|(r & k & td & x & fin & -> & Et & _)]; [exact Logic.I|]. cbn. intro. congruence.
        -- pose proof (Hc j) as X. now rewrite updn_ne in X by auto.
  - intro j. destruct (Nat.eq_dec j m) as [->|N]; [rewrite updn_eq; exact Logic.I|].
    rewrite updn_ne by auto. pose proof (d_view _ _ _ _ I j) as X.
    destruct (V j) as [|r k|r k td x fin|r k []] eqn:Vj; cbn in *; auto.
    + destruct X as (X1 & X2 & X3 & X4 & X5).
      destruct (N.eq_dec (tl r) t) as [Et|Nt].
      * destruct (Htx j r k td x fin N Vj Et) as [D1 D2]. rewrite D1, D2.
        split; [discriminate|]. split; [discriminate|]. split; [congruence|]. split; [congruence|]. apply X5.
      * assert (G : forall d, same_on (tl r) d w -> same_on (tl r) d w').
        { intros d H o Ho. rewrite Hoff; auto. apply align_align. }
        repeat split; auto.
    + rewrite upd2_ne by auto. set (lj := L j (index (tl r))) in *.
      pose proof (Hwb j r k Vj) as Lj.
      destruct (b_tag _ _ B j _ Lj) as [Ei Ea]. fold lj in Ei, Ea.
      assert (Nt : l_tag lj <> t).
      { intro Et. apply (Hno j N). apply holds_iff. rewrite <- Et, Ei. fold lj. 
        split; [exact Lj|]. split; [reflexivity|]. now apply (d_sec _ _ _ _ I). }
      intros o Ho. rewrite Hoff by auto. now apply X.
Qed.

(** ** A write-through store reaches the memory *)
Lemma D_through L V M w m r k x :
  base f L -> InvD L V M w ->
  V m = V_tx r k [] x false -> writes k = true ->
  (k = K_WriteLineUnique -> seg_len f r = cl /\ no_sparse f r = true) ->
  x_dirty x = false -> x_ds x = None -> 
  (forall j, j <> m -> ~ holds f L j false (tl r)) ->
  (forall j r' k' todo x' fin, j <> m -> V j = V_tx r' k' todo x' fin -> tl r' = tl r ->
     x_data x' = None /\ x_ds x' = None) ->
  (forall j r k, V j = V_wb r k true -> l_valid (L j (index (tl r))) = true) ->
  let p := write_piece f r in
  InvD L (updn V m (V_tx r k [] x true)) (fold_left put p M) (fold_left put p w).
Proof.
  intros B I Vm Wk Full Xd Xs Hno Htx Hwb p.
  assert (Al : forall j t', holds f L j false t' -> align f t' = t').
  { intros j t' H. apply holds_iff in H as (H1 & H2 & _). destruct (b_tag _ _ B j _ H1) as [_ X].
    now rewrite H2 in X. }
  assert (Hoff : forall (u : mem) t', align f t' = t' -> t' <> tl r -> forall o, o < cl ->
     fold_left put p u (t' + o) = u (t' + o)).
  { intros u t' A N o Ho. unfold p. now apply piece_other. }
  assert (Hnd : x_data x = None).
  { destruct (x_data x) eqn:E; [|reflexivity]. pose proof (d_view _ _ _ _ I m) as X. rewrite Vm in X.
    destruct X as (_ & _ & X & _). rewrite E in X. destruct k; try discriminate; specialize (X ltac:(discriminate)); discriminate. }
  constructor.
  - apply (d_sec _ _ _ _ I).
  - apply (d_wt _ _ _ _ I).
  - intros j t H. pose proof (d_line _ _ _ _ I j t H) as D. destruct (N.eq_dec t (tl r)) as [->|Nt].
    + destruct (Nat.eq_dec j m) as [->|N]; [|exfalso; now apply (Hno j)].
      rewrite updn_eq. rewrite Vm in D. cbn in D |- *. rewrite Wk, N.eqb_refl. cbn [andb].
      intros o Ho. unfold p. apply piece_line; auto.
    + assert (Eo : own_data (updn V m (V_tx r k [] x true) j) t (L j (index t)) = own_data (V j) t (L j (index t))).
      { destruct (Nat.eq_dec j m) as [->|N]; [|now rewrite updn_ne by auto].
        rewrite updn_eq, Vm. cbn. destruct (N.eqb_spec (tl r) t); [congruence|]. now rewrite andb_false_r. }
      rewrite Eo. intros o Ho. rewrite Hoff by eauto. now apply D.
  - intros t At Hd Hc. destruct (N.eq_dec t (tl r)) as [->|Nt].
    + assert (Hp : k = K_WriteLineUnique \/ mem_on (tl r) M w).
      { destruct k; try discriminate; [right|now left].
        apply (d_mem _ _ _ _ I); auto. intro j. destruct (Nat.eq_dec j m) as [->|N].
        - rewrite Vm. cbn. auto.
        - pose proof (Hc j) as X. now rewrite updn_ne in X by auto. }
      intros o Ho. destruct Hp as [->|Hp].
      * destruct (Full eq_refl) as [F1 F2].
        assert (X : forall u : mem, fold_left put p u (tl r + o) = write_data f (fun _ => 0) r o).
        { intro u. unfold p. rewrite <- (piece_line f r (fun i => u (tl r + i)) u); auto. now apply piece_full. }
        now rewrite !X.
      * assert (X : forall u : mem, fold_left put p u (tl r + o) = write_data f (fun i => u (tl r + i)) r o).
        { intro u. unfold p. symmetry. now apply piece_line. }
        rewrite !X. unfold write_data. now rewrite (Hp o Ho).
    + intros o Ho. rewrite !Hoff by auto. apply (d_mem _ _ _ _ I); auto. intro j.
      destruct (Nat.eq_dec j m) as [->|N].
      * rewrite Vm. cbn. intro. congruence.
      * pose proof (Hc j) as X. now rewrite updn_ne in X by auto.
  - intro j. pose proof (d_view _ _ _ _ I j) as X. destruct (Nat.eq_dec j m) as [->|N].
    + rewrite updn_eq. rewrite Vm in X. cbn in *. rewrite Hnd, Xs. 
      split; [discriminate|]. split; [discriminate|]. split; [congruence|]. split; [congruence|]. apply X.
    + rewrite updn_ne by auto. destruct (V j) as [|r' k'|r' k' td x' fin|r' k' []] eqn:Vj; cbn in *; auto.
      * destruct X as (X1 & X2 & X3 & X4 & X5). destruct (N.eq_dec (tl r') (tl r)) as [Et|Nt].
        -- destruct (Htx j _ _ _ _ _ N Vj Et) as [D1 D2]. rewrite D1, D2.
           split; [discriminate|]. split; [discriminate|]. split; [congruence|]. split; [congruence|]. apply X5.
        -- assert (G : forall d, same_on (tl r') d w -> same_on (tl r') d (fold_left put p w)).
           { intros d H o Ho. rewrite Hoff; auto. apply align_align. }
           repeat split; auto.
      * set (lj := L j (index (tl r'))) in *. pose proof (Hwb j r' k' Vj) as Lj.
        destruct (b_tag _ _ B j _ Lj) as [Ei Ea]. fold lj in Ei, Ea.
        assert (Nt : l_tag lj <> tl r).
        { intro Et. apply (Hno j N). apply holds_iff. rewrite <- Et, Ei. fold lj.
          split; [exact Lj|]. split; [reflexivity|]. now apply (d_sec _ _ _ _ I). }
        intros o Ho. rewrite !Hoff by auto. now apply X.
Qed.

(** ** A line is filled *)
Lemma D_fill L V M w m t l :
  base f L -> InvD L V M w -> 
  l_valid (L m (index t)) = false ->
  l_tag l = t -> l_sec l = false -> (f_wt f m = true -> l_dirty l = false) -> same_on t (l_data l) w ->
  (forall l', own_data (V m) t l' = l_data l') ->
  (forall r k, V m = V_wb r k true -> False) ->
  InvD (upd2 L m (index t) l) V M w.
Proof.
  intros B I Hi Lt Ls Lw Ldat Ho Hw.
  assert (Hh : forall j t', holds f L j false t' ->
     holds f (upd2 L m (index t) l) j false t' /\ upd2 L m (index t) l j (index t') = L j (index t')).
  { intros j t' H. assert (Q : j <> m \/ index t' <> index t).
    { destruct (Nat.eq_dec j m) as [->|Nj]; [right|now left]. intro Ei.
      apply holds_iff in H as (H1 & _). rewrite Ei in H1. congruence. }
    split; [|now apply upd2_ne]. unfold holds. now rewrite upd2_ne. }
  constructor.
  - intros j i H. destruct (Nat.eq_dec j m) as [->|N]; [destruct (N.eq_dec i (index t)) as [->|Ni]|].
    + now rewrite upd2_eq.
    + rewrite upd2_ne in * by auto. now apply (d_sec _ _ _ _ I).
    + rewrite upd2_ne in * by auto. now apply (d_sec _ _ _ _ I).
  - intros j i W H. destruct (Nat.eq_dec j m) as [->|N]; [destruct (N.eq_dec i (index t)) as [->|Ni]|].
    + rewrite upd2_eq. auto.
    + rewrite upd2_ne in * by auto. now apply (d_wt _ _ _ _ I).
    + rewrite upd2_ne in * by auto. now apply (d_wt _ _ _ _ I).
  - intros j t' H. apply holds_upd in H as [(-> & Ei & _ & Et & _)|(Q & H)].
    + assert (t' = t) as -> by congruence. rewrite upd2_eq, Ho. exact Ldat.
    + rewrite upd2_ne by exact Q. now apply (d_line _ _ _ _ I).
  - intros t' At Hd Hc. apply (d_mem _ _ _ _ I t' At); auto.
    intros j H. destruct (Hh j t' H) as [H' E]. rewrite <- E. now apply Hd.
  - intro j. pose proof (d_view _ _ _ _ I j) as X. destruct (Nat.eq_dec j m) as [->|N].
    + destruct (V m) as [| | |r k []] eqn:Vm; cbn in *; auto. exfalso. eauto.
    + apply (dview_lines L); auto. intro i. now rewrite upd2_ne by auto.
Qed.

(** ** A write-through line takes over the bytes just written *)
Lemma D_own L V M w m r k todo x l :
  base f L -> InvD L V M w ->
  V m = V_tx r k todo x true -> writes k = true ->
  holds f L m false (tl r) ->
  l_valid l = true -> l_tag l = tl r -> l_sec l = false -> l_dirty l = false -> 
  l_dirty (L m (index (tl r))) = false ->
  l_data l = write_data f (l_data (L m (index (tl r)))) r ->
  clean (V m) (tl r) ->
  InvD (upd2 L m (index (tl r)) l) (updn V m V_none) M w.
Proof.
  intros B I Vm Wk Hm Lv Lt Ls Ld Lo Ldat Cm.
  assert (Hh : forall j t', holds f L j false t' ->
     holds f (upd2 L m (index (tl r)) l) j false t' /\
     (l_dirty (upd2 L m (index (tl r)) l j (index t')) = l_dirty (L j (index t')))).
  { intros j t' H. destruct (Nat.eq_dec j m) as [->|N]; [destruct (N.eq_dec (index t') (index (tl r))) as [Ei|Ni]|].
    - assert (t' = tl r).
      { apply holds_iff in H as (_ & H & _). apply holds_iff in Hm as (_ & Hm & _). rewrite Ei in H. congruence. }
      subst t'. rewrite upd2_eq. split; [|congruence]. apply holds_iff. rewrite upd2_eq. auto.
    - unfold holds. now rewrite upd2_ne by auto.
    - unfold holds. now rewrite upd2_ne by auto. }
  constructor.
  - intros j i H. destruct (Nat.eq_dec j m) as [->|N]; [destruct (N.eq_dec i (index (tl r))) as [->|Ni]|].
    + now rewrite upd2_eq.
    + rewrite upd2_ne in * by auto. now apply (d_sec _ _ _ _ I).
    + rewrite upd2_ne in * by auto. now apply (d_sec _ _ _ _ I).
  - intros j i W H. destruct (Nat.eq_dec j m) as [->|N]; [destruct (N.eq_dec i (index (tl r))) as [->|Ni]|].
    + now rewrite upd2_eq.
    + rewrite upd2_ne in * by auto. now apply (d_wt _ _ _ _ I).
    + rewrite upd2_ne in * by auto. now apply (d_wt _ _ _ _ I).
  - intros j t' H. apply holds_upd in H as [(-> & Ei & _ & Et & _)|(Q & H)].
    + assert (t' = tl r) as -> by congruence. rewrite upd2_eq, updn_eq. cbn. rewrite Ldat.
      pose proof (d_line _ _ _ _ I m (tl r) Hm) as D. rewrite Vm in D. cbn in D. now rewrite Wk, N.eqb_refl in D.
    + rewrite upd2_ne by exact Q. pose proof (d_line _ _ _ _ I j t' H) as D.
      destruct (Nat.eq_dec j m) as [->|N]; [|now rewrite updn_ne by auto].
      rewrite updn_eq. rewrite Vm in D. cbn in D.
      destruct (N.eqb_spec (tl r) t') as [Et|Nt]; [|now rewrite andb_false_r in D].
      exfalso. subst t'. destruct Q; congruence.
  - intros t' At Hd Hc. apply (d_mem _ _ _ _ I t' At).
    + intros j H. destruct (Hh j t' H) as [H' E]. rewrite <- E. now apply Hd.
    + intro j. destruct (Nat.eq_dec j m) as [->|N].
      * destruct (N.eq_dec (tl r) t') as [<-|Nt]; [exact Cm|]. rewrite Vm. cbn. intro. congruence.
      * pose proof (Hc j) as X. now rewrite updn_ne in X by auto.
  - intro j. destruct (Nat.eq_dec j m) as [->|N]; [rewrite updn_eq; exact Logic.I|].
    rewrite updn_ne by auto. apply (dview_lines L); [|apply (d_view _ _ _ _ I)].
    intro i. now rewrite upd2_ne by auto.
Qed.

Lemma InvD_ext L L' V V' M M' w w' :
  (forall j i, L' j i = L j i) -> (forall j, V' j = V j) ->
  (forall a, M' a = M a) -> (forall a, w' a = w a) ->
  InvD L V M w -> InvD L' V' M' w'.
Proof.
  intros EL EV EM Ew I.
  assert (Es : forall t d, same_on t d w -> same_on t d w') by (intros t d H o Ho; rewrite Ew; auto).
  assert (Em : forall t, mem_on t M w -> mem_on t M' w') by (intros t H o Ho; rewrite EM, Ew; auto).
  assert (Eh : forall j s t, holds f L' j s t <-> holds f L j s t) by (intros; unfold holds; now rewrite EL).
  constructor.
  - intros j i. rewrite EL. apply (d_sec _ _ _ _ I).
  - intros j i. rewrite EL. apply (d_wt _ _ _ _ I).
  - intros j t H. rewrite EL, EV. apply Es. apply (d_line _ _ _ _ I). now apply Eh.
  - intros t At H1 H2. apply Em. apply (d_mem _ _ _ _ I t At).
    + intros j H. rewrite <- EL. apply H1. now apply Eh.
    + intro m. rewrite <- EV. apply H2.
  - intro m. rewrite EV. pose proof (d_view _ _ _ _ I m) as X.
    destruct (V m) as [| |r k td x fin|r k []]; cbn in *; auto.
    + destruct X as (X1 & X2 & X3 & X4 & X5). repeat split; auto.
    + rewrite EL. auto.
Qed.

End Data.
