From Verif Require Import Base BaseFacts TlmModel TlmSpec TlmFacts ExmonModel ExmonSpec.
Open Scope N_scope.

(** One transaction: effect on the monitor and the downstream answer. *)
Definition answer {S} mask (t : target S) (ms : list mentry * S) (o : xop) : option status :=
  match snd (snd (fst (exmon_transport mask (recording t) (fst ms, (snd ms, [])) o))) with
  | [] => None | e :: _ => Some (snd e) end.

Ltac xcases t s o m mask :=
  unfold exmon_transport, recording; cbn [fst snd];
  destruct (g_cmd (xo_gp o)) eqn:?; destruct (x_exclusive o) eqn:?;
  try destruct (is_monitored mask m o) eqn:?;
  destruct (t s (xo_gp o)) as [? [? ?]] eqn:?; cbn [fst snd app];
  try match goal with |- context [match ?st with St_OK => _ | _ => _ end] =>
    is_var st; destruct st end; cbn [fst snd app].

Lemma history_cons {S} mask (t : target S) ms o ops :
  history mask t ms (o :: ops) =
    (o, answer mask t ms o) :: history mask t (fst (exmon_transport mask t ms o)) ops.
Proof.
  destruct ms as [m s]. cbn [history]. unfold answer. cbn [fst snd].
  assert (E : forall x, 
     x = exmon_transport mask (recording t) (m, (s, [])) o ->
     fst (exmon_transport mask t (m, s) o) = (fst (fst x), fst (snd (fst x)))).
  { intros x ->. xcases t s o m mask; reflexivity. }
  specialize (E _ eq_refl).
  destruct (exmon_transport mask (recording t) (m, (s, [])) o) as [[m1 sl] r] eqn:X.
  cbn [fst snd] in *. rewrite E. reflexivity.
Qed.

(** The monitor holds at most one entry per id. *)
Definition unique_ids (m : list mentry) := NoDup (map me_id m).

Lemma clear_id_In m id x : unique_ids m ->
  (In x (clear_id m id) <-> In x m /\ me_id x <> id).
Proof.
  unfold unique_ids. induction m as [|e m IH]; intros H; cbn [clear_id].
  - cbn. tauto.
  - cbn [map] in H. inversion H as [|? ? Hn Hd]; subst.
    destruct (N.eqb_spec (me_id e) id) as [E|E].
    + split.
      * intros I1. split; [right; exact I1|]. intros E'. apply Hn. rewrite E, <- E'.
        apply in_map, I1.
      * intros [[->|I1] I2]; [contradiction|exact I1].
    + cbn [In]. rewrite (IH Hd). split.
      * intros [<-|[I1 I2]]; auto.
      * intros [[->|I1] I2]; auto.
Qed.

Lemma clear_id_ids m id : forall y, In y (map me_id (clear_id m id)) -> In y (map me_id m).
Proof.
  induction m as [|e m IH]; intros y; cbn [clear_id]; [auto|].
  destruct (me_id e =? id); cbn; [auto|]. intros [H|H]; auto.
Qed.

Lemma clear_id_unique m id : unique_ids m -> unique_ids (clear_id m id).
Proof.
  unfold unique_ids. induction m as [|e m IH]; intros H; cbn [clear_id]; [constructor|].
  cbn [map] in H. inversion H as [|? ? Hn Hd]; subst.
  destruct (me_id e =? id); [exact Hd|]. cbn. constructor; auto.
  intros I1. apply Hn. eapply clear_id_ids; eauto.
Qed.

Lemma filter_unique p m : unique_ids m -> unique_ids (filter p m).
Proof.
  unfold unique_ids. induction m as [|e m IH]; intros H; cbn [filter]; [constructor|].
  cbn [map] in H. inversion H as [|? ? Hn Hd]; subst.
  destruct (p e); [|auto]. cbn. constructor; auto.
  intros I1. apply Hn. apply in_map_iff in I1 as [x [<- I2]].
  apply filter_In in I2 as [I2 _]. apply in_map, I2.
Qed.

Lemma NoDup_snoc {A} (l : list A) x : NoDup l -> ~ In x l -> NoDup (l ++ [x]).
Proof.
  intros H Hn. induction H as [|y l Hy Hl IH]; cbn; [constructor; auto; constructor|].
  constructor.
  - rewrite in_app_iff. cbn. intros [I1|[I1|[]]]; [auto|]. apply Hn. left. symmetry. exact I1.
  - apply IH. intros I1. apply Hn. right. exact I1.
Qed.

Lemma reserved_snoc hits mask h e id a l :
  reserved hits mask (h ++ [e]) id a l <->
  opens mask e id a l \/
  (reserved hits mask h id a l /\
   ~ (written e /\ hits (xo_gp (fst e)) a l) /\ ~ exists a' l', opens mask e id a' l').
Proof.
  split.
  - intros [b [x [af [E [Ho F]]]]].
    destruct (exists_last (l := x :: af)) as [init [z Ez]]; [discriminate|].
    rewrite Ez, app_assoc in E. apply app_inj_tail in E as [E1 E2]. subst z.
    destruct init as [|y init].
    + cbn in Ez. injection Ez as -> ->. left. exact Ho.
    + cbn in Ez. injection Ez as -> ->. right.
      apply Forall_app in F as [F1 F2]. inversion F2 as [|? ? [F3 F4] _]; subst.
      split; [|split; assumption]. exists b, y, init. auto.
  - intros [Ho|[[b [x [af [E [Ho F]]]]] [N1 N2]]].
    + exists h, e, []. auto.
    + exists b, x, (af ++ [e]). subst h. rewrite <- app_assoc. split; [reflexivity|].
      split; [exact Ho|]. apply Forall_app. split; [exact F|]. constructor; auto.
Qed.

Definition inv (mask : N) (h : list event) (m : list mentry) : Prop :=
  unique_ids m /\
  (forall e, In e m -> me_addr e + me_len e < u64) /\
  forall id a l, In (mkMe a l id) m <-> reserved starts_inside mask h id a l.

Lemma has_location_spec e g : me_addr e + me_len e < u64 ->
  has_location e g = true <-> starts_inside g (me_addr e) (me_len e).
Proof.
  intros H. unfold has_location, starts_inside. rewrite N.mod_small by exact H.
  rewrite andb_true_iff, N.leb_le, N.ltb_lt. tauto.
Qed.

Lemma inv_closed mask h m o st :
  inv mask h m ->
  g_cmd (xo_gp o) = C_WRITE -> st <> None ->
  inv mask (h ++ [(o, st)]) (clear_locations m (xo_gp o)).
Proof.
  intros [I1 [I2 I3]] Hc Hst. split; [apply filter_unique, I1|]. split.
  { intros e He. apply filter_In in He as [He _]. auto. }
  intros id a l. unfold clear_locations. rewrite filter_In, reserved_snoc.
  assert (No : forall id a l, ~ opens mask (o, st) id a l).
  { intros ? ? ? [H _]. cbn in H. congruence. }
  split.
  - intros [Hin Hn]. right. split; [apply I3, Hin|].
    apply negb_true_iff in Hn.
    split; [|intros [a' [l' H]]; eapply No; eauto].
    intros [_ Hh]. cbn [fst] in Hh. apply (has_location_spec (mkMe a l id)) in Hh; [congruence|].
    apply (I2 _ Hin).
  - intros [H|[Hr [Hw _]]]; [exfalso; eapply No; eauto|].
    apply I3 in Hr. split; [exact Hr|]. apply negb_true_iff.
    destruct (has_location (mkMe a l id) (xo_gp o)) eqn:E; [|reflexivity].
    exfalso. apply Hw. split; [split; [exact Hc|exact Hst]|].
    apply (has_location_spec (mkMe a l id)) in E; [exact E|]. apply (I2 _ Hr).
Qed.

Lemma inv_same mask h m o st :
  inv mask h m ->
  ~ written (o, st) -> (forall id a l, ~ opens mask (o, st) id a l) ->
  inv mask (h ++ [(o, st)]) m.
Proof.
  intros [I1 [I2 I3]] Hw Ho. split; [exact I1|]. split; [exact I2|].
  intros id a l. rewrite I3, reserved_snoc. split.
  - intros H. right. split; [exact H|]. split; [tauto|]. intros [a' [l' H']]. eapply Ho; eauto.
  - intros [H|[H _]]; [exfalso; eapply Ho; eauto|exact H].
Qed.

Lemma inv_open mask h m o x :
  inv mask h m -> xop_ok o ->
  g_cmd (xo_gp o) = C_READ -> xo_attr o = Some x -> xa_excl x = true ->
  inv mask (h ++ [(o, Some St_OK)]) (monitor_location mask m o).
Proof.
  intros [I1 [I2 I3]] [_ Hok] Hc Hx Hex. unfold monitor_location. rewrite Hx.
  set (nid := N.land (xa_id x) mask).
  assert (Ho : forall id a l, opens mask (o, Some St_OK) id a l <->
            id = nid /\ a = g_addr (xo_gp o) /\ l = g_len (xo_gp o)).
  { intros id a l. unfold opens. cbn [fst snd]. split.
    - intros [_ [_ [<- [<- [y [Hy [_ <-]]]]]]]. rewrite Hx in Hy. injection Hy as <-. auto.
    - intros [-> [-> ->]]. repeat split; auto. exists x. auto. }
  split.
  { unfold unique_ids. rewrite map_app. cbn. apply NoDup_snoc.
    - apply clear_id_unique, I1.
    - intros Hin. apply in_map_iff in Hin as [e [E Hin]].
      apply clear_id_In in Hin as [_ Hne]; [|exact I1]. contradiction. }
  split.
  { intros e He. apply in_app_iff in He as [He|[<-|[]]]; [|exact Hok].
    apply clear_id_In in He as [He _]; [|exact I1]. auto. }
  intros id a l. rewrite in_app_iff, reserved_snoc, Ho, clear_id_In by exact I1. cbn [In me_id].
  split.
  - intros [[Hin Hne]|[E|[]]].
    + right. split; [apply I3, Hin|]. split; [intros [[Hw _] _]; cbn in Hw; congruence|].
      intros [a' [l' Ho']]. apply Ho in Ho' as [E _]. contradiction.
    + left. injection E as <- <- <-. auto.
  - intros [[-> [-> ->]]|[Hr [_ Hn]]].
    + right. left. reflexivity.
    + left. split; [apply I3, Hr|]. intros ->. apply Hn.
      exists (g_addr (xo_gp o)), (g_len (xo_gp o)). apply Ho. auto.
Qed.

Lemma excl_attr o : x_exclusive o = true -> exists x, xo_attr o = Some x /\ xa_excl x = true.
Proof. unfold x_exclusive. destruct (xo_attr o) as [x|]; [|discriminate]. eauto. Qed.

Lemma step_inv {S} mask (t : target S) h m s o :
  inv mask h m -> xop_ok o ->
  inv mask (h ++ [(o, answer mask t (m, s) o)]) (fst (fst (exmon_transport mask t (m, s) o))).
Proof.
  intros Hi Hok. unfold answer. xcases t s o m mask;
    try (apply inv_closed; auto; discriminate);
    try (apply inv_same; [exact Hi|intros [Hw1 Hw2]; cbn in *; congruence|
         intros ? ? ? [Ho1 [Ho2 [_ [_ [y [Hy [Hz _]]]]]]]; cbn in *; try congruence;
         unfold x_exclusive in *; rewrite Hy in *; congruence]).
  all: match goal with H : x_exclusive _ = true |- _ => apply excl_attr in H as [x [Hx Hex]] end;
    eapply inv_open; eauto.
Qed.

Lemma run_inv {S} mask (t : target S) ops : forall h m s,
  inv mask h m -> Forall xop_ok ops ->
  inv mask (h ++ history mask t (m, s) ops) (fst (exmon_run mask t (m, s) ops)).
Proof.
  induction ops as [|o ops IH]; intros h m s Hi Hok.
  - cbn. rewrite app_nil_r. exact Hi.
  - inversion Hok as [|? ? H1 H2]; subst. rewrite history_cons. cbn [exmon_run].
    pose proof (step_inv mask t h m s o Hi H1) as St.
    destruct (exmon_transport mask t (m, s) o) as [[m' s'] r] eqn:E. cbn [fst] in *.
    specialize (IH _ _ s' St H2). rewrite <- app_assoc in IH. exact IH.
Qed.

Lemma inv_init mask : inv mask [] [].
Proof.
  split; [constructor|]. split; [intros ? []|]. intros id a l. split; [intros []|].
  intros [b [e [af [E _]]]]. destruct b; discriminate.
Qed.

Lemma monitored_reserved mask h m o id :
  inv mask h m -> exclusive_write mask o id ->
  is_monitored mask m o = true <->
  reserved starts_inside mask h id (g_addr (xo_gp o)) (g_len (xo_gp o)).
Proof.
  intros [_ [_ I3]] [_ [x [Hx [_ Hid]]]]. unfold is_monitored. rewrite existsb_exists, <- I3.
  unfold has_masked_id, has_same_location. rewrite Hx, Hid. split.
  - intros [e [Hin H]]. apply andb_prop in H as [H1 H2]. apply andb_prop in H2 as [H2 H3].
    apply N.eqb_eq in H1, H2, H3. destruct e as [ea el ei]. cbn in *. subst. exact Hin.
  - intros Hin. eexists. split; [exact Hin|]. cbn. rewrite !N.eqb_refl. reflexivity.
Qed.

(** Aligned accesses of one size: overlapping means starting inside. *)
Lemma aligned_overlap n a b : 0 < n -> a mod n = 0 -> b mod n = 0 ->
  a < b + n -> b < a + n -> a = b.
Proof.
  intros Hn Ha Hb H1 H2.
  apply N.mod_divide in Ha as [p ->]; [|lia]. apply N.mod_divide in Hb as [q ->]; [|lia].
  assert (p < q + 1) by (apply (N.mul_lt_mono_pos_r n); lia).
  assert (q < p + 1) by (apply (N.mul_lt_mono_pos_r n); lia).
  assert (p = q) by lia. subst. reflexivity.
Qed.

Lemma reserved_same n mask h id a l :
  0 < n ->
  Forall (fun e : event => g_len (xo_gp (fst e)) = n /\ g_addr (xo_gp (fst e)) mod n = 0) h ->
  reserved starts_inside mask h id a l <-> reserved overlaps mask h id a l.
Proof.
  intros Hn F. unfold reserved.
  split; intros [b [e [af [E [Ho A]]]]]; exists b, e, af; (split; [exact E|]);
    (split; [exact Ho|]); subst h; apply Forall_app in F as [_ F];
    inversion F as [|? ? [F1 F2] F3]; subst;
    destruct Ho as [_ [_ [<- [<- _]]]].
  - rewrite Forall_forall in *. intros e' Hin. destruct (A e' Hin) as [A1 A2].
    split; [|exact A2]. intros [Hw [O1 O2]]. apply A1. split; [exact Hw|].
    destruct (F3 e' Hin) as [G1 G2]. rewrite G1 in O2. unfold starts_inside.
    rewrite (aligned_overlap _ (g_addr (xo_gp (fst e))) (g_addr (xo_gp (fst e'))) Hn F2 G2 O2 O1).
    lia.
  - rewrite Forall_forall in *. intros e' Hin. destruct (A e' Hin) as [A1 A2].
    split; [|exact A2]. intros [Hw [O1 O2]]. apply A1. split; [exact Hw|].
    destruct (F3 e' Hin) as [G1 G2]. unfold overlaps. lia.
Qed.

Lemma history_ops {S} mask (t : target S) ops : forall ms,
  map fst (history mask t ms ops) = ops.
Proof.
  induction ops as [|o ops IH]; intros ms; [reflexivity|].
  rewrite history_cons. cbn. rewrite IH. reflexivity.
Qed.
