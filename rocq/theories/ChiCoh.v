(** The coherence invariant of the CHI machine. *)
From Coq Require Import ZifyBool ZifyNat.
From Verif Require Import Base BaseFacts TlmModel TlmSpec AceSpec CachelineModel ChiModel ChiFacts.
Open Scope N_scope.

(** ** Which executions are covered *)
Section Allowed.
Context (f : cfg).

(** Loads and stores, not exclusive.  A store that covers a whole line enables
    all its bytes.  With randomised requests a store does not cross a line unless
    it starts at one, and one without disabled bytes consists of whole lines. *)
Definition op_ok (o : op) : Prop :=
  (o_kind o = O_Load \/ o_kind o = O_Store) /\ o_excl o = false /\
  (o_kind o = O_Store ->
     (forall p, line_off (o_addr o + p) = 0 -> p + 64 <= o_len o ->
        forall j, j < 64 -> be_at (o_be o) (p + j) = true) /\
     (f_rnd f = true ->
        (line_off (o_addr o) = 0 \/ line_off (o_addr o) + o_len o <= 64) /\
        (all_enabled o = true -> line_off (o_addr o) = 0 /\ o_len o mod 64 = 0))).

(** Connected through flit bridges, or without direct cache transfer and
    randomised requests. *)
Definition cfg_ok : Prop := f_flits f = true \/ (f_dct f = false /\ f_rnd f = false).

Definition hot_on (s : state) (j : nat) (t : N) : Prop :=
  exists r, s_t s j = Run r true /\ align (cur_addr r) = t.

(** - a CleanUnique is taken up while the requester still has the line;
    - no snoop between CleanUnique/MakeUnique and the store it was for;
    - no dirty line is snooped by a snoop that asks to forward it, except by
      SnpOnceFwd and by SnpUniqueFwd for ReadUnique. *)
Definition allowed (s : state) (lb : label) : Prop :=
  match lb with
  | L_Start _ o => op_ok o
  | L_Home i =>
    match s_t s i with
    | Wait _ q _ => q_op q = CleanUnique -> in_cache (slot f s i (q_addr q)) (q_addr q) = true
    | _ => True
    end
  | L_Snoop j _ =>
    match s_h s with
    | Some w => ~ hot_on s j (q_addr (w_q w)) /\
        (in_cache (slot f s j (q_addr (w_q w))) (q_addr (w_q w)) = true ->
         l_dirty (slot f s j (q_addr (w_q w))) = true -> w_fwd w = true ->
         snp_of (q_op (w_q w)) true <> snp_of (q_op (w_q w)) false -> fwd_dirty_ok (q_op (w_q w)) = true)
    | None => True
    end
  | _ => True
  end.
End Allowed.

Section Coh.
Context (f : cfg).
Notation index := (index f).

Implicit Types (C : nat -> N -> line) (F : nat -> N -> bool) (T : nat -> pc) (H : option work)
  (M G : mem) (i j : nat) (t : N).

Definition Ln C i t : line := C i (index t).
Definition hd C i t : Prop := l_valid (Ln C i t) = true /\ l_tag (Ln C i t) = t.
Definition memG M G t : Prop := forall k, k < 64 -> M (t + k) = G (t + k).

(** The home has the duty to write line [t], or its contents no longer matter. *)
Definition hcov H t : Prop :=
  exists w, H = Some w /\ q_addr (w_q w) = t /\
    (q_op (w_q w) = MakeUnique \/ q_op (w_q w) = WriteUniqueFull \/
     (w_comp w = None /\ pd (w_resp w) = true) \/
     (q_op (w_q w) = ReadUnique /\ exists d be, w_comp w = Some (6, d, be))).

Record LI C M F T H G t : Prop := {
  li_copy : forall i, hd C i t ->
    (full (Ln C i t) /\ same (l_data (Ln C i t)) G t) \/
    (exists r, T i = Run r true /\ align (cur_addr r) = t /\ empty (Ln C i t) /\
       l_dirty (Ln C i t) = false /\ seg_len r = 64);
  li_uniq : forall i j, i <> j -> hd C i t -> hd C j t -> l_shared (Ln C i t) = true;
  li_filter : forall i, hd C i t -> F i t = true;
  li_mem : memG M G t \/ (exists i, hd C i t /\ l_dirty (Ln C i t) = true) \/
    (exists i r, T i = Run r true /\ align (cur_addr r) = t) \/ hcov H t }.

(** A load or store under way. *)
Definition run_ok (r : run) : Prop :=
  op_ok f (r_op r) /\ r_pos r <= o_len (r_op r) /\ (r_pos r = 0 \/ line_off (cur_addr r) = 0 \/ r_pos r = o_len (r_op r)).
Definition main_ok (r : run) (m : req) : Prop :=
  q_addr m = align (cur_addr r) /\
  ((is_read (q_op m) = true /\ (non_coherent (q_op m) = true -> o_kind (r_op r) = O_Load /\ f_rnd f = true)) \/
   (q_op m = MakeUnique /\ o_kind (r_op r) = O_Store /\ seg_len r = 64)).
Definition cb_ok (c : N -> line) (q : req) : Prop :=
  align (q_addr q) = q_addr q /\
  (l_valid (c (index (q_addr q))) = true ->
   l_tag (c (index (q_addr q))) = q_addr q /\ q_data q = l_data (c (index (q_addr q))) /\
   q_be q = l_be (c (index (q_addr q)))).
Definition thr_ok (c : N -> line) (p : pc) : Prop :=
  match p with
  | Idle => True
  | Run r h => run_ok r /\
      (h = true -> o_kind (r_op r) = O_Store /\ r_pos r < o_len (r_op r) /\
         let l := c (index (align (cur_addr r))) in
         l_valid l = true /\ l_tag l = align (cur_addr r) /\ l_shared l = false)
  | Inval r m => run_ok r /\ r_pos r < o_len (r_op r) /\ main_ok r m
  | Wait r q n => run_ok r /\ r_pos r < o_len (r_op r) /\
      match n with
      | N_Inval m => main_ok r m /\ cb_ok c q /\ q_op q = WriteCleanFull /\ index (q_addr q) = index (q_addr m)
      | N_Issue m => main_ok r m /\ cb_ok c q /\ index (q_addr q) = index (q_addr m) /\
          ((copy_back (q_op q) = true /\ q_op q <> WriteCleanFull) \/
           (q_op q = Evict /\ l_valid (c (index (q_addr q))) = false))
      | N_Main =>
          (main_ok r q /\ l_valid (c (index (q_addr q))) = false) \/
          (q_op q = CleanUnique /\ q_addr q = align (cur_addr r) /\ o_kind (r_op r) = O_Store) \/
          ((q_op q = WriteUniquePtl \/ (q_op q = WriteUniqueFull /\ all_enabled (r_op r) = true)) /\
           q = write_req (q_op q) r /\ o_kind (r_op r) = O_Store /\
           f_rnd f = true /\
           ~ (l_valid (c (index (q_addr q))) = true /\ l_tag (c (index (q_addr q))) = q_addr q))
      end
  end.

Record work_ok C T G (w : work) : Prop := {
  wk_thr : exists r n, T (w_i w) = Wait r (w_q w) n;
  wk_todo : ~ In (w_i w) (w_todo w);
  wk_none : cls_of (q_op (w_q w)) = K_None -> w_todo w = [] /\ w_resp w = [] /\ w_comp w = None /\ w_got w = false;
  wk_seen : (cls_of (q_op (w_q w)) = K_Share \/ cls_of (q_op (w_q w)) = K_Once) ->
    forall j, j <> w_i w -> hd C j (q_addr (w_q w)) -> ~ In j (w_todo w) ->
      (cls_of (q_op (w_q w)) = K_Share -> l_shared (Ln C j (q_addr (w_q w))) = true) /\
      (nz (w_resp w) = true \/ w_comp w <> None);
  wk_inval : cls_of (q_op (w_q w)) = K_Inval ->
    forall j, j <> w_i w -> hd C j (q_addr (w_q w)) -> In j (w_todo w);
  wk_cu : q_op (w_q w) = CleanUnique -> hd C (w_i w) (q_addr (w_q w));
  wk_got : w_got w = true -> (forall k, k < 64 -> w_be w k = true) /\
    ((same (w_data w) G (q_addr (w_q w)) /\
      forall j, In j (w_todo w) -> hd C j (q_addr (w_q w)) -> l_shared (Ln C j (q_addr (w_q w))) = true) \/
     (cls_of (q_op (w_q w)) = K_Once /\ forall j, In j (w_todo w) -> ~ hd C j (q_addr (w_q w))));
  wk_nz : is_read (q_op (w_q w)) = true -> nz (w_resp w) = true -> w_got w = true \/ w_comp w <> None;
  wk_pd : pd (w_resp w) = true -> w_got w = true /\ cls_of (q_op (w_q w)) <> K_Once;
  wk_fwd : w_fwd w = true -> f_dct f = true /\ (length (w_todo w) + length (w_resp w) <= 1)%nat;
  wk_ptl : w_ptl w = false;
  wk_ev : w_ev w = non_coherent (q_op (w_q w)) && (w_got w || match w_comp w with Some _ => true | None => false end);
  wk_comp : forall rs d be, w_comp w = Some (rs, d, be) ->
    is_read (q_op (w_q w)) = true /\ w_todo w = [] /\ (forall k, k < 64 -> be k = true) /\
    pd (w_resp w) = false /\
    (cls_of (q_op (w_q w)) <> K_Once -> same d G (q_addr (w_q w))) /\
    (cls_of (q_op (w_q w)) = K_Share -> rs = 1) /\ (q_op (w_q w) = ReadUnique -> rs = 2 \/ rs = 6);
  wk_resp : w_resp w = [] -> w_got w = false }.

Record Inv (s : state) (G : mem) : Prop := {
  iv_n : forall i, (f_n f <= i)%nat -> s_t s i = Idle /\ forall x, l_valid (s_c s i x) = false;
  iv_tag : forall i x, l_valid (s_c s i x) = true -> align (l_tag (s_c s i x)) = l_tag (s_c s i x) /\ index (l_tag (s_c s i x)) = x;
  iv_thr : forall i, thr_ok (s_c s i) (s_t s i);
  iv_line : forall t, align t = t -> LI (s_c s) (s_mem s) (s_f s) (s_t s) (s_h s) G t;
  iv_work : forall w, s_h s = Some w -> work_ok (s_c s) (s_t s) G w }.

Lemma inv_init m d : Inv (init m d) m.
Proof.
  constructor; cbn.
  - auto.
  - discriminate.
  - auto.
  - intros t Ht. constructor; unfold hd, Ln; cbn.
    + intros i [X _]. discriminate.
    + intros i j _ [X _]. discriminate.
    + intros i [X _]. discriminate.
    + left. intros k Hk. reflexivity.
  - discriminate.
Qed.

(** ** Frame lemmas *)
Lemma updn_same {A} (g : nat -> A) i v : updn g i v i = v.
Proof. unfold updn. now rewrite Nat.eqb_refl. Qed.
Lemma updn_other {A} (g : nat -> A) i j v : j <> i -> updn g i v j = g j.
Proof. unfold updn. intro Hn. destruct (Nat.eqb_spec j i); congruence. Qed.
Lemma updN_same {A} (g : N -> A) (i : N) v : updN g i v i = v.
Proof. unfold updN. now rewrite N.eqb_refl. Qed.
Lemma updN_other {A} (g : N -> A) (i j : N) v : j <> i -> updN g i v j = g j.
Proof. unfold updN. intro Hn. destruct (N.eqb_spec j i); congruence. Qed.

Lemma LI_frame C M F T H G C' M' F' T' H' G' t :
  LI C M F T H G t ->
  (forall i, hd C i t \/ hd C' i t -> Ln C' i t = Ln C i t) ->
  (forall i, hd C i t -> F i t = true -> F' i t = true) ->
  (forall k, k < 64 -> M' (t + k) = M (t + k)) ->
  (forall k, k < 64 -> G' (t + k) = G (t + k)) ->
  (forall i r, T i = Run r true -> align (cur_addr r) = t -> T' i = Run r true) ->
  (hcov H t -> hcov H' t) ->
  LI C' M' F' T' H' G' t.
Proof.
  intros L HC HF HM HG HT HH.
  assert (E : forall i, hd C' i t <-> hd C i t).
  { intro i. split; intro X.
    - pose proof (HC i (or_intror X)) as Y. unfold hd in *. now rewrite <- Y.
    - pose proof (HC i (or_introl X)) as Y. unfold hd in *. now rewrite Y. }
  constructor.
  - intros i Hi. apply E in Hi. rewrite (HC i (or_introl Hi)).
    destruct (li_copy _ _ _ _ _ _ _ L i Hi) as [[A B]|(r & A & B & D)].
    + left. split; [exact A|]. intros k Hk. rewrite HG by exact Hk. now apply B.
    + right. exists r. repeat split; try apply D; auto.
  - intros i j Hn Hi Hj. apply E in Hi, Hj. rewrite (HC i (or_introl Hi)). eapply li_uniq; eauto.
  - intros i Hi. apply E in Hi. apply HF; [exact Hi|]. eapply li_filter; eauto.
  - destruct (li_mem _ _ _ _ _ _ _ L) as [A|[(i & A & B)|[(i & r & A & B)|A]]].
    + left. intros k Hk. rewrite HM, HG by exact Hk. now apply A.
    + right; left. exists i. split; [now apply E|]. now rewrite (HC i (or_introl A)).
    + right; right; left. exists i, r. auto.
    + right; right; right. auto.
Qed.

(** A change of the process state of [i] only. *)
Lemma inv_goto s G i p :
  Inv s G -> (i < f_n f)%nat -> thr_ok (s_c s i) p ->
  (forall r, s_t s i <> Run r true) ->
  (forall r q n, s_t s i <> Wait r q n) \/ s_h s = None ->
  Inv (goto s i p) G.
Proof.
  intros I Hi Hp Hh Hw. constructor; cbn.
  - intros j Hj. destruct (iv_n _ _ I j Hj) as [A B]. split; [|exact B]. rewrite updn_other by lia. exact A.
  - apply (iv_tag _ _ I).
  - intro j. destruct (Nat.eq_dec j i) as [->|Hn]; [rewrite updn_same; exact Hp|].
    rewrite updn_other by exact Hn. apply (iv_thr _ _ I).
  - intros t Ht. eapply LI_frame; [apply (iv_line _ _ I t Ht)| | | | | |]; auto.
    intros j r Hj _. rewrite updn_other; [exact Hj|]. intros ->. now apply (Hh r).
  - intros w Hw0. destruct Hw as [Hw|Hw]; [|congruence]. destruct (iv_work _ _ I w Hw0). constructor; auto.
    destruct wk_thr0 as (r & n & X). exists r, n. rewrite updn_other; [exact X|]. intro Y. rewrite Y in X. now apply (Hw _ _ _ X).
Qed.


Definition tnot (T : nat -> pc) i : Prop := (forall r, T i <> Run r true).

Lemma LI_weaken C M F T H G C' M' F' T' H' t i :
  LI C M F T H G t -> (forall r, T i = Run r true -> align (cur_addr r) = t -> False) ->
  (forall j, j <> i -> Ln C' j t = Ln C j t) ->
  (hd C' i t -> hd C i t /\ l_data (Ln C' i t) = l_data (Ln C i t) /\ l_be (Ln C' i t) = l_be (Ln C i t) /\
     (l_shared (Ln C i t) = true -> l_shared (Ln C' i t) = true)) ->
  (forall j, hd C' j t -> F j t = true -> F' j t = true) ->
  (forall j r, T j = Run r true -> align (cur_addr r) = t -> T' j = Run r true) ->
  (memG M' G t \/ (exists j, hd C' j t /\ l_dirty (Ln C' j t) = true) \/
    (exists j r, T' j = Run r true /\ align (cur_addr r) = t) \/ hcov H' t) ->
  LI C' M' F' T' H' G t.
Proof.
  intros L Ht HC Hi HF HT HM.
  assert (E : forall j, hd C' j t -> hd C j t).
  { intros j Hj. destruct (Nat.eq_dec j i) as [->|Hn]; [apply Hi, Hj|]. unfold hd in *. now rewrite <- HC. }
  constructor.
  - intros j Hj. pose proof (E j Hj) as Hj0. destruct (Nat.eq_dec j i) as [->|Hn].
    + destruct (Hi Hj) as (_ & A & B & _).
      destruct (li_copy _ _ _ _ _ _ _ L i Hj0) as [[X Y]|(r & X & X1 & _)]; [|now apply Ht in X].
      left. split; [|now rewrite A]. intros k Hk. rewrite B. now apply X.
    + rewrite HC by exact Hn. destruct (li_copy _ _ _ _ _ _ _ L j Hj0) as [X|(r & X & Y)]; [now left|].
      right. exists r. split; [|exact Y]. apply HT; [exact X|apply Y].
  - intros j k Hn Hj Hk. pose proof (E j Hj) as Hj0. pose proof (E k Hk) as Hk0.
    pose proof (li_uniq _ _ _ _ _ _ _ L j k Hn Hj0 Hk0) as S.
    destruct (Nat.eq_dec j i) as [->|Hni]; [now apply Hi|now rewrite HC].
  - intros j Hj. apply HF; [exact Hj|]. eapply li_filter; eauto.
  - exact HM.
Qed.

(** The end of the request the home works on. *)
Lemma inv_done s G w G' C' M' F' p :
  Inv s G -> s_h s = Some w ->
  (forall j, j <> w_i w -> C' j = s_c s j) ->
  (forall x, x <> index (q_addr (w_q w)) -> C' (w_i w) x = s_c s (w_i w) x) ->
  (C' (w_i w) (index (q_addr (w_q w))) = s_c s (w_i w) (index (q_addr (w_q w))) \/
   (l_valid (s_c s (w_i w) (index (q_addr (w_q w)))) = true ->
    l_tag (s_c s (w_i w) (index (q_addr (w_q w)))) = q_addr (w_q w)) /\
   (l_valid (C' (w_i w) (index (q_addr (w_q w)))) = true ->
    l_tag (C' (w_i w) (index (q_addr (w_q w)))) = q_addr (w_q w))) ->
  (forall j t, t <> q_addr (w_q w) -> F' j t = s_f s j t) ->
  (forall t k, align t = t -> t <> q_addr (w_q w) -> k < 64 -> M' (t + k) = s_mem s (t + k)) ->
  (forall t k, align t = t -> t <> q_addr (w_q w) -> k < 64 -> G' (t + k) = G (t + k)) ->
  align (q_addr (w_q w)) = q_addr (w_q w) ->
  thr_ok (C' (w_i w)) p ->
  LI C' M' F' (updn (s_t s) (w_i w) p) None G' (q_addr (w_q w)) ->
  Inv (mkState C' M' F' (updn (s_t s) (w_i w) p) None) G'.
Proof.
  intros I Hw HC Hx Ha HF HM HG Al Hp L.
  destruct (iv_work _ _ I w Hw) as [(r & n & Hwt) _ _ _ _ _ _ _ _ _ _ _ _].
  set (i := w_i w) in *. set (a := q_addr (w_q w)) in *.
  assert (Hi : (i < f_n f)%nat).
  { destruct (Nat.lt_ge_cases i (f_n f)) as [X|X]; [exact X|]. destruct (iv_n _ _ I i X) as [Y _]. congruence. }
  constructor; cbn.
  - intros j Hj. rewrite updn_other by lia. rewrite HC by lia. now apply (iv_n _ _ I).
  - intros j x V. destruct (Nat.eq_dec j i) as [->|Hn]; [|rewrite HC in * by exact Hn; now apply (iv_tag _ _ I)].
    destruct (N.eq_dec x (index a)) as [->|Hxn]; [|rewrite Hx in * by exact Hxn; now apply (iv_tag _ _ I)].
    destruct Ha as [Ha|[_ Ha]]; [rewrite Ha in *; now apply (iv_tag _ _ I)|]. rewrite (Ha V). auto.
  - intro j. destruct (Nat.eq_dec j i) as [->|Hn]; [now rewrite updn_same|].
    rewrite updn_other, HC by exact Hn. apply (iv_thr _ _ I).
  - intros t Ht. destruct (N.eq_dec t a) as [->|Hta]; [exact L|].
    eapply LI_frame; [apply (iv_line _ _ I t Ht)| | | | | |].
    + intros j Hj. unfold Ln in *. destruct (Nat.eq_dec j i) as [->|Hn]; [|now rewrite HC].
      destruct (N.eq_dec (index t) (index a)) as [E|E]; [|now apply Hx].
      unfold hd, Ln in Hj. rewrite E in *. destruct Ha as [Ha|[Ha1 Ha2]]; [exact Ha|].
      exfalso. destruct Hj as [[V Tg]|[V Tg]]; [specialize (Ha1 V)|specialize (Ha2 V)]; congruence.
    + intros j _ X. now rewrite HF.
    + intros k Hk. now apply HM.
    + intros k Hk. now apply HG.
    + intros j r0 X _. rewrite updn_other; [exact X|]. intros ->. congruence.
    + intros (w' & X & Y & _). rewrite Hw in X. injection X as <-. exfalso. now apply Hta.
  - discriminate.
Qed.

Lemma hd_slot s i t : align t = t -> (in_cache (slot f s i t) t = true <-> hd (s_c s) i t).
Proof. intro Ht. rewrite in_cache_spec. unfold hd, Ln, slot. now rewrite Ht. Qed.

(** A process that is not just after CleanUnique/MakeUnique has whole lines only. *)
Lemma inv_copy s G i x :
  Inv s G -> tnot (s_t s) i -> l_valid (s_c s i x) = true ->
  full (s_c s i x) /\ same (l_data (s_c s i x)) G (l_tag (s_c s i x)).
Proof.
  intros I Ht V. destruct (iv_tag _ _ I i x V) as [A B].
  assert (Hh : hd (s_c s) i (l_tag (s_c s i x))) by (unfold hd, Ln; rewrite B; auto).
  destruct (li_copy _ _ _ _ _ _ _ (iv_line _ _ I _ A) i Hh) as [X|(r & X & _)]; [|now apply Ht in X].
  unfold Ln in X. now rewrite B in X.
Qed.

(** ** Events *)
Definition G_ev (G : mem) (e : event) : mem := match e with Ev_Write _ _ l => fold_left put l G | _ => G end.
Definition ev_ok (G : mem) (e : event) : Prop :=
  match e with
  | Ev_Read _ sec l => forall a, In a l -> a_en a = true -> a_byte a = G (a_addr a)
  | _ => True
  end.
Definition ev_sec (e : event) : Prop := match e with Ev_Read _ s _ | Ev_Write _ s _ => s = false | _ => True end.
Definition good (x : res (state * list event)) (G : mem) : Prop :=
  match x with
  | Ok (s, []) => Inv s G
  | Ok (s, [e]) => ev_sec e /\ ev_ok G e /\ Inv s (G_ev G e)
  | Ok _ => False
  | AssertFail | UB => False
  | Unmodelled => True
  end.

Lemma read_piece_ok d r G i :
  same d G (align (cur_addr r)) -> ev_ok G (Ev_Read i false (read_piece d r)).
Proof.
  intros Hd a Ha _. unfold read_piece in Ha. apply in_map_iff in Ha as (k & <- & Hk). cbn.
  apply in_seq in Hk. pose proof (seg_len_line r). pose proof (align_off (cur_addr r)).
  rewrite Hd by lia. f_equal. lia.
Qed.

End Coh.
